(** Specification vocabulary for the cycle check: the dependency graph and its cycles. *)
From stdpp Require Import gmap strings list relations.
From Verif Require Import Err Validate.

(** [a] lists [b] in its Inputs *)
Definition depends (g : graph) (a b : string) : Prop :=
  exists l, g !! a = Some l /\ b ∈ l.

(** [n] can be reached from itself by one or more dependencies *)
Definition on_cycle (g : graph) (n : string) : Prop := tc (depends g) n n.

Definition acyclic (g : graph) : Prop := forall n, ~ on_cycle g n.

(** [order] is one of the orders in which Go may range over a map with these keys *)
Definition map_order {A} (m : gmap string A) (order : list string) : Prop :=
  order ≡ₚ (map_to_list m).*1.
