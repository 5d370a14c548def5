(** Vocabulary for property C57. *)
From stdpp Require Import gmap strings list.
From Verif Require Import Err Stub.

(** The first output that can be stored in a variable of type [t]: those before it cannot. *)
Definition first_fit (R : reflection) (t : nat) (outputs : list value) (t' x : nat) : Prop :=
  exists l1 l2, outputs = l1 ++ VVal t' x :: l2 /\ rf_convertible R t' t = true /\ forall v, v ∈ l1 -> exists u y, v = VVal u y /\ rf_convertible R u t = false.
Definition no_fit (R : reflection) (t : nat) (outputs : list value) : Prop :=
  forall v, v ∈ outputs -> exists u y, v = VVal u y /\ rf_convertible R u t = false.
Definition nil_first (R : reflection) (t : nat) (outputs : list value) : Prop :=
  exists l1 l2, outputs = l1 ++ VNil :: l2 /\ forall v, v ∈ l1 -> exists u y, v = VVal u y /\ rf_convertible R u t = false.
