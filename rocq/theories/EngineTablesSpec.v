(** C90: what the engine's tables should hold. *)
From stdpp Require Import gmap strings list.
From Verif Require Import Err Snapshot Engine EngineSpec.

(** A manifold that lists [x] among its inputs was installed at some time. *)
Definition ever_input (log : list event) (x : string) : Prop := exists d m, EvInstalled d m ∈ log /\ x ∈ m_inputs m.

(** How often a name occurs in a list. *)
Fixpoint count (x : string) (l : list string) : nat :=
  match l with [] => 0 | y :: l => (if decide (y = x) then 1 else 0) + count x l end.
