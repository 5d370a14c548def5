(** Vocabulary for C81: infinite executions of workers made of workers. *)
From stdpp Require Import gmap strings list relations.
From Verif Require Import Err Tomb Tree TreeSpec FairSpec.
From Verif Require RunnerSpec RunnerProgressSpec FairCatacombSpec.

(** The steps of worker [m] that are bound to happen. *)
Definition bound_in (m : nat) (F : forest) (l : flabel) : Prop :=
  exists nd x cs, l = FStep m x cs /\ f_nodes F !! m = Some nd /\ bound_to_happen nd x.
(** If [m] is a runner and somebody called Kill on it, its loop takes the Dying case of its select in the end. *)
Definition heeds (m : nat) (tr : nat -> forest) : Prop :=
  forall i P s, f_nodes (tr i) !! m = Some (NRunner P s) -> Runner.EvKilled ∈ RunnerSpec.rlog s ->
  exists j s', i <= j /\ f_nodes (tr j) !! m = Some (NRunner P s') /\ RunnerSpec.stopping_all (RunnerSpec.rlog s').
(** Clients give a runner or a catacomb new work. *)
Definition new_work (l : nlabel) : bool :=
  match l with
  | LRunner l => RunnerProgressSpec.request l
  | LCatacomb l => FairCatacombSpec.new_work l
  | _ => false
  end.
