(** Vocabulary for C85: what decides which manifolds run. *)
From stdpp Require Import gmap strings list relations.
From Coq Require Import ZArith.
From Verif Require Import Err Snapshot Engine EngineSpec.

(** A worker is registered for the name. *)
Definition running (log : list event) (n : string) : Prop := is_Some (registered log n).

(** The declared inputs of a manifold that have a worker in a snapshot; those that have one registered now. *)
Definition given (m : manifold) (sn : snap) : list string :=
  List.filter (fun x => match sn_workers sn !! x with Some (Some _) => true | _ => false end) (m_inputs m).
Definition running_inputs (log : list event) (m : manifold) : list string :=
  List.filter (fun x => match registered log x with Some _ => true | None => false end) (m_inputs m).

(** The Start funcs are predictable: whether a call returns a worker is a function [runs] of the func and of the declared
    inputs that were running when the attempt was launched. (Which worker, and with what error it fails, may vary.) *)
Definition predictable (runs : nat -> list string -> bool) (log : list event) : Prop :=
  forall pre g n sn t d post m r, log = pre ++ EvAttempt g n sn t d :: post -> installed post n = Some m ->
  EvStartRet g n r ∈ log -> (runs (m_start m) (given m sn) = true <-> exists w, r = inl w).

(** ... and in particular: they return a worker exactly if all declared inputs were running. *)
Definition needs_all (log : list event) : Prop :=
  forall pre g n sn t d post m r, log = pre ++ EvAttempt g n sn t d :: post -> installed post n = Some m ->
  EvStartRet g n r ∈ log -> ((forall x, x ∈ m_inputs m -> exists w, sn_workers sn !! x = Some (Some w)) <-> exists w, r = inl w).

(** No worker retired: one that exited although it was not asked to stop did so with an error after which the engine starts
    the manifold again (or gives it up, by ErrUninstall or by stopping altogether). *)
Definition none_retired (log : list event) : Prop :=
  forall pre g n raw e t post, log = pre ++ EvStopped g n raw e t :: post -> EvExit g n raw ∈ post ->
  asked_to_stop post g \/ terminal e = false.
