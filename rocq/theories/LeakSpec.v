(** Vocabulary for C88: counting events. *)
From stdpp Require Import gmap strings list.
From Coq Require Import ZArith.
From Verif Require Import Err Snapshot.
From Verif Require Engine Runner.

(** How many events of a log are of a kind. *)
Fixpoint how_many {A : Type} (kind : A -> bool) (log : list A) : nat :=
  match log with
  | [] => 0
  | ev :: log' => (if kind ev then 1 else 0) + how_many kind log'
  end.

(** The engine created a goroutine (runWorker) for an attempt; it handled the end of one; Install; uninstall. *)
Definition e_launch (ev : Engine.event) : bool := match ev with Engine.EvAttempt _ _ _ _ _ => true | _ => false end.
Definition e_finish (ev : Engine.event) : bool := match ev with Engine.EvStopped _ _ _ _ _ => true | _ => false end.
Definition e_install (ev : Engine.event) : bool := match ev with Engine.EvInstalled _ _ => true | _ => false end.
Definition e_uninstall (ev : Engine.event) : bool := match ev with Engine.EvUninstall _ => true | _ => false end.

(** The runner created a goroutine (runWorker); it handled the end of one; an id became known; it was removed. *)
Definition r_launch (ev : Runner.event) : bool := match ev with Runner.EvSpawn _ _ _ _ _ => true | _ => false end.
Definition r_finish (ev : Runner.event) : bool := match ev with Runner.EvDone _ _ _ _ => true | _ => false end.
Definition r_known (ev : Runner.event) : bool := match ev with Runner.EvKnown _ _ _ => true | _ => false end.
Definition r_removed (ev : Runner.event) : bool := match ev with Runner.EvRemoved _ _ => true | _ => false end.
