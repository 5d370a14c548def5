(** Vocabulary for C89: the life of one worker of a catacomb, as an automaton over what is observed of it. A worker may be added more
    than once; a binding is one of those times. *)
From stdpp Require Import gmap strings list.
From Verif Require Import Err Catacomb.

Inductive life :=
  | NotBegun
  | Owned (w : wk) (killed told : bool)    (* the binding called Kill on the worker or not; it passed the worker's error to Kill of the catacomb or not *)
  | Released (w : wk) (killed told : bool) (* its goroutines are gone *)
  | Wrong.

(** Which binding an event is about. *)
Definition binding_of (ev : event) : option nat :=
  match ev with
  | EvBind b _ | EvGone b | EvWKill (ByBind b) _ | EvKill (FromWorker b) _ | EvKillPanic (FromWorker b) _ => Some b
  | _ => None
  end.
(** The arrows of the automaton. *)
Definition next (p : life) (ev : event) : life :=
  match p, ev with
  | NotBegun, EvBind _ w => Owned w false false
  | Owned w false t, EvWKill _ w' => if bool_decide (w' = w) then Owned w true t else Wrong
  | Owned w k false, EvKill _ (Some _) | Owned w k false, EvKillPanic _ (Some _) => Owned w k true
  | Owned w k t, EvGone _ => Released w k t
  | _, _ => Wrong
  end.
(** The events of the log (newest first) that are about binding [b] lead there. *)
Fixpoint life_of (log : list event) (b : nat) : life :=
  match log with
  | [] => NotBegun
  | ev :: log' => if bool_decide (binding_of ev = Some b) then next (life_of log' b) ev else life_of log' b
  end.
