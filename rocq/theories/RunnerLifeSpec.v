(** Vocabulary for C89: the life of one goroutine of the runner, as an automaton over what is observed of it. *)
From stdpp Require Import gmap strings list.
From Coq Require Import ZArith.
From Verif Require Import Err Runner.

Inductive stage :=
  | Planned                             (* the loop decided to start the worker *)
  | Calling                             (* the start func was called *)
  | Failed                              (* it returned an error *)
  | Returned (w : nat) (ended : bool)   (* it returned a worker, which may have finished already *)
  | Up (w : nat) (killed ended : bool)  (* the loop accepted the worker; Kill was called on it or not; it finished or not *)
  | Gone (left : option nat).           (* the loop handled the end; the worker, if there was one and Kill was not called on it *)
Inductive life := NotBegun | At (id : string) (st : stage) | Wrong.

(** Which goroutine an event is about, and for which id. *)
Definition goroutine_of (ev : event) : option nat :=
  match ev with
  | EvSpawn g _ _ _ _ | EvStartCall g _ _ _ | EvStartRet g _ _ | EvSet g _ _ | EvKill g _ _ | EvEnd g _ _ | EvDone g _ _ _ => Some g
  | _ => None
  end.
Definition id_of (ev : event) : string :=
  match ev with
  | EvSpawn _ id _ _ _ | EvStartCall _ id _ _ | EvStartRet _ id _ | EvSet _ id _ | EvKill _ id _ | EvEnd _ id _ | EvDone _ id _ _ => id
  | _ => EmptyString
  end.
(** The arrows of the automaton. The last one is there because workerDone (runner.go:554-557) leaves the old worker in the info while
    it waits for the restart: stopping the id kills it again. *)
Definition arrow (id : string) (st : stage) (ev : event) : life :=
  match ev, st with
  | EvStartCall _ _ _ _, Planned => At id Calling
  | EvStartRet _ _ (inl w), Calling => At id (Returned w false)
  | EvStartRet _ _ (inr _), Calling => At id Failed
  | EvEnd _ _ _, Returned w false => At id (Returned w true)
  | EvEnd _ _ _, Up w k false => At id (Up w k true)
  | EvSet _ _ w, Returned w' e => if bool_decide (w = w') then At id (Up w false e) else Wrong
  | EvKill _ _ w, Up w' false e => if bool_decide (w = w') then At id (Up w true e) else Wrong
  | EvDone _ _ _ _, Planned | EvDone _ _ _ _, Failed => At id (Gone None)
  | EvDone _ _ _ _, Up w k true => At id (Gone (if k then None else Some w))
  | EvKill _ _ w, Gone (Some w') => if bool_decide (w = w') then At id (Gone None) else Wrong
  | _, _ => Wrong
  end.
Definition next (p : life) (ev : event) : life :=
  match p, ev with
  | NotBegun, EvSpawn _ id _ _ _ => At id Planned
  | At id st, _ => if bool_decide (id_of ev = id) then arrow id st ev else Wrong
  | _, _ => Wrong
  end.
(** The events of the log (newest first) that are about goroutine [g] lead there. *)
Fixpoint life_of (log : list event) (g : nat) : life :=
  match log with
  | [] => NotBegun
  | ev :: log' => if bool_decide (goroutine_of ev = Some g) then next (life_of log' g) ev else life_of log' g
  end.
