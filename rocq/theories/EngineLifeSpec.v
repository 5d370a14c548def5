(** Vocabulary for C89: the life of one of the engine's attempts to start a worker, as an automaton over what is observed of it. *)
From stdpp Require Import gmap strings list.
From Coq Require Import ZArith.
From Verif Require Import Err Snapshot Engine.

Inductive stage :=
  | Planned                              (* the engine decided to start the worker *)
  | Calling                              (* Start was called *)
  | Failed                               (* Start returned an error *)
  | Returned (w : worker)                (* Start returned a worker *)
  | Running (w : worker)                 (* the engine accepted it *)
  | Killed (w : worker)                  (* Kill was called on it *)
  | Exited (w : worker) (killed : bool)  (* its Wait returned *)
  | Over.                                (* the engine recorded the end of the attempt *)
(** An attempt that was made is for a name, and its context was cancelled by the engine or not. *)
Inductive life := NotBegun | At (n : string) (cancelled : bool) (st : stage) | Wrong.

(** Which attempt an event is about; calls of the getter are not counted. *)
Definition attempt_of (ev : event) : option nat :=
  match ev with
  | EvAttempt g _ _ _ _ | EvStartCall g _ _ _ | EvStartRet g _ _ | EvRegister g _ _ _ | EvCancel g _ | EvKill g _ _
  | EvExit g _ _ | EvStopped g _ _ _ _ => Some g
  | _ => None
  end.
Definition name_of (ev : event) : string :=
  match ev with
  | EvAttempt _ n _ _ _ | EvStartCall _ n _ _ | EvStartRet _ n _ | EvRegister _ n _ _ | EvCancel _ n | EvKill _ n _
  | EvExit _ n _ | EvStopped _ n _ _ _ => n
  | _ => EmptyString
  end.
(** The arrows of the automaton. *)
Definition arrow (n : string) (c : bool) (st : stage) (ev : event) : life :=
  match ev, st with
  | EvStartCall _ _ _ _, Planned => At n c Calling
  | EvStartRet _ _ (inl w), Calling => At n c (Returned w)
  | EvStartRet _ _ (inr _), Calling => At n c Failed
  | EvRegister _ _ w _, Returned w' => if bool_decide (w = w') && negb c then At n c (Running w) else Wrong
  | EvKill _ _ w, Returned w' | EvKill _ _ w, Running w' => if bool_decide (w = w') then At n c (Killed w) else Wrong
  | EvKill _ _ w, Exited w' false => if bool_decide (w = w') then At n c (Exited w true) else Wrong
  | EvExit _ _ _, Running w => At n c (Exited w false)
  | EvExit _ _ _, Killed w => At n c (Exited w true)
  | EvStopped _ _ _ _ _, Planned | EvStopped _ _ _ _ _, Failed | EvStopped _ _ _ _ _, Exited _ _ => At n c Over
  | EvCancel _ _, Over => Wrong
  | EvCancel _ _, _ => if c then Wrong else At n true st
  | _, _ => Wrong
  end.
Definition next (p : life) (ev : event) : life :=
  match p, ev with
  | NotBegun, EvAttempt _ n _ _ _ => At n false Planned
  | At n c st, _ => if bool_decide (name_of ev = n) then arrow n c st ev else Wrong
  | _, _ => Wrong
  end.
(** The events of the log (newest first) that are about attempt [g] lead there. *)
Fixpoint life_of (log : list event) (g : nat) : life :=
  match log with
  | [] => NotBegun
  | ev :: log' => if bool_decide (attempt_of ev = Some g) then next (life_of log' g) ev else life_of log' g
  end.
