(** What it means for a run of the fine-grained loop (EngineFine.v) to be a run of Engine.v. *)
From stdpp Require Import gmap strings list sorting.
From RecordUpdate Require Import RecordSet.
From Verif Require Import Err Tomb Validate Snapshot Engine EngineFine.
Import RecordSetNotations.

(** Events of the loop goroutine: what it did with manifolds, attempts and workers, and what it answered. *)
Definition loop_event (ev : event) : bool :=
  match ev with
  | EvInstalled _ _ | EvAttempt _ _ _ _ _ | EvRegister _ _ _ _ | EvMetric _ | EvCancel _ _ | EvStopped _ _ _ _ _
  | EvUninstall _ | EvDead | EvReport _ => true
  | EvInstall _ _ r => match r with Some (EMsg MsgShuttingDown) => false | _ => true end
  | EvStartCall _ _ _ _ | EvStartRet _ _ _ | EvGet _ _ _ _ _ | EvExit _ _ _ | EvWait _ => false
  | EvKill _ _ _ | EvDying => false              (* by either *)
  end.

(** Events of the other goroutines: calls of Start, their returns, uses of getters, ends of workers, refused
    Install calls, Wait calls. *)
Definition other_event (ev : event) : bool :=
  match ev with
  | EvStartCall _ _ _ _ | EvStartRet _ _ _ | EvGet _ _ _ _ _ | EvExit _ _ _ | EvWait _ => true
  | EvInstall _ _ r => match r with Some (EMsg MsgShuttingDown) => true | _ => false end
  | _ => false
  end.

(** The two states are equal but for the log; the logs have the same events, those of the loop in the same
    order, and those of the other goroutines in the same order. *)
Record same (c f : state) : Prop := {
  sm_state : c = f <| s_log := s_log c |>;
  sm_events : s_log c ≡ₚ s_log f;
  sm_loop : List.filter loop_event (s_log c) = List.filter loop_event (s_log f);
  sm_others : List.filter other_event (s_log c) = List.filter other_event (s_log f)
}.
