(** Vocabulary for the properties of the Catacomb (C43-C53): what an observer can say about an execution given only
    its log, newest event first. *)
From stdpp Require Import gmap strings list.
From Verif Require Import Err Catacomb.

(** Kill was called. *)
Definition is_dying (log : list event) : Prop := exists src e, EvKill src e ∈ log.

(** What a call Kill(e) says about the reason of death (documentation of Kill, catacomb.go:243-251): nothing if it is nil
    or caused by the catacomb's own ErrDying, a complaint if it is tomb.ErrDying or another catacomb's. *)
Definition says (me : nat) (e : option err) : option err :=
  match e with
  | None => None
  | Some x =>
    if bool_decide (x = ETombDying) then Some (EMsg MsgBadKillTomb)
    else match as_dying x with
         | Some c => if bool_decide (c = me) then None else Some (EMsg MsgBadKillOther)
         | None => Some x
         end
  end.
(** The first thing that was said. *)
Fixpoint first_said (me : nat) (log : list event) : option err :=
  match log with
  | [] => None
  | EvKill _ e :: log' => match first_said me log' with Some x => Some x | None => says me e end
  | _ :: log' => first_said me log'
  end.

(** The worker has finished (with error [e]). The parent worker has when the catacomb is dead. *)
Definition finished (log : list event) (w : wk) : Prop :=
  match w with WExt n => exists e, EvEnd n e ∈ log | WSelf => EvDead ∈ log end.
Definition finished_with (me : nat) (log : list event) (w : wk) (e : option err) : Prop :=
  match w with WExt n => EvEnd n e ∈ log | WSelf => EvDead ∈ log /\ e = first_said me log end.

(** Work is over. What runSafely makes of it (catacomb.go:315-326): the error it passes to Kill; after runtime.Goexit nothing. *)
Definition work_returned (log : list event) : Prop := exists r, EvWorkRet r ∈ log.
Definition outcome (r : wret) : option (option err) :=
  match r with WkReturn e => Some e | WkPanic v => Some (Some (EMsg (MsgPanicked v))) | WkGoexit => None end.

(** Every event of the log satisfied [Q] with respect to what had happened before. *)
Fixpoint hist (Q : event -> list event -> Prop) (log : list event) : Prop :=
  match log with
  | [] => True
  | ev :: post => Q ev post /\ hist Q post
  end.

(** The workers bound so far, and the workers accepted by Add so far, oldest first. *)
Fixpoint bound_of (log : list event) : list wk :=
  match log with
  | [] => []
  | EvBind _ w :: log' => bound_of log' ++ [w]
  | _ :: log' => bound_of log'
  end.
Fixpoint accepted_of (log : list event) : list wk :=
  match log with
  | [] => []
  | EvAddRet _ w None :: log' => accepted_of log' ++ [w]
  | _ :: log' => accepted_of log'
  end.
(** The workers of a plan. *)
Definition inits (p : plan) : list wk := omap (fun x => x) (p_init p).
(** What the documentation of Plan asks for (catacomb.go:36-51). *)
Definition valid_plan (p : plan) : Prop := p_name p <> ""%string /\ p_site p = true /\ p_work p = true /\ ~ None ∈ p_init p.
(** The error that Invoke call [i] with plan [p] fails with: the plan is not valid, or another call used the catacomb before. *)
Definition failure (log : list event) (i : nat) (p : plan) (r : err) : Prop :=
  (~ valid_plan p /\ exists m, r = EWrap MsgTrace (ETyped TNotValid m)) \/
  (valid_plan p /\ r = EMsg MsgReused /\ exists j, j <> i /\ EvUsed j ∈ log).
(** Call [i] of Invoke killed the worker, which then finished. *)
Definition stopped (log : list event) (i : nat) (w : wk) : Prop := EvWKill (ByInvoke i) w ∈ log /\ finished log w.
