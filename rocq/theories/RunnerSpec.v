(** Vocabulary for the properties of the Runner (C26-C42): what an observer can say about an execution given only
    its log, newest event first.  No function of the model is used except the parameters and the event type. *)
From stdpp Require Import gmap strings list.
From Coq Require Import ZArith.
From Verif Require Import Err Runner.

(** The id is known to the runner: the start func it was started with, and its done channel. *)
Fixpoint known (log : list event) (id : string) : option (nat * nat) :=
  match log with
  | [] => None
  | EvKnown id' f d :: log' => if bool_decide (id' = id) then Some (f, d) else known log' id
  | EvRemoved id' _ :: log' => if bool_decide (id' = id) then None else known log' id
  | _ :: log' => known log' id
  end.

(** Since it became known, the id was asked to stop, by StopWorker or because the runner stops everything. *)
Fixpoint stop_asked (log : list event) (id : string) : bool :=
  match log with
  | [] => false
  | EvKnown id' _ _ :: log' => if bool_decide (id' = id) then false else stop_asked log' id
  | EvStopReq _ id' :: log' => if bool_decide (id' = id) then true else stop_asked log' id
  | EvStopAll :: _ => true
  | _ :: log' => stop_asked log' id
  end.

(** The goroutine in charge of an id: the newest one, until the id is removed. *)
Fixpoint in_charge (log : list event) (id : string) : option nat :=
  match log with
  | [] => None
  | EvSpawn g id' _ _ _ :: log' => if bool_decide (id' = id) then Some g else in_charge log' id
  | EvRemoved id' _ :: log' => if bool_decide (id' = id) then None else in_charge log' id
  | _ :: log' => in_charge log' id
  end.

(** The worker registered for an id: the newest one, until it is killed by the runner or the id is removed. *)
Fixpoint registered (log : list event) (id : string) : option (nat * nat) :=
  match log with
  | [] => None
  | EvSet g id' w :: log' => if bool_decide (id' = id) then Some (g, w) else registered log' id
  | EvKill _ id' _ :: log' => if bool_decide (id' = id) then None else registered log' id
  | EvRemoved id' _ :: log' => if bool_decide (id' = id) then None else registered log' id
  | _ :: log' => registered log' id
  end.

(** When the id became known is not in the log; the time of the first goroutine is. *)
Fixpoint first_spawn (log : list event) (id : string) : option Z :=
  match log with
  | [] => None
  | EvSpawn _ id' _ _ t :: log' =>
    if bool_decide (id' = id) then match first_spawn log' id with Some t' => Some t' | None => Some t end
    else first_spawn log' id
  | EvRemoved id' _ :: log' => if bool_decide (id' = id) then None else first_spawn log' id
  | _ :: log' => first_spawn log' id
  end.

(** The runner stops everything. *)
Definition stopping_all (log : list event) : Prop := EvStopAll ∈ log.

(** What became of goroutine [g]. *)
Definition start_called (log : list event) (g : nat) : Prop := exists id f t, EvStartCall g id f t ∈ log.
Definition start_failed (log : list event) (g : nat) : Prop := exists id e, EvStartRet g id (inr e) ∈ log.
Definition worker_ended (log : list event) (g : nat) : Prop := exists id e, EvEnd g id e ∈ log.
(** nothing of it is left running *)
Definition over (log : list event) (g : nat) : Prop := start_failed log g \/ worker_ended log g.

(** The most important fatal error so far (nil if none): [IsFatal] judges, [MoreImportant] ranks, in the order in
    which the loop handled the ends. *)
Fixpoint final_of (P : rcfg) (log : list event) : option err :=
  match log with
  | [] => None
  | EvDone _ _ (Some e) _ :: log' =>
    if r_isFatal P e then
      match final_of P log' with
      | None => Some e
      | Some y => if r_more P e y then Some e else Some y
      end
    else final_of P log'
  | _ :: log' => final_of P log'
  end.
(** A fatal error was reported. *)
Definition fatal_reported (P : rcfg) (log : list event) (e : err) : Prop :=
  r_isFatal P e = true /\ exists g id t, EvDone g id (Some e) t ∈ log.

(** What is to happen when goroutine [g] of [id] ended with error [e] (runner.go:146-186, the documentation of
    IsFatal, ShouldRestart and StopWorker). *)
Inductive verdict := VRemove | VFatal | VRestart.
Definition verdict_of (P : rcfg) (stopped : bool) (e : option err) : verdict :=
  match e with
  | None => VRemove
  | Some e => if r_isFatal P e then VFatal
              else if negb (r_shouldRestart P e) then VRemove
              else if stopped then VRemove else VRestart
  end.

(** Every event of the log satisfied [Q] with respect to what had happened before. *)
Fixpoint hist (Q : event -> list event -> Prop) (log : list event) : Prop :=
  match log with
  | [] => True
  | ev :: post => Q ev post /\ hist Q post
  end.

(** The log of a state. [rlog s = pre ++ ev :: post]: [ev] happened, [post] had happened before it, [pre] happened after
    it; [last pre] is the event right after [ev]. *)
Definition rlog (s : state) : list event := c_log (s_core s).
(** The loop is idle: at the top of its loop or in the select, or returned. *)
Definition idle (s : state) : Prop := c_loop (s_core s) = LTop \/ c_loop (s_core s) = LEnded.

(** [MoreImportant] is a strict weak order. *)
Definition ranking (P : rcfg) : Prop :=
  (forall a b, r_more P a b = true -> r_more P b a = false) /\
  (forall a b c, r_more P a b = false -> r_more P b c = false -> r_more P a c = false).
