(** Vocabulary for C75. *)
From stdpp Require Import gmap strings list.
From Verif Require Import Err Tomb Validate Snapshot Engine EngineSpec EngineCalls.

(** The engine's log when it was [t] events long (newest first). *)
Definition log_at (x : cstate) (t : nat) : list event := drop (length (s_log (x_e x)) - t) (s_log (x_e x)).

(** The right answer of a call that takes effect when the log of the engine is [log], and leaves the log [log']. *)
Definition right_answer (E : env) (k : ecall) (a : eanswer) (log log' : list event) : Prop :=
  match k, a with
  | KInstall n m, AnsInstall r =>
    (* refused because the engine is dying, or accepted exactly if the name is free and no cycle appears *)
    ((is_dying log /\ r = Some (EMsg MsgShuttingDown)) \/ (EvDead ∉ log /\ (r = None <-> installed log n = None /\ ~ would_cycle log n m))) /\
    (r = None -> installed log' n = Some m) /\
    (r <> None -> forall n', installed log' n' = installed log n')
  | KReport, AnsReport r =>
    (rp_state r = EStopped <-> EvDead ∈ log) /\ exists between, (exists new, between = new ++ log) /\ (exists new, log' = new ++ between) /\ report_spec E between r
  | KWait, AnsWait e =>
    EvDead ∈ log /\ e = (match c_filter (e_cfg E) with Some f => f | None => id end) (worst_of (e_cfg E) log)
  | _, _ => False
  end.
