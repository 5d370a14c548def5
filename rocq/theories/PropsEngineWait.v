(** Properties C10-C12, C15, C17-C19, C24 and the engine's part of C58. Statements only: every theorem is closed by a lemma proved elsewhere.
    Vocabulary: EngineSpec.v (the log) and EngineProgressSpec.v (internal steps). *)
From stdpp Require Import gmap strings list.
From Coq Require Import ZArith Lia.
From Verif Require Import Err Tomb Snapshot Engine EngineSpec EngineProgressSpec EngineSafety EngineObs EngineProgress EngineSettle EngineMore EngineExample.

(** C10: the engine's tomb is only ever killed with nil: none of the consistency checks of engine.go (unknown manifold,
    second worker, unexpected start, unexpected stop) fires, and no call on the tomb panics. *)
Theorem C10_checks_never_fire E s : reachable E s ->
  (t_reason (s_tomb s) = StillAlive \/ t_reason (s_tomb s) = Reason None) /\ t_panic (s_tomb s) = false.
Proof. exact (tomb_clean E s). Qed.
Print Assumptions C10_checks_never_fire.

Example C10_example : let s := ex_state ex_env ls_dead in
  reachable ex_env s /\ t_reason (s_tomb s) = Reason None /\ length (s_log s) = 48.
Proof. intros s. split; [apply ex_reach; vm_compute; reflexivity|]. split; ex_go. Qed.

(** C11: Wait returns the fatal errors combined by WorstError, oldest first, through Filter. *)
Theorem C11_wait_returns_worst E s pre e post : reachable E s -> s_log s = pre ++ EvWait e :: post ->
  e = (match c_filter (e_cfg E) with Some f => f | None => id end) (worst_of (e_cfg E) post).
Proof. exact (wait_is_worst E s pre e post). Qed.
Print Assumptions C11_wait_returns_worst.

(** C11: and it returns only when the engine is dead. *)
Theorem C11_wait_waits E s pre e post : reachable E s -> s_log s = pre ++ EvWait e :: post -> EvDead ∈ post.
Proof. exact (wait_after_dead E s pre e post). Qed.
Print Assumptions C11_wait_waits.

(** Two fatal errors were reported, 99 and then 98. *)
Example C11_example : let s := ex_state ex_env ls_dead in
  reachable ex_env s /\ s_log s = later 0 s ++ EvWait (Some (EWrap (MsgNote 1) (EUser 99))) :: before 0 s /\
  s_log s !! 3 = Some (EvStopped 2 "db" (Some (EUser 98)) (Some (EUser 98)) 12) /\
  s_log s !! 9 = Some (EvStopped 4 "api" (Some (EUser 99)) (Some (EUser 99)) 12).
Proof. intros s. split; [apply ex_reach; vm_compute; reflexivity|]. split_and!; ex_go. Qed.

(** C12: when the engine is dead every Start call has returned, and every worker a Start call returned has
    finished, except the engine itself. *)
Theorem C12_shutdown_complete E s : reachable E s -> EvDead ∈ s_log s ->
  (forall g n f t, EvStartCall g n f t ∈ s_log s -> exists r, EvStartRet g n r ∈ s_log s) /\
  (forall g n w, EvStartRet g n (inl w) ∈ s_log s -> w = WSelf \/ worker_exited (s_log s) g).
Proof. exact (shutdown_complete E s). Qed.
Print Assumptions C12_shutdown_complete.

Example C12_example : let s := ex_state ex_env ls_dead in
  reachable ex_env s /\ EvDead ∈ s_log s /\ EvStartRet 2 "db" (inl (WExt 12)) ∈ s_log s /\
  EvStartCall 3 "api" 2 2 ∈ s_log s.
Proof.
  intros s. split; [apply ex_reach; vm_compute; reflexivity|]. split; [apply (ex_present 2); ex_go|].
  split; [apply (ex_present 19); ex_go|apply (ex_present 24); ex_go].
Qed.

(** C15: once the engine is dying there is a bound on the number of steps it and its goroutines can still take,
    whatever clients do in between; and when no step that is bound to happen is possible any more (Start calls return,
    killed workers finish), the engine is dead. *)
Theorem C15_shutdown_terminates E s : reachable E s -> is_dying (s_log s) ->
  exists N, forall ls s', run E s ls = Some s' -> internal_steps ls <= N /\
    ((forall l, owed (s_log s') l -> step E s' l = None) -> EvDead ∈ s_log s').
Proof. exact (shutdown_terminates E s). Qed.
Print Assumptions C15_shutdown_terminates.

Example C15_example : let s := ex_state ex_env ls_fatal in
  reachable ex_env s /\ is_dying (s_log s) /\ t_dead (s_tomb s) = false /\
  ex_ok ex_env (ls_fatal ++ [LDying; LExit 2 None; LStopped 2]) = true /\
  t_dead (s_tomb (ex_state ex_env (ls_fatal ++ [LDying; LExit 2 None; LStopped 2]))) = true.
Proof.
  intros s. split; [apply ex_reach; vm_compute; reflexivity|]. split; [apply (ex_present 0); ex_go|].
  split_and!; ex_go.
Qed.

(** C17: what Get returns inside Start. *)
Theorem C17_get_contract E s pre g k out r call post : reachable E s -> s_log s = pre ++ EvGet g k out r call :: post ->
  start_called post g -> (forall n' r', EvStartRet g n' r' ∉ post) ->
  exists n sn l m, attempt_of post g = Some (n, sn, l) /\ installed l n = Some m /\
    (k ∉ m_inputs m \/ registered l k = None -> is_const r KMissing = true /\ call = None) /\
    (forall gk w, k ∈ m_inputs m -> registered l k = Some (gk, w) ->
      exists mk, attempt_manifold l gk = Some mk /\
      match out, m_output mk with
      | None, _ => r = None /\ call = None
      | Some t, None => is_const r KMissing = true /\ call = None
      | Some t, Some f => r = e_outf E f w t /\ call = Some (f, w, t)
      end).
Proof. exact (get_inside_start E s pre g k out r call post). Qed.
Print Assumptions C17_get_contract.

(** A Get that reaches an Output func, and one for an input that is down. *)
Definition is_ret_of (g : nat) (ev : event) : bool := match ev with EvStartRet g' _ _ => bool_decide (g' = g) | _ => false end.
Example C17_example : let s := ex_state ex_env ls_again in
  reachable ex_env s /\
  s_log s = later 24 s ++ EvGet 1 "db" (Some 7) None (Some (101, WExt 10, 7)) :: before 24 s /\
  start_called (before 24 s) 1 /\ (forall n' r', EvStartRet 1 n' r' ∉ before 24 s) /\
  s_log s = later 11 s ++ EvGet 3 "db" None (Some (EWrap (MsgNotRunning "db") (EConst KMissing))) None :: before 11 s /\
  start_called (before 11 s) 3 /\ (forall n' r', EvStartRet 3 n' r' ∉ before 11 s).
Proof.
  intros s. split; [apply ex_reach; vm_compute; reflexivity|]. split; [ex_go|].
  split; [exists "api", 2, 0%Z; apply (ex_present 0); ex_go|].
  split; [intros n' r'; apply (ex_absent (is_ret_of 1)); vm_compute; reflexivity|]. split; [ex_go|].
  split; [exists "api", 2, 2%Z; apply (ex_present 0); ex_go|].
  intros n' r'; apply (ex_absent (is_ret_of 3)); vm_compute; reflexivity.
Qed.

(** C18 is false as stated: there is a moment between the return of Start and the expiry of its getter
    (engine.go:514-519) in which Get still works and calls an Output func. *)
Theorem C18_getter_dead_after_return_refuted :
  exists E s pre g k out r call post, reachable E s /\ s_log s = pre ++ EvGet g k out r call :: post /\
    (exists n w, EvStartRet g n (inl w) ∈ post) /\ r = None /\ call <> None.
Proof.
  pose (s := ex_state ex_env (LInstall "db" m_db :: up 0 10 ++ [LInstall "api" m_api; LDelayFire 1; LStartRet 1 (inl (WExt 11)); LGet 1 "db" (Some 7)])).
  exists ex_env, s, (later 0 s), 1, "db", (Some 7), None, (Some (101, WExt 10, 7)), (before 0 s).
  split; [apply ex_reach; vm_compute; reflexivity|]. split; [ex_go|].
  split; [exists "api", (WExt 11); apply (ex_present 0); ex_go|]. by split.
Qed.
Print Assumptions C18_getter_dead_after_return_refuted.

(** C18, what is true: from the moment the attempt does anything else (its worker is registered, killed or exits, or
    the loop processes its end) Get fails, calls nothing and records nothing (the state is unchanged but for the event).
    Missing: the moment between the return of Start and [expire], for which the property is false. *)
Theorem C18_getter_dead_partial E s g k out s' : reachable E s -> step E s (LGet g k out) = Some s' -> start_done (s_log s) g ->
  s' = emit (EvGet g k out (Some (EMsg MsgExpired)) None) s.
Proof. exact (get_after_start E s g k out s'). Qed.
Print Assumptions C18_getter_dead_partial.

Example C18_example : let s := ex_state ex_env ls_up in
  reachable ex_env s /\ start_done (s_log s) 1 /\
  step ex_env s (LGet 1 "db" (Some 7)) = Some (ex_state ex_env (ls_up ++ [LGet 1 "db" (Some 7)])).
Proof.
  intros s. split; [apply ex_reach; vm_compute; reflexivity|].
  split; [exists (EvRegister 1 "api" (WExt 11) 0); split; [apply (ex_present 1); ex_go|done]|].
  apply ex_step. ex_go.
Qed.

(** C19: a report lists exactly the installed manifolds, each with its state, inputs, start count, start time and
    error; and the state and error of the engine. *)
Theorem C19_report_true E s pre r post : reachable E s -> s_log s = pre ++ EvReport r :: post -> report_spec E post r.
Proof. exact (report_true E s pre r post). Qed.
Print Assumptions C19_report_true.

(** C19: every registration is recorded in the metrics exactly once. *)
Theorem C19_metrics_true E s n m : reachable E s -> installed (s_log s) n = Some m ->
  metrics_since_install (s_log s) n = starts_since_install (s_log s) n.
Proof. exact (metrics_true E s n m). Qed.
Print Assumptions C19_metrics_true.

(** A report in the middle of a shutdown: api has a worker no more, db is about to be stopped; both were started twice. *)
Definition report_at (k : nat) (s : state) : report := match s_log s !! k with Some (EvReport r) => r | _ => mkReport EStopped None ∅ end.
Example C19_example : let s := ex_state ex_env (ls_fatal ++ [LReport]) in let r := report_at 0 s in
  reachable ex_env s /\ s_log s = later 0 s ++ EvReport r :: before 0 s /\
  rp_state r = EStopping /\ rp_error r = Some (EUser 99) /\
  rp_manifolds r !! "db" = Some (mkMReport SStarted [] (Some 2) (Some 7%Z) None (Some 120)) /\
  rp_manifolds r !! "api" = Some (mkMReport SStopped ["db"] (Some 2) None (Some (EUser 99)) None) /\
  rp_manifolds r !! "ui" = None /\ metrics_since_install (s_log s) "db" = 2.
Proof. cbv zeta. split; [apply ex_reach; vm_compute; reflexivity|]. split_and!; ex_go. Qed.

(** C24: if nothing is installed any more, no worker exits unless it was killed, and Start calls return a worker or an
    error that means missing or nil, then the engine and its goroutines take only finitely many more steps. *)
Theorem C24_settles E s : reachable E s ->
  exists N, forall ls s', run E s ls = Some s' -> obeys E calm s ls -> internal_steps ls <= N.
Proof. exact (settles E s). Qed.
Print Assumptions C24_settles.

(** A calm continuation in which both manifolds are bounced: db is down, api is killed, stops, and both come back. *)
Example C24_example : let s := ex_state ex_env ls_fail in
  let ls := [LExit 1 None; LStopped 1; LTick 2; LDelayFire 3; LStartRet 3 (inr (EConst KMissing)); LExpire 3; LStopped 3; LTick 5; LDelayFire 2;
             LStartRet 2 (inl (WExt 12)); LExpire 2; LStarted 2; LTick 5; LDelayFire 4; LStartRet 4 (inl (WExt 14)); LExpire 4; LStarted 4] in
  reachable ex_env s /\ ex_ok ex_env (ls_fail ++ ls) = true /\ internal_steps ls = 14 /\ obeys ex_env calm s ls.
Proof.
  cbv zeta. split; [apply ex_reach; vm_compute; reflexivity|]. split; [ex_go|]. split; [ex_go|].
  apply ex_calm. ex_go.
Qed.

(** C58 (engine): dying and dead are permanent and dead implies dying. (C10 says the recorded reason is nil.) *)
Theorem C58_engine_tomb E s l s' : reachable E s -> step E s l = Some s' ->
  (t_dead (s_tomb s) = true -> t_dying (s_tomb s) = true) /\
  (t_dying (s_tomb s) = true -> t_dying (s_tomb s') = true) /\ (t_dead (s_tomb s) = true -> t_dead (s_tomb s') = true).
Proof. exact (tomb_once E s l s'). Qed.
Print Assumptions C58_engine_tomb.

Example C58_engine_example : let s := ex_state ex_env ls_dead in
  reachable ex_env s /\ t_dead (s_tomb s) = true /\ step ex_env s LKill = Some (ex_state ex_env (ls_dead ++ [LKill])).
Proof. cbv zeta. split; [apply ex_reach; vm_compute; reflexivity|]. split; [ex_go|]. apply ex_step. ex_go. Qed.
