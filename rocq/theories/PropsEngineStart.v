(** Properties C03-C06, C09, C14 of the engine.  Vocabulary: EngineSpec.v; executions of the Examples:
    EngineExample.v. *)
From stdpp Require Import gmap strings list relations.
From Coq Require Import ZArith.
From Verif Require Import Err Snapshot Engine EngineSpec EngineSafety EngineFresh EngineObs EngineHandlers EngineExample.

(** C03: the loop's answer to Install. *)
Theorem C03_install_result E s n m s' : reachable E s -> step E s (LInstall n m) = Some s' ->
  exists r new, s_log s' = new ++ s_log s /\ EvInstall n m r ∈ new /\
  (r = None <-> installed (s_log s) n = None /\ ~ would_cycle (s_log s) n m) /\
  (r <> None ->
     (forall ev, ev ∈ new -> ev = EvInstall n m r \/ ev = EvDying \/ ev = EvDead) /\
     s_manifolds s' = s_manifolds s /\ s_dependents s' = s_dependents s /\ s_current s' = s_current s /\ s_gors s' = s_gors s) /\
  (r = None -> installed (s_log s') n = Some m /\
     (is_dying (s_log s') \/ exists g sn t, EvAttempt g n sn t 0 ∈ new)).
Proof. exact (install_result E s n m s'). Qed.
Print Assumptions C03_install_result.

(** C03: Install on an engine that is shutting down. *)
Theorem C03_install_refused E s n m s' : reachable E s -> step E s (LInstallRefused n m) = Some s' ->
  is_dying (s_log s) /\ s_log s' = EvInstall n m (Some (EMsg MsgShuttingDown)) :: s_log s /\
  s_manifolds s' = s_manifolds s /\ s_dependents s' = s_dependents s /\ s_current s' = s_current s /\ s_gors s' = s_gors s.
Proof. exact (install_refused E s n m s'). Qed.
Print Assumptions C03_install_refused.

(** C03: at no time does a manifold depend on itself, directly or not. *)
Theorem C03_never_cyclic E s pre post : reachable E s -> s_log s = pre ++ post ->
  forall n, ~ tc (depends_on post) n n.
Proof. exact (never_cycles E s pre post). Qed.
Print Assumptions C03_never_cyclic.

Definition m_loop : manifold := mkManifold ["api"] 9 None None.
(** A third manifold; a name that is taken; a cycle through a name that is used but not installed. *)
Example C03_example :
  (let s' := ex_state ex_env (ls_up ++ [LInstall "ui" m_ui]) in
   reachable ex_env (ex_state ex_env ls_up) /\
   step ex_env (ex_state ex_env ls_up) (LInstall "ui" m_ui) = Some s' /\
   EvInstall "ui" m_ui None ∈ s_log s') /\
  (let s' := ex_state ex_env (ls_up ++ [LInstall "api" m_loop]) in
   step ex_env (ex_state ex_env ls_up) (LInstall "api" m_loop) = Some s' /\
   EvInstall "api" m_loop (Some (EMsg (MsgAlreadyInstalled "api"))) ∈ s_log s') /\
  (let s' := ex_state ex_env ([LInstall "api" m_api] ++ [LInstall "db" m_loop]) in
   step ex_env (ex_state ex_env [LInstall "api" m_api]) (LInstall "db" m_loop) = Some s' /\
   EvInstall "db" m_loop (Some (EWrap (MsgCannotInstall "db") (EWrap MsgTrace (EMsg (MsgCycle "db"))))) ∈ s_log s') /\
  step ex_env (ex_state ex_env ls_dying) (LInstallRefused "ui" m_ui) = Some (ex_state ex_env (ls_dying ++ [LInstallRefused "ui" m_ui])).
Proof.
  cbv zeta. split_and!; try (apply ex_step; vm_compute; reflexivity).
  - apply ex_reach. vm_compute. reflexivity.
  - apply (ex_present 0). vm_compute. reflexivity.
  - apply (ex_present 0). vm_compute. reflexivity.
  - apply (ex_present 0). vm_compute. reflexivity.
Qed.

(** C04: when Start is called for a name, every earlier Start call for that name has failed, or its worker
    has finished. *)
Theorem C04_one_worker_per_manifold E s pre g n f t post : reachable E s ->
  s_log s = pre ++ EvStartCall g n f t :: post ->
  forall g' f' t', EvStartCall g' n f' t' ∈ post -> g' <> g /\ finished post g'.
Proof. exact (no_overlap E s pre g n f t post). Qed.
Print Assumptions C04_one_worker_per_manifold.

(** In this execution the third Start call for "api" was preceded by two others. *)
Example C04_example : let s := ex_state ex_env ls_dead in
  reachable ex_env s /\ s_log s = later 15 s ++ EvStartCall 4 "api" 2 12 :: before 15 s /\
  EvStartCall 3 "api" 2 2 ∈ before 15 s /\ EvStartCall 1 "api" 2 0 ∈ before 15 s.
Proof.
  intros s. split; [apply ex_reach; vm_compute; reflexivity|]. split; [ex_go|].
  split; [apply (ex_present 8)|apply (ex_present 21)]; vm_compute; reflexivity.
Qed.

(** C05: while the engine is alive, the newest attempt of every installed manifold that was not asked to stop
    was launched with exactly the workers of its inputs that are registered now, and none of these has been
    replaced since; the attempt was made for the manifold that is installed now. *)
Theorem C05_no_stale_inputs E s n m : reachable E s -> ~ is_dying (s_log s) -> installed (s_log s) n = Some m ->
  exists g sn post, last_attempt (s_log s) n = Some (g, sn, post) /\ installed post n = Some m /\
    (~ asked_to_stop (s_log s) g -> forall x, x ∈ m_inputs m ->
      sn_workers sn !! x = Some (snd <$> registered (s_log s) x) /\
      registered post x = registered (s_log s) x /\ registrations post x = registrations (s_log s) x).
Proof. exact (no_stale_inputs E s n m). Qed.
Print Assumptions C05_no_stale_inputs.

(** "api" has been running against the old "db", was bounced, was parked without it, and now runs with the new one. *)
Example C05_example : let s := ex_state ex_env ls_again in
  reachable ex_env s /\ ~ is_dying (s_log s) /\ installed (s_log s) "api" = Some m_api /\
  registered (s_log s) "db" = Some (2, WExt 12) /\
  in_progress (s_log s) "api" = Some 4 /\ ~ asked_to_stop (s_log s) 4.
Proof.
  intros s. split; [apply ex_reach; vm_compute; reflexivity|]. split; [apply ex_alive; vm_compute; reflexivity|].
  split; [ex_go|]. split; [ex_go|].
  split; [ex_go|]. apply ex_not_asked. vm_compute. reflexivity.
Qed.

(** C06: in the snapshot an attempt gets, every running input comes with the Output func of the manifold whose
    Start returned it. *)
Theorem C06_outputs_paired E s pre g n sn t d post : reachable E s ->
  s_log s = pre ++ EvAttempt g n sn t d :: post ->
  forall x w, sn_workers sn !! x = Some (Some w) ->
    exists gx mx, registered post x = Some (gx, w) /\ EvStartRet gx x (inl w) ∈ post /\
      attempt_manifold post gx = Some mx /\ sn_outputs sn !! x = Some (m_output mx).
Proof. exact (outputs_paired E s pre g n sn t d post). Qed.
Print Assumptions C06_outputs_paired.

(** "ui" is launched after "api" was uninstalled and another manifold took its name. *)
Example C06_example : let s := ex_state ex_env (ls_reinst ++ [LInstall "ui" m_ui]) in
  reachable ex_env s /\ s_log s = later 1 s ++ EvAttempt 6 "ui" (snap_at 1 s) 12 0 :: before 1 s /\
  sn_workers (snap_at 1 s) !! "api" = Some (Some (WExt 15)) /\ sn_outputs (snap_at 1 s) !! "api" = Some (Some 101).
Proof.
  intros s. split; [apply ex_reach; vm_compute; reflexivity|]. split_and!; ex_go.
Qed.

(** C09: an installed manifold for which nothing is in progress ended by itself with nil or ErrMissing (or with
    the engine's private errAborted, which only a Start or a Filter that forges it can produce). *)
Theorem C09_no_manifold_forgotten E s n m : reachable E s -> ~ is_dying (s_log s) ->
  installed (s_log s) n = Some m -> in_progress (s_log s) n = None ->
  exists g raw e, last_end (s_log s) n = Some (g, raw, e) /\ ~ asked_to_stop (s_log s) g /\
    (e = None \/ is_const e KMissing = true \/ is_const e KStartAborted = true).
Proof. exact (no_manifold_forgotten E s n m). Qed.
Print Assumptions C09_no_manifold_forgotten.

Example C09_example : let s := ex_state ex_env ls_miss in
  reachable ex_env s /\ ~ is_dying (s_log s) /\ installed (s_log s) "api" = Some m_api /\
  in_progress (s_log s) "api" = None /\ in_progress (s_log s) "db" = Some 2.
Proof.
  intros s. split; [apply ex_reach; vm_compute; reflexivity|]. split; [apply ex_alive; vm_compute; reflexivity|].
  split_and!; ex_go.
Qed.

(** C14: once the engine is dying no attempt is launched, no worker is accepted, and nothing is uninstalled. *)
Theorem C14_dying_starts_nothing E s pre ev post : reachable E s -> s_log s = pre ++ ev :: post ->
  is_dying post ->
  match ev with
  | EvAttempt _ _ _ _ _ | EvRegister _ _ _ _ | EvMetric _ | EvUninstall _ => False
  | _ => True
  end.
Proof. intros Hr Hl Hd. generalize (dying_no_start E s pre ev post Hr Hl Hd). unfold forbidden_when_dying. by destruct ev. Qed.
Print Assumptions C14_dying_starts_nothing.

(** The engine is killed while api's Start is about to be called; it is called, but the worker is only killed. *)
Example C14_example :
  let s := ex_state ex_env (LInstall "db" m_db :: up 0 10 ++ [LInstall "api" m_api; LKill; LDelayFire 1;
             LStartRet 1 (inl (WExt 11)); LExpire 1; LStarted 1]) in
  reachable ex_env s /\ s_log s !! 0 = Some (EvKill 1 "api" (WExt 11)) /\ s_log s !! 3 = Some EvDying /\
  registered (s_log s) "api" = None.
Proof.
  intros s. split; [apply ex_reach; vm_compute; reflexivity|]. split_and!; ex_go.
Qed.
