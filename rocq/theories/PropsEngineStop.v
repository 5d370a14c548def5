(** Properties C07, C08, C13, C16, C20, C21, C23, C25 of the engine.  Vocabulary: EngineSpec.v; executions of the
    Examples: EngineExample.v. *)
From stdpp Require Import gmap strings list relations.
From Coq Require Import ZArith.
From Verif Require Import Err Snapshot Engine EngineSpec EngineObs EngineHandlers EngineMore EngineExample.

(** C07: when a worker has been registered, or a registered worker has stopped, every dependent that was idle has
    been started since, and every other dependent has been asked to stop. *)
Theorem C07_dependents_bounced E s pre ev post n k : reachable E s -> ~ is_dying (s_log s) ->
  s_log s = pre ++ ev :: post -> came_or_went ev post n -> depends_on post k n -> served (s_log s) pre post k.
Proof. exact (dependents_bounced E s pre ev post n k). Qed.
Print Assumptions C07_dependents_bounced.

(** C07, "nobody else": an attempt is only launched, and a manifold is only asked to stop (while the engine is
    alive), for a manifold that has just been installed or has just ended, or because the latest start or stop of
    a worker was that of one of its inputs. *)
Theorem C07_only_dependents_started E s pre g n sn t d post : reachable E s ->
  s_log s = pre ++ EvAttempt g n sn t d :: post ->
  (exists m l, post = EvInstalled n m :: l) \/ (exists g raw e t l, post = EvStopped g n raw e t :: l) \/
  (exists x, last_change post = Some x /\ depends_on post n x).
Proof.
  intros Hr Hl. destruct (attempt_why E s pre g n sn t d post Hr Hl) as (_ & _ & base & _ & [(_ & H)|[(_ & H)|H]]).
  - by left.
  - by right; right.
  - right. left. destruct H as (g' & raw & e & t' & l & -> & _). by repeat eexists.
Qed.
Print Assumptions C07_only_dependents_started.

Theorem C07_only_dependents_stopped E s pre g n post : reachable E s -> s_log s = pre ++ EvCancel g n :: post ->
  in_progress post n = Some g /\
  (is_dying post \/
   exists x m, last_change post = Some x /\ installed post n = Some m /\ x ∈ m_inputs m /\
     (NoDup (m_inputs m) -> exists l1 ev l2, post = l1 ++ ev :: l2 /\ came_or_went ev l2 x /\ in_progress l2 n = Some g)).
Proof. exact (cancel_cause E s pre g n post). Qed.
Print Assumptions C07_only_dependents_stopped.

(** db stops while api runs (served by a stop), and db starts while api is parked (served by a start). *)
Example C07_example : let s := ex_state ex_env ls_again in
  reachable ex_env s /\ ~ is_dying (s_log s) /\
  s_log s = later 19 s ++ EvStopped 0 "db" (Some (EUser 1)) (Some (EUser 1)) 0 :: before 19 s /\
  came_or_went (EvStopped 0 "db" (Some (EUser 1)) (Some (EUser 1)) 0) (before 19 s) "db" /\
  depends_on (before 19 s) "api" "db" /\ in_progress (before 19 s) "api" = Some 1 /\
  s_log s = later 6 s ++ EvRegister 2 "db" (WExt 12) 7 :: before 6 s /\
  depends_on (before 6 s) "api" "db" /\ in_progress (before 6 s) "api" = None /\
  s_log s !! 17 = Some (EvCancel 1 "api").
Proof.
  intros s. split; [apply ex_reach; vm_compute; reflexivity|]. split; [apply ex_alive; vm_compute; reflexivity|].
  split; [ex_go|].
  split; [split; [reflexivity|]; vm_compute; discriminate|].
  split; [exists m_api; split; [vm_compute; reflexivity|by apply elem_of_list_singleton]|].
  split; [ex_go|]. split; [ex_go|].
  split; [exists m_api; split; [vm_compute; reflexivity|by apply elem_of_list_singleton]|].
  split; vm_compute; reflexivity.
Qed.

(** C08: what follows the end of an attempt, while the engine is alive: if the engine had asked for it, or the
    (filtered) error says so, the very next event is a new attempt with the right delay; or the manifold is
    uninstalled. *)
Theorem C08_stopped_then E s pre g n raw e t post : reachable E s -> ~ is_dying (s_log s) ->
  s_log s = pre ++ EvStopped g n raw e t :: post ->
  (forall base, restarts (e_cfg E) post g e base ->
    exists pre' g' sn t', pre = pre' ++ [EvAttempt g' n sn t'
      (attempt_delay E g' base (error_count (e_cfg E) (EvStopped g n raw e t :: post) n))]) /\
  (uninstalls post g e -> exists pre', pre = pre' ++ [EvUninstall n]).
Proof. exact (stopped_then E s pre g n raw e t post). Qed.
Print Assumptions C08_stopped_then.

(** C08: where the error comes from: it is what the worker's Wait or the Start func returned, filtered. *)
Theorem C08_stopped_cause E s pre g n raw e t post : reachable E s ->
  s_log s = pre ++ EvStopped g n raw e t :: post ->
  end_cause post g n raw /\ e = after_filter post n raw /\ in_progress post n = Some g.
Proof. exact (stopped_cause E s pre g n raw e t post). Qed.
Print Assumptions C08_stopped_cause.

(** C08: a manifold left stopped (nil, ErrMissing) is attempted again only after the worker of one of its inputs
    came or went, or after it was installed again. *)
Theorem C08_idle_after E s p2 g' n sn t' d p1 g raw e t post : reachable E s ->
  s_log s = p2 ++ EvAttempt g' n sn t' d :: p1 ++ EvStopped g n raw e t :: post ->
  ~ asked_to_stop post g -> restart_delay (e_cfg E) e = None -> (forall g0 raw0 e0 t0, EvStopped g0 n raw0 e0 t0 ∉ p1) ->
  (exists q1 ev q2 x, p1 = q1 ++ ev :: q2 /\ came_or_went ev (q2 ++ EvStopped g n raw e t :: post) x /\
     depends_on (p1 ++ EvStopped g n raw e t :: post) n x) \/
  (exists m, EvInstalled n m ∈ p1).
Proof. exact (idle_after E s p2 g' n sn t' d p1 g raw e t post). Qed.
Print Assumptions C08_idle_after.

(** The decision table itself. *)
Theorem C08_table cfg e : restart_delay cfg e =
  if is_const e KStartAborted || is_const e KMissing then None
  else match e with
       | None => None
       | Some _ => if is_const e KBounce then Some (c_bounceDelay cfg)
                   else if is_const e KUninstall then None else Some (c_errorDelay cfg)
       end.
Proof.
  unfold restart_delay, terminal, is_const. destruct e as [e|]; [|reflexivity].
  by destruct (err_is e (EConst KStartAborted)), (err_is e (EConst KMissing)).
Qed.
Print Assumptions C08_table.

Definition is_stop_of (n : string) (ev : event) : bool := match ev with EvStopped _ n' _ _ _ => bool_decide (n' = n) | _ => false end.
(** db fails and is restarted; api was asked to stop and is restarted although it returned nil; api is left alone
    after ErrMissing, until db is back; an error that the Filter makes ErrUninstall uninstalls. *)
Example C08_example :
  (let s := ex_state ex_env ls_miss in reachable ex_env s /\ ~ is_dying (s_log s) /\
   s_log s = later 10 s ++ EvStopped 0 "db" (Some (EUser 1)) (Some (EUser 1)) 0 :: before 10 s /\
   restarts ex_cfg (before 10 s) 0 (Some (EUser 1)) 3 /\
   s_log s = later 5 s ++ EvStopped 1 "api" None None 0 :: before 5 s /\ restarts ex_cfg (before 5 s) 1 None 1) /\
  (let s := ex_state ex_env ls_uninst in reachable ex_env s /\ ~ is_dying (s_log s) /\
   s_log s = later 1 s ++ EvStopped 4 "api" (Some (EUser 5)) (Some (EConst KUninstall)) 12 :: before 1 s /\
   uninstalls (before 1 s) 4 (Some (EConst KUninstall))) /\
  (let s := ex_state ex_env ls_back in
   s_log s = [] ++ EvAttempt 4 "api" (snap_at 0 s) 7 2 :: take 4 (before 0 s) ++
     EvStopped 3 "api" (Some (EWrap (MsgNote 0) (EConst KMissing))) (Some (EWrap (MsgNote 0) (EConst KMissing))) 2 :: before 5 s /\
   ~ asked_to_stop (before 5 s) 3 /\ (forall g0 raw0 e0 t0, EvStopped g0 "api" raw0 e0 t0 ∉ take 4 (before 0 s))).
Proof.
  split; [|split]; cbv zeta.
  - split; [apply ex_reach; vm_compute; reflexivity|]. split; [apply ex_alive; vm_compute; reflexivity|].
    split; [ex_go|]. split; [right; split; [apply ex_not_asked; vm_compute; reflexivity|vm_compute; reflexivity]|].
    split; [ex_go|]. left. split; [exists "api"; apply (ex_present 2); vm_compute; reflexivity|reflexivity].
  - split; [apply ex_reach; vm_compute; reflexivity|]. split; [apply ex_alive; vm_compute; reflexivity|].
    split; [ex_go|]. split; [apply ex_not_asked; vm_compute; reflexivity|]. split_and!; ex_go.
  - split; [ex_go|]. split; [apply ex_not_asked; vm_compute; reflexivity|].
    intros. apply (ex_absent (is_stop_of "api")); vm_compute; reflexivity.
Qed.

(** C13: Kill is called at most once per worker instance, on a worker that a Start func returned, and only if
    the manifold was asked to stop or the engine is dying (see C07_only_dependents_stopped for why it was asked). *)
Theorem C13_kill_once E s pre g n w post : reachable E s -> s_log s = pre ++ EvKill g n w :: post ->
  (forall n' w', EvKill g n' w' ∉ post) /\ EvStartRet g n (inl w) ∈ post /\ (asked_to_stop post g \/ is_dying post).
Proof. exact (kill_once E s pre g n w post). Qed.
Print Assumptions C13_kill_once.

(** C13: when the loop has no notification left to process, every live worker that should stop has been killed. *)
Theorem C13_wanted_stop_killed E s g n w : reachable E s ->
  step E s LDying = None -> (forall h, step E s (LExpire h) = None) -> (forall h, step E s (LStarted h) = None) ->
  (forall h, step E s (LStartedDying h) = None) ->
  EvStartRet g n (inl w) ∈ s_log s -> ~ worker_exited (s_log s) g ->
  asked_to_stop (s_log s) g \/ is_dying (s_log s) ->
  EvKill g n w ∈ s_log s \/ (w = WSelf /\ EvDead ∈ s_log s).
Proof. exact (wanted_stop_killed E s g n w). Qed.
Print Assumptions C13_wanted_stop_killed.

Definition is_exit_of (g : nat) (ev : event) : bool := match ev with EvExit g' _ _ => bool_decide (g' = g) | _ => false end.
(** After db failed, api is wanted to stop and has not finished. *)
Example C13_example : let s := ex_state ex_env ls_fail in
  reachable ex_env s /\ s_log s = later 0 s ++ EvKill 1 "api" (WExt 11) :: before 0 s /\
  step ex_env s LDying = None /\ (forall h, h < s_next s -> step ex_env s (LExpire h) = None /\
    step ex_env s (LStarted h) = None /\ step ex_env s (LStartedDying h) = None) /\ s_next s = 3 /\
  EvStartRet 1 "api" (inl (WExt 11)) ∈ s_log s /\ ~ worker_exited (s_log s) 1 /\ asked_to_stop (s_log s) 1.
Proof.
  intros s. split; [apply ex_reach; vm_compute; reflexivity|]. split; [ex_go|].
  split; [ex_go|].
  split. { change (s_next s) with 3. intros h Hh. destruct h as [|[|[|h]]]; [..|lia]; split_and!; ex_go. }
  split; [ex_go|]. split; [apply (ex_present 7); vm_compute; reflexivity|].
  split; [|exists "api"; apply (ex_present 1); vm_compute; reflexivity].
  intros (n & e & H). revert H. apply (ex_absent (is_exit_of 1)); vm_compute; reflexivity.
Qed.

(** A finding (not a violation of C13 as stated): with a duplicated name in Inputs a single change of that input
    first starts the manifold and then asks this fresh attempt, which already saw the change, to stop. *)
Theorem C13_duplicate_input_spurious_stop :
  let m_dup := mkManifold ["db"; "db"] 6 None None in
  let s := ex_state ex_env ([LInstall "api" m_dup; LDelayFire 0; LStartRet 0 (inr (EConst KMissing)); LExpire 0; LStopped 0;
                            LInstall "db" m_db] ++ up 1 10) in
  reachable ex_env s /\ s_log s !! 3 = Some (EvRegister 1 "db" (WExt 10) 0) /\ s_log s !! 0 = Some (EvCancel 2 "api") /\
  s_log s !! 1 = Some (EvAttempt 2 "api" (snap_at 1 s) 0 2) /\ sn_workers (snap_at 1 s) !! "db" = Some (Some (WExt 10)).
Proof.
  intros m_dup s. split; [apply ex_reach; vm_compute; reflexivity|]. split_and!; ex_go.
Qed.
Print Assumptions C13_duplicate_input_spurious_stop.

(** C16: a manifold is removed only when it ended by itself with ErrUninstall while the engine was alive. *)
Theorem C16_uninstall_cause E s pre n post : reachable E s -> s_log s = pre ++ EvUninstall n :: post ->
  exists g raw e t l, post = EvStopped g n raw e t :: l /\ ~ asked_to_stop post g /\ ~ is_dying post /\
    is_const e KUninstall = true /\ is_Some (installed post n).
Proof. exact (uninstall_cause E s pre n post). Qed.
Print Assumptions C16_uninstall_cause.

(** C16: from then until it is installed again nothing at all happens for that name. *)
Theorem C16_uninstalled_quiet E s l2 ev l1 n l0 : reachable E s -> s_log s = l2 ++ ev :: l1 ++ EvUninstall n :: l0 ->
  (forall m, EvInstalled n m ∉ l1) -> ev_name ev <> Some n.
Proof. exact (uninstall_quiet E s l2 ev l1 n l0). Qed.
Print Assumptions C16_uninstalled_quiet.

(** C16: a name that is not installed is in no table of the engine, and has no goroutine. *)
Theorem C16_uninstalled_gone E s n : reachable E s -> installed (s_log s) n = None ->
  in_progress (s_log s) n = None /\ registered (s_log s) n = None /\ s_current s !! n = None /\
  (forall x, n ∉ dependents_of s x) /\
  (forall g r, s_gors s !! g = Some r -> g_name r = n -> g_pc r = PGone).
Proof. exact (uninstalled_gone E s n). Qed.
Print Assumptions C16_uninstalled_gone.

Example C16_example :
  (let s := ex_state ex_env ls_uninst in reachable ex_env s /\ installed (s_log s) "api" = None /\
   s_log s = [] ++ EvUninstall "api" :: before 0 s) /\
  (let s := ex_state ex_env (ls_uninst ++ [LReport; LExit 2 None; LStopped 2; LInstall "api" m_db]) in
   reachable ex_env s /\ s_log s = later 3 s ++ EvStopped 2 "db" None None 12 :: take 2 (before 3 s) ++ EvUninstall "api" :: before 6 s /\
   installed (s_log s) "api" = Some m_db).
Proof.
  split; cbv zeta; (split; [apply ex_reach; vm_compute; reflexivity|]); split; vm_compute; reflexivity.
Qed.

(** C20: every delay is computed from the consecutive-error count of EngineSpec.v; what that count is after the
    end of an attempt. *)
Theorem C20_error_count E s pre g n sn t d post : reachable E s -> s_log s = pre ++ EvAttempt g n sn t d :: post ->
  ~ is_dying post /\ in_progress post n = None /\
  exists base, d = attempt_delay E g base (error_count (e_cfg E) post n) /\ launch_why (e_cfg E) post n base.
Proof. exact (attempt_why E s pre g n sn t d post). Qed.
Print Assumptions C20_error_count.

Theorem C20_count_cases cfg log g n raw e t :
  let c := error_count cfg (EvStopped g n raw e t :: log) n in
  (raw = None -> c = 0) /\
  (is_const raw KMissing = true \/ is_const raw KStartAborted = true -> c = 1) /\
  (forall e', raw = Some e' -> is_const raw KMissing = false -> is_const raw KStartAborted = false ->
    (forall t0, registered_at log n = Some t0 -> (c_backoffReset cfg <= t - t0)%Z -> c = 1) /\
    ((forall t0, registered_at log n = Some t0 -> (t - t0 < c_backoffReset cfg)%Z) -> c = S (error_count cfg log n))).
Proof.
  cbn [error_count]. rewrite bool_decide_eq_true_2 by done. split_and!.
  - intros ->. reflexivity.
  - intros [H|H]; destruct raw; try discriminate; rewrite H, ?orb_true_r; reflexivity.
  - intros e' -> -> ->. cbn [orb]. split.
    + intros t0 -> H. apply Z.leb_le in H. by rewrite H.
    + intros H. destruct (registered_at log n) as [t0|]; [|reflexivity]. specialize (H t0 eq_refl).
      destruct (c_backoffReset cfg <=? t - t0)%Z eqn:Hc; [|reflexivity]. apply Z.leb_le in Hc. lia.
Qed.
Print Assumptions C20_count_cases.

(** Three failures in a row, then a failure after a long run. *)
Example C20_example :
  let f g t := [LTick t; LDelayFire g; LStartRet g (inr (EUser 3)); LExpire g; LStopped g] in
  let s := ex_state ex_env (LInstall "db" m_db :: f 0 1%Z ++ f 1 10%Z ++ f 2 10%Z ++ [LTick 10] ++ up 3 1 ++ [LTick 200] ++ down 3 (Some (EUser 4))) in
  reachable ex_env s /\ error_count ex_cfg (s_log s) "db" = 1 /\ error_count ex_cfg (drop 2 (s_log s)) "db" = 3 /\
  s_log s = later 0 s ++ EvAttempt 4 "db" (snap_at 0 s) 231 4 :: before 0 s /\
  s_log s = later 7 s ++ EvAttempt 3 "db" (snap_at 7 s) 21 6 :: before 7 s.
Proof. intros f s. split; [apply ex_reach; vm_compute; reflexivity|]. split_and!; ex_go. Qed.

(** C21: Start is called no earlier than the attempt's delay after its launch, and it is the Start func of the
    manifold that was installed then. *)
Theorem C21_delay_elapsed E s pre g n f t post : reachable E s -> s_log s = pre ++ EvStartCall g n f t :: post ->
  exists sn t0 d m l, EvAttempt g n sn t0 d ∈ post /\ (t0 + d <= t)%Z /\
    attempt_of post g = Some (n, sn, l) /\ installed l n = Some m /\ m_start m = f.
Proof. exact (delay_elapsed E s pre g n f t post). Qed.
Print Assumptions C21_delay_elapsed.

(** C21: the attempt launched by Install has no delay (see C20_error_count for all others). *)
Theorem C21_first_immediate E s pre g n sn t d m post : reachable E s ->
  s_log s = pre ++ EvAttempt g n sn t d :: EvInstalled n m :: post -> d = 0%Z.
Proof.
  intros Hr Hl. destruct (attempt_why E s pre g n sn t d _ Hr Hl) as (_ & _ & base & -> & [(-> & _)|[(_ & x & Hx & m' & Hm' & Hin)|H]]).
  - reflexivity.
  - by cbn [last_change] in Hx.
  - by destruct H as (g' & raw & e & t' & l & [=] & _).
Qed.
Print Assumptions C21_first_immediate.

(** "api" was launched at time 7 with delay 2 and started at 12. *)
Example C21_example : let s := ex_state ex_env ls_again in
  reachable ex_env s /\ s_log s = later 3 s ++ EvStartCall 4 "api" 2 12 :: before 3 s /\
  s_log s !! 4 = Some (EvAttempt 4 "api" (snap_at 4 s) 7 2) /\
  s_log s = later 27 s ++ EvAttempt 1 "api" (snap_at 27 s) 0 0 :: EvInstalled "api" m_api :: before 28 s.
Proof. intros s. split; [apply ex_reach; vm_compute; reflexivity|]. split_and!; ex_go. Qed.

(** C23: the context given to attempt [g] is done exactly if the engine is dying or asked this attempt to stop
    (C07_only_dependents_stopped says when it asks). *)
Theorem C23_context_done_iff E s g : reachable E s ->
  (ctx_done s g = true <-> is_dying (s_log s) \/ asked_to_stop (s_log s) g).
Proof. exact (ctx_done_iff E s g). Qed.
Print Assumptions C23_context_done_iff.

(** C23: an attempt that waits for its delay can be aborted as soon as its context is done, and only then. *)
Theorem C23_abort_iff E s g r ready : reachable E s -> s_gors s !! g = Some r -> g_pc r = PDelay ready ->
  ((exists s', step E s (LAbort g) = Some s') <-> is_dying (s_log s) \/ asked_to_stop (s_log s) g).
Proof. exact (abort_iff E s g r ready). Qed.
Print Assumptions C23_abort_iff.

Example C23_example : let s := ex_state ex_env ls_abort in
  reachable ex_env s /\ ctx_done s 1 = true /\ ctx_done s 0 = false /\ dying s = false /\
  match s_gors s !! 1 with Some r => match g_pc r with PDelay _ => True | _ => False end | None => False end /\
  ex_ok ex_env (ls_abort ++ [LAbort 1; LStopped 1]) = true.
Proof.
  intros s. split; [apply ex_reach; vm_compute; reflexivity|].
  split_and!; [ex_go|ex_go|ex_go|vm_compute; exact I|ex_go].
Qed.

(** C25: the notification for one manifold leaves every manifold that neither is it nor depends on it alone: its
    entry, its goroutines, and nothing is logged about it. *)
Theorem C25_unrelated_untouched E s l g r s' k : reachable E s -> (l = LStarted g \/ l = LStopped g) ->
  step E s l = Some s' -> s_gors s !! g = Some r -> k <> g_name r -> ~ depends_on (s_log s) k (g_name r) ->
  s_current s' !! k = s_current s !! k /\ s_manifolds s' !! k = s_manifolds s !! k /\
  (forall h rh, g_name rh = k -> (s_gors s' !! h = Some rh <-> s_gors s !! h = Some rh)) /\
  exists new, s_log s' = new ++ s_log s /\ forall ev, ev ∈ new -> ev_name ev <> Some k.
Proof.
  intros Hr Hl Hs Hg Hk Hd. destruct (unrelated_untouched E s l g r s' k Hr Hl Hs Hg Hk Hd) as [H1 H2 H3 H4].
  exact (conj H1 (conj H2 (conj H3 H4))).
Qed.
Print Assumptions C25_unrelated_untouched.

(** "api" stops; "db", on which it depends, is not concerned. *)
Example C25_example : let s := ex_state ex_env (ls_again ++ [LExit 4 (Some (EUser 1))]) in
  reachable ex_env s /\ step ex_env s (LStopped 4) = Some (ex_state ex_env ((ls_again ++ [LExit 4 (Some (EUser 1))]) ++ [LStopped 4])) /\
  g_name <$> s_gors s !! 4 = Some "api" /\ ~ depends_on (s_log s) "db" "api" /\ registered (s_log s) "db" = Some (2, WExt 12).
Proof.
  intros s. split; [apply ex_reach; vm_compute; reflexivity|]. split; [apply ex_step; vm_compute; reflexivity|].
  split; [ex_go|]. split; [|vm_compute; reflexivity].
  intros (m & Hm & Hin). assert (installed (s_log s) "db" = Some m_db) as H by (vm_compute; reflexivity).
  rewrite H in Hm. injection Hm as <-. by apply elem_of_nil in Hin.
Qed.
