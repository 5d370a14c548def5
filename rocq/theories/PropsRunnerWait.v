(** Properties C31-C34, C59, C60 and the runner's part of C58. Statements only: every theorem is closed by a lemma proved elsewhere.
    Vocabulary: RunnerSpec.v (the log) and RunnerProgressSpec.v (internal steps). *)
From stdpp Require Import gmap strings list.
From Coq Require Import ZArith Lia.
From Verif Require Import Err Tomb Runner RunnerSpec RunnerProgressSpec RunnerThms RunnerAnswers RunnerProgress RunnerMore RunnerExample.

(** C31: what Wait returns. (A fatal error that is the tomb's own ErrDying is lost if the runner was also killed.) *)
Theorem C31_wait_result P s pre e post : reachable P s -> rlog s = pre ++ EvClient (CvWait e) :: post -> EvDead ∈ post /\
  (forall x, e = Some x -> fatal_reported P post x /\ (ranking P -> forall y, fatal_reported P post y -> r_more P y x = false)) /\
  (e = None -> (forall y, ~ fatal_reported P post y) \/ (fatal_reported P post ETombDying /\ EvKilled ∈ post)).
Proof. exact (wait_result P s pre e post). Qed.
Print Assumptions C31_wait_result.

(** The ranking of the example runner is a strict weak order; 99 and then 98 were reported, Wait returns 99. *)
Example C31_example : let s := rx_state rx rl_dead in ranking rx /\ reachable rx s /\ rlog s = later 0 s ++ EvClient (CvWait (Some (EUser 99))) :: before 0 s /\
  fatal_reported rx (before 0 s) (EUser 98) /\ fatal_reported rx (before 0 s) (EUser 99).
Proof.
  intros s. split.
  { split; cbn; [intros a b H; apply Nat.ltb_lt in H; apply Nat.ltb_ge; lia|intros a b c H1 H2; apply Nat.ltb_ge in H1, H2; apply Nat.ltb_ge; lia]. }
  split; [rx_go|]. split; [rx_go|].
  split; (split; [rx_go|]); [exists 1, "b", 0%Z; apply (rx_present 2)|exists 0, "a", 0%Z; apply (rx_present 7)]; rx_go.
Qed.
Example C31_example_nil : let s := rx_state rx rl_killed in reachable rx s /\ rlog s = later 0 s ++ EvClient (CvWait None) :: before 0 s.
Proof. intros s. split; rx_go. Qed.

(** C32: a runner made without MoreImportant returns the fatal error that was handled last. *)
Theorem C32_default_last_partial p P s pre e post : new_runner p = inl P -> rp_more p = None -> reachable P s ->
  rlog s = pre ++ EvClient (CvWait (Some e)) :: post ->
  exists l1 g id t l2, post = l1 ++ EvDone g id (Some e) t :: l2 /\ r_isFatal P e = true /\ forall y, ~ fatal_reported P l1 y.
Proof. exact (wait_last_default p P s pre e post). Qed.
Print Assumptions C32_default_last_partial.

(** C32 as documented on MoreImportant ("If MoreImportant is nil, the first error will be returned") is false. *)
Theorem C32_default_first_refuted : exists p P s pre post e first l1 g id t l2,
  rp_more p = None /\ new_runner p = inl P /\ reachable P s /\ rlog s = pre ++ EvClient (CvWait (Some e)) :: post /\
  post = l1 ++ EvDone g id (Some first) t :: l2 /\ r_isFatal P first = true /\ (forall y, ~ fatal_reported P l2 y) /\ e <> first.
Proof.
  pose (s := rx_state rx_default rl_two_fatal).
  exists rx_params, rx_default, s, (later 0 s), (before 0 s), (EUser 98), (EUser 99), (take 7 (before 0 s)), 0, "a", 0%Z, (drop 8 (before 0 s)).
  split; [done|]. split; [rx_go|]. split; [unfold s; rx_go|]. split; [apply rx_split; rx_go|].
  split; [symmetry; apply take_drop_middle; rx_go|]. split; [rx_go|]. split; [|done].
  intros y (_ & g & id & t & Hx). revert Hx. apply (rx_absent (fun ev => match ev with EvDone _ _ _ _ => true | _ => false end)); rx_go.
Qed.
Print Assumptions C32_default_first_refuted.
Example C32_example : let s := rx_state rx_default rl_two_fatal in
  new_runner rx_params = inl rx_default /\ rp_more rx_params = None /\ reachable rx_default s /\ rlog s = later 0 s ++ EvClient (CvWait (Some (EUser 98))) :: before 0 s.
Proof. intros s. split; [rx_go|]. split; [done|]. split; rx_go. Qed.

(** C33: when the runner is dead, all start calls have returned, all workers have ended, all goroutines are gone, no id is known; *)
Theorem C33_dead_complete P s : reachable P s -> EvDead ∈ rlog s ->
  (forall g id w, EvStartRet g id (inl w) ∈ rlog s -> worker_ended (rlog s) g) /\
  (forall g, start_called (rlog s) g -> over (rlog s) g) /\
  (forall g r, c_gors (s_core s) !! g = Some r -> w_pc r = WGone) /\
  (forall id, known (rlog s) id = None).
Proof. exact (dead_complete P s). Qed.
Print Assumptions C33_dead_complete.

(** C33: and afterwards nothing happens except that clients call, or cancel their calls. *)
Theorem C33_dead_quiet P s pre post : reachable P s -> rlog s = pre ++ EvDead :: post -> forall ev, ev ∈ pre -> (exists ce, ev = EvClient ce) \/ exists i, ev = EvCtx i.
Proof. exact (dead_quiet P s pre post). Qed.
Print Assumptions C33_dead_quiet.

Example C33_example : let s := rx_state rx rl_late in reachable rx s /\ EvDead ∈ rlog s /\ EvStartRet 1 "b" (inl 11) ∈ rlog s /\
  rlog s = later 10 s ++ EvDead :: before 10 s.
Proof. intros s. split; [rx_go|]. split; [apply (rx_present 10); rx_go|]. split; [apply (rx_present 20); rx_go|rx_go]. Qed.

(** C34: after Kill the loop, when idle, starts to stop everything. *)
Theorem C34_stopping_begins P s : reachable P s -> EvKilled ∈ rlog s -> ~ stopping_all (rlog s) -> idle s ->
  exists s', step P s (LCore KDying) = Some s' /\ rlog s' = EvStopAll :: rlog s.
Proof. exact (killed_enabled P s). Qed.
Print Assumptions C34_stopping_begins.

(** C34: the loop is never blocked in the middle of its work: it can go on, or one of the goroutines that hold the mutex can. *)
Theorem C34_loop_not_blocked P s : reachable P s -> ~ idle s -> is_Some (step P s (LCore KAct)) \/ exists i, is_Some (step P s (LWtCheck i)) \/ is_Some (step P s (LWtAdd i)).
Proof. exact (busy_enabled P s). Qed.
Print Assumptions C34_loop_not_blocked.

(** C34: once the runner stops everything there is a bound on the number of steps it and its goroutines can still take,
    as long as clients do not give it new requests. *)
Theorem C34_shutdown_finite P s : reachable P s -> stopping_all (rlog s) ->
  exists N, forall ls s', run P s ls = Some s' -> (forall l, l ∈ ls -> request l = false) -> internal_steps ls <= N.
Proof. exact (shutdown_finite P s). Qed.
Print Assumptions C34_shutdown_finite.

(** C34: and when no step that is bound to happen is possible any more, the runner is dead, or its loop returned one of the
    two errors the tomb rejects, or (not after Kill) the clock has to reach the end of a restart delay. Executions in which
    a worker's Wait never returns to the goroutine are excluded: see C60. *)
Theorem C34_shutdown_settles P s ls : run P init ls = Some s -> (forall g, LCore (KLost g) ∉ ls) -> stopping_all (rlog s) -> (forall l, owed (rlog s) l -> step P s l = None) ->
  EvDead ∈ rlog s \/
  (c_loop (s_core s) = LEnded /\ exists e, final_of P (rlog s) = Some e /\ (e = ETombStillAlive \/ e = ETombDying)) \/
  (waits_for_clock s /\ EvKilled ∉ rlog s).
Proof. exact (settled P s ls). Qed.
Print Assumptions C34_shutdown_settles.

Example C34_example : let s := rx_state rx rl_fatal in reachable rx s /\ stopping_all (rlog s) /\ t_dead (c_tomb (s_core s)) = false /\
  rx_ok rx rl_dead = true /\ take (length rl_fatal) rl_dead = rl_fatal /\ t_dead (c_tomb (s_core (rx_state rx rl_dead))) = true.
Proof. intros s. split; [rx_go|]. split; [apply (rx_present 1); rx_go|]. split_and!; rx_go. Qed.
Example C34_example_killed : let s := rx_state rx rl_kill in reachable rx s /\ EvKilled ∈ rlog s /\ ~ stopping_all (rlog s) /\ idle s.
Proof.
  intros s. split; [rx_go|]. split; [apply (rx_present 0); rx_go|].
  split; [apply (rx_absent (fun ev => match ev with EvStopAll => true | _ => false end)); rx_go|left; rx_go].
Qed.
(** The three ways to settle. *)
Example C34_example_dead : let s := rx_state rx rl_dead in run rx init rl_dead = Some s /\ EvDead ∈ rlog s.
Proof. intros s. split; [rx_go|]. apply (rx_present 1). rx_go. Qed.
Example C34_example_rejected : let s := rx_state rx_all rl_panic in run rx_all init rl_panic = Some s /\ c_loop (s_core s) = LEnded /\
  final_of rx_all (rlog s) = Some ETombStillAlive /\ t_panic (c_tomb (s_core s)) = true.
Proof. intros s. split; [rx_go|]. split_and!; rx_go. Qed.
Example C34_example_delay : let s := rx_state rx rl_pending in run rx init rl_pending = Some s /\ waits_for_clock s /\ stopping_all (rlog s).
Proof.
  intros s. split; [rx_go|]. split; [exists 2, "a", 1, None, 3%Z; split; rx_go|]. apply (rx_present 1). rx_go.
Qed.

(** C58, the runner: dying and dead are permanent, dead implies dying, a non-nil reason does not change, and nothing changes
    when it is dead. *)
Theorem C58_runner_tomb P s ls s' : reachable P s -> run P s ls = Some s' ->
  (t_dead (c_tomb (s_core s)) = true -> t_dying (c_tomb (s_core s)) = true) /\
  (t_dying (c_tomb (s_core s)) = true -> t_dying (c_tomb (s_core s')) = true) /\
  (t_dead (c_tomb (s_core s)) = true -> c_tomb (s_core s') = c_tomb (s_core s)) /\
  (forall e, t_reason (c_tomb (s_core s)) = Reason (Some e) -> t_reason (c_tomb (s_core s')) = Reason (Some e)).
Proof. exact (runner_tomb P s ls s'). Qed.
Print Assumptions C58_runner_tomb.

Example C58_runner_example : let s := rx_state rx rl_dead in reachable rx s /\ t_dead (c_tomb (s_core s)) = true /\ t_reason (c_tomb (s_core s)) = Reason (Some (EUser 99)).
Proof. intros s. split; [rx_go|]. split; rx_go. Qed.

(** C59: the context a running start func holds is done exactly when the runner was killed, or the start func runs for a
    StartWorker call whose context is done. *)
Theorem C59_start_context P s g r : reachable P s -> c_gors (s_core s) !! g = Some r -> w_pc r = WStart ->
  ctx_done (s_core s) r = true <-> EvKilled ∈ rlog s \/ exists i, started_for (rlog s) g i /\ EvCtx i ∈ rlog s.
Proof. exact (start_context P s g r). Qed.
Print Assumptions C59_start_context.

(** Cancelled by the caller; not cancelled by a fatal error; not cancelled by the caller in a restart. *)
Example C59_example : let s := rx_state rx rl_ctx in reachable rx s /\ exists r, c_gors (s_core s) !! 0 = Some r /\ w_pc r = WStart /\ ctx_done (s_core s) r = true.
Proof. intros s. split; [rx_go|]. exists (mkWGor "a" 1 (Some 0) WStart). split_and!; rx_go. Qed.
Example C59_example_fatal : let s := rx_state rx rl_ctx_fatal in reachable rx s /\ stopping_all (rlog s) /\
  exists r, c_gors (s_core s) !! 2 = Some r /\ w_pc r = WStart /\ ctx_done (s_core s) r = false.
Proof. intros s. split; [rx_go|]. split; [apply (rx_present 1); rx_go|]. exists (mkWGor "c" 4 (Some 2) WStart). split_and!; rx_go. Qed.
Example C59_example_restart : let s := rx_state rx (rl_fail ++ [LCore (KCtx 0); LCore (KTick 3); LCore (KFire 2)]) in reachable rx s /\
  exists r, c_gors (s_core s) !! 2 = Some r /\ w_pc r = WStart /\ ctx_done (s_core s) r = false.
Proof. intros s. split; [rx_go|]. exists (mkWGor "a" 1 None WStart). split_and!; rx_go. Qed.

(** C60: when a worker's Wait does not return to the runner's goroutine (it calls runtime.Goexit), the runner never ends. *)
Theorem C60_lost_never_dead P ls s g : run P init ls = Some s -> LCore (KLost g) ∈ ls -> EvDead ∉ rlog s /\ c_loop (s_core s) <> LEnded.
Proof. exact (lost_never_dead P ls s g). Qed.
Print Assumptions C60_lost_never_dead.

Example C60_example : let s := rx_state rx rl_lost in run rx init rl_lost = Some s /\ LCore (KLost 0) ∈ rl_lost /\ EvKilled ∈ rlog s.
Proof. intros s. split; [rx_go|]. split; [apply elem_of_list_lookup_2 with 20; rx_go|]. apply (rx_present 6). rx_go. Qed.
