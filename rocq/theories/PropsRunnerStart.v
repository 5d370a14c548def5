(** Properties C26-C30, C35, C40, C42 of the Runner. Statements only: every theorem is closed by a lemma proved elsewhere.
    Vocabulary: RunnerSpec.v (the log). *)
From stdpp Require Import gmap strings list.
From Coq Require Import ZArith Lia.
From Verif Require Import Err Tomb Runner RunnerSpec RunnerProgressSpec RunnerThms RunnerAnswers RunnerProgress RunnerMore RunnerExample.

(** C26: when a start func is called for an id, every earlier start call for that id has failed or its worker has ended. *)
Theorem C26_one_worker_per_id P s pre g id f t post g' f' t' : reachable P s ->
  rlog s = pre ++ EvStartCall g id f t :: post -> EvStartCall g' id f' t' ∈ post -> over post g'.
Proof. exact (one_worker_per_id P s pre g id f t post g' f' t'). Qed.
Print Assumptions C26_one_worker_per_id.

(** C26: a goroutine calls its start func once, *)
Theorem C26_start_once P s pre g id f t post : reachable P s -> rlog s = pre ++ EvStartCall g id f t :: post -> ~ start_called post g.
Proof. exact (start_once P s pre g id f t post). Qed.
Print Assumptions C26_start_once.

(** C26: the call returns once, *)
Theorem C26_return_once P s pre g id r post : reachable P s -> rlog s = pre ++ EvStartRet g id r :: post ->
  (exists f t, EvStartCall g id f t ∈ post) /\ forall id' r', EvStartRet g id' r' ∉ post.
Proof. exact (return_once P s pre g id r post). Qed.
Print Assumptions C26_return_once.

(** C26: and the worker it returned ends once. *)
Theorem C26_end_once P s pre g id e post : reachable P s -> rlog s = pre ++ EvEnd g id e :: post ->
  (exists w, EvStartRet g id (inl w) ∈ post) /\ ~ worker_ended post g.
Proof. exact (end_once P s pre g id e post). Qed.
Print Assumptions C26_end_once.

(** a was started twice, the second time after its first worker ended. *)
Example C26_example : let s := rx_state rx rl_gone in
  reachable rx s /\ rlog s = later 13 s ++ EvStartCall 2 "a" 1 3 :: before 13 s /\ EvStartCall 0 "a" 1 0 ∈ before 13 s /\
  rlog s = later 12 s ++ EvStartRet 2 "a" (inl 12) :: before 12 s /\ rlog s = later 3 s ++ EvEnd 2 "a" (Some (EUser 1)) :: before 3 s.
Proof. intros s. split; [rx_go|]. split; [rx_go|]. split; [apply (rx_present 16); rx_go|]. split; rx_go. Qed.

(** C27: the loop does not dereference a missing entry, does not block on a removal signal, and a goroutine that has
    something to tell the loop tells it about an id that is known. *)
Theorem C27_never_stuck P s : reachable P s -> c_crash (s_core s) = false /\ c_loop (s_core s) <> LBlocked /\
  forall g id f x p, c_gors (s_core s) !! g = Some (mkWGor id f x p) -> (exists w, p = WSendStarted w) \/ (exists e, p = WSendDone e) -> known (rlog s) id <> None.
Proof. exact (never_stuck P s). Qed.
Print Assumptions C27_never_stuck.

(** C27, from the log alone: the loop registers a worker, handles an end and removes an id only while that id is known,
    and gives the removal signal on the done channel of that id, on which no signal was ever given before (the channel has
    room for one). *)
Theorem C27_handled_known P s pre ev post : reachable P s -> rlog s = pre ++ ev :: post ->
  match ev with
  | EvSet _ id _ | EvDone _ id _ _ => known post id <> None
  | EvRemoved id d => (exists f, known post id = Some (f, d)) /\ forall id', EvRemoved id' d ∉ post
  | EvKnown id _ _ => known post id = None
  | _ => True
  end.
Proof. exact (handled_known P s pre ev post). Qed.
Print Assumptions C27_handled_known.

(** A goroutine is about to report the end of its worker. *)
Example C27_example : let s := rx_state rx (rl_up ++ [LCore (KEnd 0 None); LCore (KExit 0)]) in
  reachable rx s /\ exists f x, c_gors (s_core s) !! 0 = Some (mkWGor "a" f x (WSendDone None)) /\ known (rlog s) "a" = Some (1, 0).
Proof. intros s. split; [rx_go|]. exists 1, (Some 0). split; rx_go. Qed.

(** a is removed, with its first signal. *)
Example C27_example_removed : let s := rx_state rx rl_rm2 in reachable rx s /\ rlog s = later 0 s ++ EvRemoved "a" 0 :: before 0 s.
Proof. intros s. split; rx_go. Qed.

(** C28: what the loop does with a StartWorker call, in the three cases. *)
Theorem C28_start_answer P s pre i id f r post : reachable P s -> rlog s = pre ++ EvAnswer i id f r :: post ->
  (stopping_all post -> r = None /\ forall id' f' d, last pre <> Some (EvKnown id' f' d)) /\
  (~ stopping_all post -> known post id <> None -> r = Some (ETyped TAlreadyExists (MsgText id)) /\ forall id' f' d, last pre <> Some (EvKnown id' f' d)) /\
  (~ stopping_all post -> known post id = None -> r = None /\
     exists pre' g d t, pre = pre' ++ [EvSpawn g id f 0 t; EvKnown id f d]).
Proof. exact (start_answer P s pre i id f r post). Qed.
Print Assumptions C28_start_answer.

(** C28: the start func is called. *)
Theorem C28_start_called P s g id f t : reachable P s -> EvSpawn g id f 0 t ∈ rlog s ->
  start_called (rlog s) g \/ exists s', step P s (LCore (KBegin g)) = Some s' /\ EvStartCall g id f (c_now (s_core s)) ∈ rlog s'.
Proof. exact (first_start_called P s g id f t). Qed.
Print Assumptions C28_start_called.

(** C28: what StartWorker returns is the loop's answer, or ErrDead when the runner is dead or the caller's context is done. *)
Theorem C28_start_result P s : reachable P s -> forall pre i id f r post, rlog s = pre ++ EvClient (CvRet i (KStart id f) r) :: post ->
  (exists e, r = RErr e /\ EvAnswer i id f e ∈ post) \/ (r = RErr (Some (EConst KRunnerDead)) /\ (EvDead ∈ post \/ EvCtx i ∈ post)).
Proof. exact (start_result P s). Qed.
Print Assumptions C28_start_result.

(** C28: when StartWorker returned nil the id had become known, or the runner is stopping everything. *)
Theorem C28_start_known P s pre i id f post : reachable P s -> rlog s = pre ++ EvClient (CvRet i (KStart id f) (RErr None)) :: post ->
  (exists d, EvKnown id f d ∈ post) \/ stopping_all post.
Proof. exact (start_known P s pre i id f post). Qed.
Print Assumptions C28_start_known.

(** Accepted, refused because of a duplicate, and ignored by a stopping runner. *)
Example C28_example : let s := rx_state rx rl_dup in
  reachable rx s /\ rlog s = later 18 s ++ EvClient (CvCall 0 (KStart "a" 1)) :: before 18 s /\
  rlog s = later 17 s ++ EvAnswer 0 "a" 1 None :: before 17 s /\ known (before 17 s) "a" = None /\
  rlog s = later 0 s ++ EvClient (CvRet 2 (KStart "a" 3) (RErr (Some (ETyped TAlreadyExists (MsgText "a"))))) :: before 0 s /\
  rlog s = later 1 s ++ EvAnswer 2 "a" 3 (Some (ETyped TAlreadyExists (MsgText "a"))) :: before 1 s /\ known (before 1 s) "a" = Some (1, 0).
Proof. intros s. split; [rx_go|]. split_and!; rx_go. Qed.
Example C28_example_stopping : let s := rx_state rx (rl_fatal ++ [LCall 5 (KStart "d" 1); LRecvStart 5; A]) in
  reachable rx s /\ rlog s = later 0 s ++ EvAnswer 5 "d" 1 None :: before 0 s /\ stopping_all (before 0 s).
Proof. intros s. split; [rx_go|]. split; [rx_go|]. apply (rx_present 2). rx_go. Qed.
Example C28_example_called : let s := rx_state rx (start_ 0 "a" 1) in reachable rx s /\ EvSpawn 0 "a" 1 0 0 ∈ rlog s /\ existsb (fun ev => match ev with EvStartCall _ _ _ _ => true | _ => false end) (rlog s) = false.
Proof. intros s. split; [rx_go|]. split; [apply (rx_present 1); rx_go|rx_go]. Qed.

(** C29: what the loop does when it handles the end of a goroutine. *)
Theorem C29_restart_policy P s pre g id e t post : reachable P s -> rlog s = pre ++ EvDone g id e t :: post ->
  in_charge post id = Some g /\ exists f d, known post id = Some (f, d) /\
  match verdict_of P (stop_asked post id) e with
  | VRemove => last pre = Some (EvRemoved id d)
  | VFatal => last pre = Some (EvRemoved id d) /\ (~ stopping_all post -> exists pre', pre = pre' ++ [EvStopAll; EvRemoved id d])
  | VRestart => exists g', last pre = Some (EvSpawn g' id f (r_delay P) t)
  end.
Proof. exact (restart_policy P s pre g id e t post). Qed.
Print Assumptions C29_restart_policy.

(** C29: and the error it judges is the worker's, or the start func's; nil if the runner was killed before the start func was called. *)
Theorem C29_done_origin P s pre g id e t post : reachable P s -> rlog s = pre ++ EvDone g id e t :: post ->
  EvEnd g id e ∈ post \/ (exists y, e = Some y /\ EvStartRet g id (inr y) ∈ post) \/ (e = None /\ EvKilled ∈ post /\ ~ start_called post g).
Proof. exact (done_origin P s pre g id e t post). Qed.
Print Assumptions C29_done_origin.

(** Restarted; removed because it was stopped; removed because the error says so; removed because it was nil; fatal. *)
Example C29_example : let s := rx_state rx rl_gone in reachable rx s /\
  rlog s = later 15 s ++ EvDone 0 "a" (Some (EUser 1)) 0 :: before 15 s /\ verdict_of rx (stop_asked (before 15 s) "a") (Some (EUser 1)) = VRestart /\
  rlog s = later 2 s ++ EvDone 2 "a" (Some (EUser 1)) 3 :: before 2 s /\ verdict_of rx (stop_asked (before 2 s) "a") (Some (EUser 1)) = VRemove.
Proof. intros s. split; [rx_go|]. split_and!; rx_go. Qed.
Example C29_example_remove : let s := rx_state rx rl_norestart in reachable rx s /\
  rlog s = later 4 s ++ EvDone 1 "b" (Some (EUser 7)) 0 :: before 4 s /\ rlog s = later 1 s ++ EvDone 0 "a" None 0 :: before 1 s /\
  stop_asked (before 4 s) "b" = false.
Proof. intros s. split; [rx_go|]. split_and!; rx_go. Qed.
Example C29_example_fatal : let s := rx_state rx rl_fatal in reachable rx s /\
  rlog s = later 3 s ++ EvDone 0 "a" (Some (EUser 99)) 0 :: before 3 s /\ verdict_of rx (stop_asked (before 3 s) "a") (Some (EUser 99)) = VFatal.
Proof. intros s. split; [rx_go|]. split_and!; rx_go. Qed.

(** C30: no goroutine is started for an id that was asked to stop since it became known; *)
Theorem C30_no_start_after_stop P s pre g id f d t post : reachable P s -> rlog s = pre ++ EvSpawn g id f d t :: post -> stop_asked post id = false.
Proof. exact (no_start_after_stop P s pre g id f d t post). Qed.
Print Assumptions C30_no_start_after_stop.

(** C30: a worker that is registered after the request is killed at once, *)
Theorem C30_killed_on_arrival P s pre g id w post : reachable P s -> rlog s = pre ++ EvSet g id w :: post -> stop_asked post id = true ->
  last pre = Some (EvKill g id w).
Proof. exact (killed_on_arrival P s pre g id w post). Qed.
Print Assumptions C30_killed_on_arrival.

(** C30: whenever the loop is idle the worker of a stopped id has been killed, *)
Theorem C30_idle_stopped P s g id w : reachable P s -> idle s -> stop_asked (rlog s) id = true -> in_charge (rlog s) id = Some g ->
  EvSet g id w ∈ rlog s -> EvKill g id w ∈ rlog s.
Proof. exact (idle_stopped P s g id w). Qed.
Print Assumptions C30_idle_stopped.

(** C30: and is not registered any more. *)
Theorem C30_idle_unregistered P s id : reachable P s -> idle s -> stop_asked (rlog s) id = true -> registered (rlog s) id = None.
Proof. exact (idle_stopped_reg P s id). Qed.
Print Assumptions C30_idle_unregistered.

Example C30_example : let s := rx_state rx rl_stop in reachable rx s /\ idle s /\ stop_asked (rlog s) "a" = true /\ in_charge (rlog s) "a" = Some 2 /\
  EvSet 2 "a" 12 ∈ rlog s.
Proof. intros s. split; [rx_go|]. split; [left; rx_go|]. split; [rx_go|]. split; [rx_go|]. apply (rx_present 7). rx_go. Qed.
(** c was stopped before its start func returned. *)
Example C30_example_early : let s := rx_state rx rl_early in reachable rx s /\ rlog s = later 1 s ++ EvSet 0 "c" 20 :: before 1 s /\ stop_asked (before 1 s) "c" = true.
Proof. intros s. split; [rx_go|]. split; rx_go. Qed.

(** C35: once the loop stops everything, no goroutine is started for any id; *)
Theorem C35_no_spawn_partial P s pre g id f d t post : reachable P s -> rlog s = pre ++ EvSpawn g id f d t :: post -> ~ stopping_all post.
Proof. exact (no_spawn_when_stopping P s pre g id f d t post). Qed.
Print Assumptions C35_no_spawn_partial.

(** C35: a start func called after that was already scheduled before, *)
Theorem C35_late_start_partial P s pre g id f t post : reachable P s -> rlog s = pre ++ EvStartCall g id f t :: post -> stopping_all post ->
  exists post1 post2 d t0, post = post1 ++ EvStopAll :: post2 /\ EvSpawn g id f d t0 ∈ post2.
Proof. exact (late_start P s pre g id f t post). Qed.
Print Assumptions C35_late_start_partial.

(** C35: and its worker is killed as soon as it is registered. *)
Theorem C35_killed_partial P s pre g id w post : reachable P s -> rlog s = pre ++ EvSet g id w :: post -> stopping_all post ->
  last pre = Some (EvKill g id w).
Proof. exact (killed_when_stopping P s pre g id w post). Qed.
Print Assumptions C35_killed_partial.

(** C35 as documented on isDying ("if true, no new workers will be started") is false: a worker that waits for its
    restart when another one fails fatally is started later on. *)
Theorem C35_start_while_dying_refuted : exists P s pre g id f t post, reachable P s /\
  rlog s = pre ++ EvStartCall g id f t :: post /\ stopping_all post /\ (exists e, fatal_reported P post e).
Proof.
  exists rx, (rx_state rx rl_pending_set), (later 3 (rx_state rx rl_pending_set)), 2, "a", 1, 3%Z, (before 3 (rx_state rx rl_pending_set)).
  split; [rx_go|]. split; [rx_go|]. split; [apply (rx_present 1); rx_go|].
  exists (EUser 99). split; [rx_go|]. exists 1, "b", 0%Z. apply (rx_present 3). rx_go.
Qed.
Print Assumptions C35_start_while_dying_refuted.
(** And a StartWorker call may still be accepted after Kill, as long as the loop has not noticed. *)
Theorem C35_start_after_kill_refuted : exists P s pre i id f d post, reachable P s /\
  rlog s = pre ++ EvKnown id f d :: EvAnswer i id f None :: EvClient (CvCall i (KStart id f)) :: post /\ EvKilled ∈ post.
Proof.
  exists rx, (rx_state rx rl_killed_start), (later 2 (rx_state rx rl_killed_start)), 0, "a", 1, 0, (before 4 (rx_state rx rl_killed_start)).
  split; [rx_go|]. split; [rx_go|]. apply (rx_present 0). rx_go.
Qed.
Print Assumptions C35_start_after_kill_refuted.
Example C35_example : let s := rx_state rx rl_pending_set in reachable rx s /\
  rlog s = later 9 s ++ EvSpawn 2 "a" 1 3 0 :: before 9 s /\ rlog s = later 3 s ++ EvStartCall 2 "a" 1 3 :: before 3 s /\
  rlog s = later 1 s ++ EvSet 2 "a" 12 :: before 1 s /\ stopping_all (before 3 s) /\ stopping_all (before 1 s).
Proof. intros s. split; [rx_go|]. split; [rx_go|]. split; [rx_go|]. split; [rx_go|]. split; [apply (rx_present 1)|apply (rx_present 3)]; rx_go. Qed.

(** C40: a start func is called no earlier than the delay of its goroutine after that was created, *)
Theorem C40_start_delay P s pre g id f t post : reachable P s -> rlog s = pre ++ EvStartCall g id f t :: post ->
  exists d t0, EvSpawn g id f d t0 ∈ post /\ (t0 + d <= t)%Z.
Proof. exact (start_delay P s pre g id f t post). Qed.
Print Assumptions C40_start_delay.

(** C40: and the delay is zero for the first start of an id, RestartDelay for a restart, counted from the moment the end
    of the previous worker was handled. *)
Theorem C40_spawn_reason P s pre g id f d t post : reachable P s -> rlog s = pre ++ EvSpawn g id f d t :: post ->
  (exists dc post', post = EvKnown id f dc :: post' /\ d = 0%Z) \/ (exists g' e post', post = EvDone g' id e t :: post' /\ d = r_delay P).
Proof. exact (spawn_reason P s pre g id f d t post). Qed.
Print Assumptions C40_spawn_reason.

Example C40_example : let s := rx_state rx rl_gone in reachable rx s /\ rlog s = later 13 s ++ EvStartCall 2 "a" 1 3 :: before 13 s /\
  rlog s = later 14 s ++ EvSpawn 2 "a" 1 3 0 :: before 14 s /\ rlog s = later 32 s ++ EvSpawn 0 "a" 1 0 0 :: before 32 s.
Proof. intros s. split; [rx_go|]. split_and!; rx_go. Qed.

(** C42: when the loop stops everything, every registered worker is killed (or has ended) by the time the loop is idle; *)
Theorem C42_everything_killed P s g id w : reachable P s -> idle s -> stopping_all (rlog s) -> EvSet g id w ∈ rlog s ->
  EvKill g id w ∈ rlog s \/ worker_ended (rlog s) g.
Proof. exact (everything_killed P s g id w). Qed.
Print Assumptions C42_everything_killed.

(** C42: a worker registered later is killed on registration. *)
Theorem C42_killed_on_arrival P s pre g id w post : reachable P s -> rlog s = pre ++ EvSet g id w :: post -> stopping_all post ->
  last pre = Some (EvKill g id w).
Proof. exact (killed_when_stopping P s pre g id w post). Qed.
Print Assumptions C42_killed_on_arrival.

(** C42: and the loop stops everything only because of Kill or of a fatal error. *)
Theorem C42_stop_reason P s pre post : reachable P s -> rlog s = pre ++ EvStopAll :: post ->
  EvKilled ∈ post \/ (exists e, fatal_reported P post e).
Proof. exact (stop_all_once P s pre post). Qed.
Print Assumptions C42_stop_reason.

Example C42_example : let s := rx_state rx rl_fatal in reachable rx s /\ idle s /\ stopping_all (rlog s) /\ EvSet 1 "b" 11 ∈ rlog s /\
  rlog s = later 1 s ++ EvStopAll :: before 1 s.
Proof. intros s. split; [rx_go|]. split; [left; rx_go|]. split; [apply (rx_present 1); rx_go|]. split; [apply (rx_present 5); rx_go|rx_go]. Qed.
Example C42_example_arrival : let s := rx_state rx rl_pending_set in reachable rx s /\ rlog s = later 1 s ++ EvSet 2 "a" 12 :: before 1 s /\ stopping_all (before 1 s).
Proof. intros s. split; [rx_go|]. split; [rx_go|]. apply (rx_present 3). rx_go. Qed.
