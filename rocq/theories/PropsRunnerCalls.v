(** Properties C36-C39, C41 of the Runner. Statements only: every theorem is closed by a lemma proved elsewhere.
    Vocabulary: RunnerSpec.v (the log) and RunnerProgressSpec.v. *)
From stdpp Require Import gmap strings list.
From Coq Require Import ZArith Lia.
From Verif Require Import Err Tomb Runner RunnerSpec RunnerProgressSpec RunnerThms RunnerAnswers RunnerProgress RunnerMore RunnerExample.

(** C36: what Worker returns: ErrDead only if the runner is dying, ErrAborted only if its abort channel is done, NotFound only if the id was unknown after the call began,
    otherwise the worker that was registered for the id at some moment after the call began. *)
Theorem C36_worker_result_partial P s pre i id r post : reachable P s -> rlog s = pre ++ EvClient (CvRet i (KWorker id) r) :: post ->
  EvClient (CvCall i (KWorker id)) ∈ post /\
  ((r = RErr (Some (EConst KRunnerDead)) /\ (EvKilled ∈ post \/ stopping_all post)) \/ (r = RErr (Some (EConst KRunnerAborted)) /\ EvCtx i ∈ post) \/
   exists p1 p2 q, post = p1 ++ EvClient (CvLookup i id q) :: p2 /\ EvClient (CvCall i (KWorker id)) ∈ p2 /\
     match q with
     | GNotFound => r = RErr (Some (ETyped TNotFound (MsgText id))) /\ known p2 id = None /\ EvKilled ∉ post /\ EvDead ∉ post
     | GWorker g w _ => r = RWorker g w /\ registered p2 id = Some (g, w)
     end).
Proof. exact (worker_result P s pre i id r post). Qed.
Print Assumptions C36_worker_result_partial.

(** C36: a lookup answers only if the id is unknown or has a registered worker. *)
Theorem C36_lookup P s pre i id r post : reachable P s -> rlog s = pre ++ EvClient (CvLookup i id r) :: post ->
  match r with
  | GNotFound => known post id = None
  | GWorker g w d => (exists f, known post id = Some (f, d)) /\ registered post id = Some (g, w)
  end /\ exists k, EvClient (CvCall i (icall k id)) ∈ post.
Proof. exact (lookup_result P s pre i id r post). Qed.
Print Assumptions C36_lookup.

(** C36: and a registered worker that has not ended is the current one of its id. *)
Theorem C36_registered_partial P s id g w : reachable P s -> registered (rlog s) id = Some (g, w) ->
  EvSet g id w ∈ rlog s /\ EvStartRet g id (inl w) ∈ rlog s /\ (~ worker_ended (rlog s) g -> in_charge (rlog s) id = Some g).
Proof. exact (registered_current P s id g w). Qed.
Print Assumptions C36_registered_partial.

(** C36 ("returns the worker currently running") is false in the restart delay: the registered worker is the one that
    ended before Worker was called. *)
Theorem C36_stale_worker_refuted : exists P s pre i id g w post e, reachable P s /\
  rlog s = pre ++ EvClient (CvRet i (KWorker id) (RWorker g w)) :: post /\
  exists p1 p2, post = p1 ++ EvClient (CvCall i (KWorker id)) :: p2 /\ EvEnd g id e ∈ p2.
Proof.
  pose (s := rx_state rx rl_stale). exists rx, s, (later 0 s), 4, "a", 0, 10, (before 0 s), (Some (EUser 1)).
  split; [unfold s; rx_go|]. split; [apply rx_split; rx_go|]. exists (take 1 (before 0 s)), (drop 2 (before 0 s)).
  split; [symmetry; apply take_drop_middle; rx_go|]. apply (rx_present 2). rx_go.
Qed.
Print Assumptions C36_stale_worker_refuted.
Example C36_example : let s := rx_state rx rl_asked in reachable rx s /\ rlog s = later 0 s ++ EvClient (CvRet 4 (KWorker "a") (RWorker 0 10)) :: before 0 s /\
  rlog s = later 1 s ++ EvClient (CvLookup 4 "a" (GWorker 0 10 0)) :: before 1 s /\ registered (rlog s) "a" = Some (0, 10).
Proof. intros s. split; [rx_go|]. split_and!; rx_go. Qed.
Example C36_example_unknown : let s := rx_state rx rl_none in reachable rx s /\ rlog s = later 0 s ++ EvClient (CvRet 4 (KWorker "z") (RErr (Some (ETyped TNotFound (MsgText "z"))))) :: before 0 s.
Proof. intros s. split; rx_go. Qed.

(** C37: whenever the loop is idle, a goroutine that waits for an id waits for one that is known and has no worker; *)
Theorem C37_waiter_blocked P s i t : reachable P s -> idle s -> s_waits s !! i = Some t -> t_pc t = TWaiting ->
  known (rlog s) (t_id t) <> None /\ registered (rlog s) (t_id t) = None.
Proof. exact (waiter_blocked P s i t). Qed.
Print Assumptions C37_waiter_blocked.

(** C37: and so does a caller whose goroutines can do nothing more. *)
Theorem C37_caller_blocked P s i k id : reachable P s -> idle s -> s_calls s !! i = Some (CSelect k id) ->
  (forall l, wakes i l = true -> step P s l = None) -> known (rlog s) id <> None /\ registered (rlog s) id = None.
Proof. exact (caller_blocked P s i k id). Qed.
Print Assumptions C37_caller_blocked.

Example C37_example : let s := rx_state rx rl_ask in reachable rx s /\ idle s /\ (exists t, s_waits s !! 4 = Some t /\ t_pc t = TWaiting /\ t_id t = "a") /\
  s_calls s !! 4 = Some (CSelect IWorker "a") /\ step rx s (LWc 4) = None /\ step rx s (LWcCheck 4) = None /\ step rx s (LWtWake 4) = None /\ step rx s (LWtCheck 4) = None /\ step rx s (LWtAdd 4) = None.
Proof. intros s. split; [rx_go|]. split; [left; rx_go|]. split; [eexists; split_and!; rx_go|]. split_and!; rx_go. Qed.

(** C38: StopAndRemoveWorker returns a worker's error only after it killed a worker that was registered for the id, that
    worker ended with this error, and the id was removed; *)
Theorem C38_stoprm_result P s pre i id e post : reachable P s -> rlog s = pre ++ EvClient (CvRet i (KStopRm id) (RRemoved e)) :: post ->
  exists g w d p1 p2, post = p1 ++ EvClient (CvLookup i id (GWorker g w d)) :: p2 /\ EvClient (CvCall i (KStopRm id)) ∈ p2 /\
    registered p2 id = Some (g, w) /\ (exists f, known p2 id = Some (f, d)) /\
    EvClient (CvKill i g w) ∈ post /\ EvEnd g id e ∈ post /\ EvRemoved id d ∈ post.
Proof. exact (stoprm_result P s pre i id e post). Qed.
Print Assumptions C38_stoprm_result.

(** C38: the other things it may return. *)
Theorem C38_stoprm_other P s pre i id r post : reachable P s -> rlog s = pre ++ EvClient (CvRet i (KStopRm id) r) :: post ->
  (exists e, r = RRemoved e) \/ (r = RErr (Some (EConst KRunnerDead)) /\ (EvKilled ∈ post \/ stopping_all post)) \/ (r = RErr (Some (EConst KRunnerAborted)) /\ EvCtx i ∈ post) \/
  (r = RErr (Some (ETyped TNotFound (MsgText id))) /\ EvKilled ∉ post /\ exists p1 p2, post = p1 ++ EvClient (CvLookup i id GNotFound) :: p2 /\ known p2 id = None /\ EvClient (CvCall i (KStopRm id)) ∈ p2).
Proof. exact (stoprm_other P s pre i id r post). Qed.
Print Assumptions C38_stoprm_other.

(** C38: a caller that waits for a removal that has happened can return, if no other caller waits for the same one. *)
Theorem C38_sole_returns_partial P s i id e d : reachable P s -> s_calls s !! i = Some (CDone id e d) -> EvRemoved id d ∈ rlog s ->
  (forall j id' g w, j <> i -> EvClient (CvLookup j id' (GWorker g w d)) ∉ rlog s) -> is_Some (step P s (LDoneRecv i)).
Proof. exact (sole_returns P s i id e d). Qed.
Print Assumptions C38_sole_returns_partial.

(** C38: a caller whose removal signal was taken by another one returns in no continuation, as long as its abort channel is not done. *)
Theorem C38_stuck_forever P s ls s' i id e id' d : reachable P s -> s_calls s !! i = Some (CDone id e d) -> EvRemoved id' d ∈ rlog s -> d ∉ c_signals (s_core s) ->
  run P s ls = Some s' -> EvCtx i ∉ rlog s' -> s_calls s' !! i = Some (CDone id e d) /\ forall k r, EvClient (CvRet i k r) ∉ rlog s'.
Proof. exact (stuck_forever P s ls s' i id e id' d). Qed.
Print Assumptions C38_stuck_forever.

(** C38 ("every caller with a nil abort channel eventually returns if the worker stops") is false: of two callers for the
    same worker one waits forever, although the worker ended and the id was removed. *)
Theorem C38_second_caller_stuck_refuted : exists P s i g id w e d, reachable P s /\ EvClient (CvCall i (KStopRm id)) ∈ rlog s /\
  EvClient (CvKill i g w) ∈ rlog s /\ EvEnd g id e ∈ rlog s /\ EvRemoved id d ∈ rlog s /\
  forall ls s', run P s ls = Some s' -> EvCtx i ∉ rlog s' -> forall k r, EvClient (CvRet i k r) ∉ rlog s'.
Proof.
  pose (s := rx_state rx rl_two). assert (Hr : reachable rx s) by (unfold s; rx_go).
  assert (Hrm : EvRemoved "a" 0 ∈ rlog s) by (apply (rx_present 1); rx_go).
  exists rx, s, 5, 0, "a", 10, None, 0.
  split; [exact Hr|]. split; [apply (rx_present 6); rx_go|]. split; [apply (rx_present 4); rx_go|]. split; [apply (rx_present 3); rx_go|]. split; [exact Hrm|].
  intros ls s' Hrun Hn. assert (Hc : s_calls s !! 5 = Some (CDone "a" None 0)) by rx_go. assert (Hd : 0 ∉ c_signals (s_core s)).
  { intros Hin. assert (Hf : bool_decide (0 ∈ c_signals (s_core s)) = false) by rx_go. exact (proj1 (bool_decide_eq_false _) Hf Hin). }
  exact (proj2 (stuck_forever rx s ls s' 5 "a" None "a" 0 Hr Hc Hrm Hd Hrun Hn)).
Qed.
Print Assumptions C38_second_caller_stuck_refuted.
(** And in the restart delay StopAndRemoveWorker kills the worker that has already ended: the next one is started and
    runs on, not killed, while the caller waits for the removal. *)
Theorem C38_restart_not_stopped_refuted : exists P s i id g g' w w' d, reachable P s /\ s_calls s !! i = Some (CDone id (Some (EUser 1)) d) /\
  EvClient (CvKill i g w) ∈ rlog s /\ (exists pre post, rlog s = pre ++ EvStartCall g' id 1 3 :: post /\ EvClient (CvKill i g w) ∈ post) /\
  EvSet g' id w' ∈ rlog s /\ registered (rlog s) id = Some (g', w') /\ EvKill g' id w' ∉ rlog s /\ idle s.
Proof.
  pose (s := rx_state rx rl_rm_delay). exists rx, s, 4, "a", 0, 2, 10, 12, 0.
  split; [unfold s; rx_go|]. split; [rx_go|]. split; [apply (rx_present 3); rx_go|].
  split; [exists (later 2 s), (before 2 s); split; [apply rx_split|apply (rx_present 0)]; rx_go|].
  split; [apply (rx_present 0); rx_go|]. split; [rx_go|].
  split; [apply (rx_absent (fun ev => match ev with EvKill _ _ _ => true | _ => false end)); rx_go|left; rx_go].
Qed.
Print Assumptions C38_restart_not_stopped_refuted.
Example C38_example : let s := rx_state rx rl_rm in reachable rx s /\ rlog s = later 3 s ++ EvClient (CvRet 4 (KStopRm "a") (RRemoved None)) :: before 3 s /\
  rlog s = later 0 s ++ EvClient (CvRet 5 (KStopRm "a") (RErr (Some (ETyped TNotFound (MsgText "a"))))) :: before 0 s.
Proof. intros s. split; [rx_go|]. split; rx_go. Qed.
Example C38_example_sole : let s := rx_state rx rl_rm2 in reachable rx s /\ s_calls s !! 4 = Some (CDone "a" None 0) /\ EvRemoved "a" 0 ∈ rlog s /\
  forall j id' g w, j <> 4 -> EvClient (CvLookup j id' (GWorker g w 0)) ∉ rlog s.
Proof.
  intros s. split; [rx_go|]. split; [rx_go|]. split; [apply (rx_present 0); rx_go|]. intros j id' g w Hj.
  apply (rx_absent (fun ev => match ev with EvClient (CvLookup j _ _) => negb (j =? 4) | _ => false end)); [rx_go|].
  apply negb_true_iff. by apply Nat.eqb_neq.
Qed.

(** C39: WorkerNames lists the ids that are known. *)
Theorem C39_names_result P s pre ns post : reachable P s -> rlog s = pre ++ EvClient (CvNames ns) :: post -> forall id, id ∈ ns <-> known post id <> None.
Proof. exact (names_result P s pre ns post). Qed.
Print Assumptions C39_names_result.

(** C39: Report lists the ids that are known, as started if a worker is registered and stopped otherwise, with the time of
    the first start and the nested report of the registered worker (rep w: the report worker w gives, if it is a Reporter). *)
Theorem C39_report_result_partial P s pre rep m post : reachable P s -> rlog s = pre ++ EvClient (CvReport rep m) :: post -> forall id,
  match m !! id with
  | None => known post id = None
  | Some r => known post id <> None /\ first_spawn post id = Some (rr_started r) /\
      rr_status r = match registered post id with Some _ => StStarted | None => StStopped end /\
      rr_report r = match registered post id with Some (_, w) => rep w | None => None end
  end.
Proof. exact (report_result P s pre rep m post). Qed.
Print Assumptions C39_report_result_partial.

(** C39 ("a worker that is being stopped is reported as stopping") is false: it is reported as stopped, and by
    C39_report_result_partial "stopping" is never reported. *)
Theorem C39_stopping_refuted : exists P s pre rep m post i g id w r, reachable P s /\ rlog s = pre ++ EvClient (CvReport rep m) :: post /\
  EvStopReq i id ∈ post /\ EvKill g id w ∈ post /\ ~ worker_ended post g /\ m !! id = Some r /\ rr_status r = StStopped.
Proof.
  pose (s := rx_state rx rl_stop).
  assert (Hm : exists rep m, rlog s !! 0 = Some (EvClient (CvReport rep m)) /\ m !! "a" = Some (mkRReport StStopped 0 None)).
  { destruct (rlog s !! 0) as [ev|] eqn:E; [|vm_compute in E; discriminate E].
    assert (Hb : match rlog s !! 0 with Some (EvClient (CvReport _ m)) => m !! "a" | _ => None end = Some (mkRReport StStopped 0 None)) by rx_go.
    rewrite E in Hb. destruct ev; try discriminate Hb. destruct ce; try discriminate Hb. do 2 eexists. split; [reflexivity|exact Hb]. }
  destruct Hm as (rep & m & Hl & Hm).
  exists rx, s, (later 0 s), rep, m, (before 0 s), 3, 2, "a", 12, (mkRReport StStopped 0 None).
  split; [unfold s; rx_go|]. split; [apply rx_split; exact Hl|]. split; [apply (rx_present 2); rx_go|]. split; [apply (rx_present 0); rx_go|].
  split; [|split; [exact Hm|reflexivity]]. intros (id & e & Hx). revert Hx.
  apply (rx_absent (fun ev => match ev with EvEnd 2 _ _ => true | _ => false end)); rx_go.
Qed.
Print Assumptions C39_stopping_refuted.
Example C39_example : let s := rx_state rx rl_gone in reachable rx s /\
  match rlog s !! 0, rlog s !! 10, rlog s !! 9 with
  | Some (EvClient (CvNames n0)), Some (EvClient (CvNames n1)), Some (EvClient (CvReport _ m)) =>
      elements n0 = ["b"] /\ size n1 = 2 /\ m !! "a" = Some (mkRReport StStarted 0 (Some 120)) /\ m !! "c" = None
  | _, _, _ => False
  end.
Proof.
  intros s. split; [rx_go|]. vm_compute. split_and!; reflexivity.
Qed.

(** C41: a call made on a dead runner returns nothing but ErrDead, *)
Theorem C41_late_result P s pre i k post k' r : reachable P s -> rlog s = pre ++ EvClient (CvCall i k) :: post -> EvDead ∈ post ->
  EvClient (CvRet i k' r) ∈ rlog s -> r = RErr (Some (EConst KRunnerDead)).
Proof. exact (late_result P s pre i k post k' r). Qed.
Print Assumptions C41_late_result.

(** C41: and it has returned, or can go on without anybody else's help. *)
Theorem C41_late_enabled P s pre i k post : reachable P s -> rlog s = pre ++ EvClient (CvCall i k) :: post -> EvDead ∈ post ->
  EvClient (CvRet i k (RErr (Some (EConst KRunnerDead)))) ∈ rlog s \/ exists l, (l = LCallDead i \/ l = LLock i \/ l = LCheck i) /\ is_Some (step P s l).
Proof. exact (late_enabled P s pre i k post). Qed.
Print Assumptions C41_late_enabled.

(** C41: StopWorker returns ErrDead only when the runner is dead. *)
Theorem C41_stop_result P s pre i id r post : reachable P s -> rlog s = pre ++ EvClient (CvRet i (KStop id) r) :: post ->
  (r = RErr None /\ EvStopReq i id ∈ post) \/ (r = RErr (Some (EConst KRunnerDead)) /\ EvDead ∈ post).
Proof. exact (stop_result P s pre i id r post). Qed.
Print Assumptions C41_stop_result.

(** C41: a call returns at most once, and only if it was made. *)
Theorem C41_one_answer P s pre i k r post : reachable P s -> rlog s = pre ++ EvClient (CvRet i k r) :: post ->
  EvClient (CvCall i k) ∈ post /\ forall k' r', EvClient (CvRet i k' r') ∉ post.
Proof. exact (ret_call P s pre i k r post). Qed.
Print Assumptions C41_one_answer.

Example C41_example : let s := rx_state rx rl_late in reachable rx s /\ EvDead ∈ rlog s /\
  rlog s = later 8 s ++ EvClient (CvCall 5 (KStart "d" 1)) :: before 8 s /\ EvDead ∈ before 8 s /\ EvClient (CvRet 5 (KStart "d" 1) (RErr (Some (EConst KRunnerDead)))) ∈ rlog s /\
  EvClient (CvRet 6 (KStop "a") (RErr (Some (EConst KRunnerDead)))) ∈ rlog s /\ EvClient (CvRet 7 (KWorker "a") (RErr (Some (EConst KRunnerDead)))) ∈ rlog s /\
  rlog s = later 1 s ++ EvClient (CvCall 8 (KStopRm "a")) :: before 1 s.
Proof.
  intros s. split; [rx_go|]. split; [apply (rx_present 10); rx_go|]. split; [rx_go|]. split; [apply (rx_present 1); rx_go|].
  split; [apply (rx_present 7); rx_go|]. split; [apply (rx_present 5); rx_go|]. split; [apply (rx_present 2); rx_go|rx_go].
Qed.
Example C41_example_stop : let s := rx_state rx rl_stop in reachable rx s /\ rlog s = later 2 s ++ EvClient (CvRet 3 (KStop "a") (RErr None)) :: before 2 s.
Proof. intros s. split; rx_go. Qed.
