(** Properties C69 and C72 of the Runner. Statements only: every theorem is closed by a lemma proved elsewhere.
    Vocabulary: RunnerSpec.v (the log); s_waits are the goroutines of runner.go:382-398, by call. *)
From stdpp Require Import gmap strings list.
From Coq Require Import ZArith Lia.
From Verif Require Import Err Tomb Runner RunnerSpec RunnerProgressSpec RunnerAnswers RunnerWaiters RunnerExample.

(** C69: once the runner is dead, a waiting goroutine that has not exited can go on, or the one that holds the mutex can:
    none is left behind in Cond.Wait. (By C34_shutdown_finite they take finitely many steps.) *)
Theorem C69_dead_gone P s i t : reachable P s -> EvDead ∈ rlog s -> s_waits s !! i = Some t -> t_pc t <> TExit ->
  exists j, is_Some (step P s (LWtCheck j)) \/ is_Some (step P s (LWtAdd j)) \/ is_Some (step P s (LWtWake j)).
Proof. exact (dead_gone P s i t). Qed.
Print Assumptions C69_dead_gone.

(** C69: and the same holds, in any runner, for a goroutine that is not inside Cond.Wait; *)
Theorem C69_waiter_runs P s i t : reachable P s -> s_waits s !! i = Some t -> t_pc t <> TExit -> t_pc t <> TWaiting ->
  exists j, is_Some (step P s (LWtCheck j)) \/ is_Some (step P s (LWtAdd j)) \/ is_Some (step P s (LWtWake j)).
Proof. exact (waiter_runs P s i t). Qed.
Print Assumptions C69_waiter_runs.

(** C69: aborting a call tells its goroutine to stop, and wakes it up if it is inside Cond.Wait; *)
Theorem C69_abort_wakes P s i s' : reachable P s -> step P s (LSelAbort i) = Some s' ->
  exists t, s_waits s' !! i = Some t /\ t_stopped t = true /\ t_pc t <> TWaiting.
Proof. exact (abort_wakes P s i s'). Qed.
Print Assumptions C69_abort_wakes.

(** C69: a goroutine that was told to stop exits, and gives the mutex back, when it looks next; *)
Theorem C69_stopped_exits P s i id ch : s_waits s !! i = Some (mkWaiter id TLocked true ch) ->
  exists s', step P s (LWtCheck i) = Some s' /\ s_waits s' !! i = Some (mkWaiter id TExit true ch) /\ s_mu s' = None.
Proof. exact (stopped_exits P s i id ch). Qed.
Print Assumptions C69_stopped_exits.

(** C69: and the loop's broadcast wakes all of them. *)
Theorem C69_bcast_wakes P s s' i t : c_loop (s_core s) = LDo ABcast -> step P s (LCore KAct) = Some s' -> s_waits s' !! i = Some t -> t_pc t <> TWaiting.
Proof. exact (bcast_wakes P s s' i t). Qed.
Print Assumptions C69_bcast_wakes.

(** C69 ("the goroutine of a call that returned ErrAborted exits") is false: runner.go:420 closes the channel and broadcasts
    without the mutex, so the broadcast can come between the goroutine's look at the channel (:386) and Cond.Wait (:391).
    Then the goroutine stays until the loop broadcasts or another call is aborted. *)
Theorem C69_abort_leak_refuted : exists P s i id, reachable P s /\ EvClient (CvRet i (KWorker id) (RErr (Some (EConst KRunnerAborted)))) ∈ rlog s /\ idle s /\
  forall ls s', run P s ls = Some s' -> LCore KAct ∉ ls -> (forall j, LSelAbort j ∉ ls) ->
    exists t, s_waits s' !! i = Some t /\ t_pc t = TWaiting.
Proof.
  pose (s := rx_state rx rl_missed). assert (Hr : reachable rx s) by (unfold s; rx_go). exists rx, s, 4, "a".
  split; [exact Hr|]. split; [apply (rx_present 0); rx_go|]. split; [left; rx_go|]. intros ls s' Hrun H1 H2.
  eexists. split; [apply (leak_run rx ls s s' 4 "a" None Hr Hrun); [rx_go|exact H1|exact H2]|reflexivity].
Qed.
Print Assumptions C69_abort_leak_refuted.

(** The abort channel of a waiting call is closed, the goroutine wakes up, looks, and exits. *)
Example C69_example : let s := rx_state rx (rl_ask ++ [LCore (KCtx 4)]) in reachable rx s /\
  (exists t, s_waits s !! 4 = Some t /\ t_pc t = TWaiting) /\ step rx s (LSelAbort 4) <> None /\
  let s' := rx_state rx rl_aborted in reachable rx s' /\ s_waits s' !! 4 = Some (mkWaiter "a" TExit true None) /\
  rlog s' = later 0 s' ++ EvClient (CvRet 4 (KWorker "a") (RErr (Some (EConst KRunnerAborted)))) :: before 0 s' /\ EvCtx 4 ∈ before 0 s'.
Proof.
  intros s. split; [rx_go|]. split; [eexists; split; rx_go|]. split; [vm_compute; discriminate|]. intros s'. split; [rx_go|]. split; [rx_go|].
  split; [rx_go|]. apply (rx_present 0). rx_go.
Qed.
(** The runner is dead, and a goroutine that waited has not looked yet. *)
Example C69_example_dead : let s := rx_state rx rl_dead_waiter in reachable rx s /\ EvDead ∈ rlog s /\ exists t, s_waits s !! 4 = Some t /\ t_pc t = TWoken.
Proof. intros s. split; [rx_go|]. split; [apply (rx_present 1); rx_go|]. eexists. split; rx_go. Qed.

(** C72: ErrAborted is returned only by Worker and StopAndRemoveWorker, and only if the abort channel of the call is done. *)
Theorem C72_aborted_only P s pre i k post : reachable P s -> rlog s = pre ++ EvClient (CvRet i k (RErr (Some (EConst KRunnerAborted)))) :: post ->
  EvCtx i ∈ post /\ exists id, k = KWorker id \/ k = KStopRm id.
Proof. exact (aborted_only P s pre i k post). Qed.
Print Assumptions C72_aborted_only.

(** C72: a call of Worker or StopAndRemoveWorker whose abort channel is done has returned, or can go on, or the goroutine that
    holds the mutex can, or (StopAndRemoveWorker) it killed a worker that has not ended. *)
Theorem C72_abort_enabled_partial P s i k id : reachable P s -> EvClient (CvCall i (icall k id)) ∈ rlog s -> EvCtx i ∈ rlog s ->
  (exists r, EvClient (CvRet i (icall k id) r) ∈ rlog s) \/
  (exists l, (l = LLock i \/ l = LCheck i \/ l = LWcCheck i \/ l = LSelAbort i \/ l = LStopKill i \/ l = LStopWaited i \/ l = LDoneAbort i \/ exists j, l = LWtCheck j \/ l = LWtAdd j) /\ is_Some (step P s l)) \/
  (k = IStopRm /\ exists g w, EvClient (CvKill i g w) ∈ rlog s /\ ~ worker_ended (rlog s) g).
Proof. exact (abort_enabled P s i k id). Qed.
Print Assumptions C72_abort_enabled_partial.

(** C72 ("a call whose abort channel is done returns") is false of StopAndRemoveWorker: as long as the worker it killed has
    not ended it does not return, although its abort channel is done. *)
Theorem C72_abort_ignored_refuted : exists P s i g id, reachable P s /\ EvClient (CvCall i (KStopRm id)) ∈ rlog s /\ EvCtx i ∈ rlog s /\
  forall ls s', run P s ls = Some s' -> ~ worker_ended (rlog s') g -> forall k r, EvClient (CvRet i k r) ∉ rlog s'.
Proof.
  pose (s := rx_state rx rl_rm_abort). assert (Hr : reachable rx s) by (unfold s; rx_go). exists rx, s, 4, 0, "a".
  split; [exact Hr|]. split; [apply (rx_present 3); rx_go|]. split; [apply (rx_present 0); rx_go|]. intros ls s' Hrun Hne.
  apply (abort_ignored rx s ls s' 4 "a" 0 0 Hr Hrun); [rx_go|exact Hne].
Qed.
Print Assumptions C72_abort_ignored_refuted.

(** Worker is aborted (above, C69_example); StopAndRemoveWorker is aborted while it waits for the removal. *)
Example C72_example : let s := rx_state rx (rl_rm1 ++ [LCore (KCtx 4); LDoneAbort 4]) in reachable rx s /\
  rlog s = later 0 s ++ EvClient (CvRet 4 (KStopRm "a") (RErr (Some (EConst KRunnerAborted)))) :: before 0 s /\ EvCtx 4 ∈ before 0 s.
Proof. intros s. split; [rx_go|]. split; [rx_go|]. apply (rx_present 0). rx_go. Qed.
Example C72_example_enabled : let s := rx_state rx (rl_ask ++ [LCore (KCtx 4)]) in reachable rx s /\
  EvClient (CvCall 4 (icall IWorker "a")) ∈ rlog s /\ EvCtx 4 ∈ rlog s.
Proof. intros s. split; [rx_go|]. split; [apply (rx_present 1)|apply (rx_present 0)]; rx_go. Qed.
