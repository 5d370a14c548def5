(** Property C83, the runner. Statements only: every theorem is closed by a lemma proved elsewhere.
    Vocabulary: InsideRunnerSpec.v (judging, killing, loop_waits, holds_mutex, mutex_waits, by_loop), RunnerSpec.v (the log). *)
From stdpp Require Import gmap strings list.
From Coq Require Import ZArith Lia.
From Verif Require Import Err Tomb Runner RunnerSpec InsideRunnerSpec InsideRunner RunnerExample.

(** C83: as long as a callback that the runner's loop called (IsFatal, MoreImportant, ShouldRestart, or the Kill of a worker) has not
    returned, the runner starts, registers, kills, restarts and removes nothing, answers no call, and does not die; *)
Theorem C83_runner_stands_still P s ls s' : reachable P s -> judging s \/ killing s -> loop_waits ls -> run P s ls = Some s' ->
  exists new, rlog s' = new ++ rlog s /\ forall ev, ev ∈ new -> by_loop ev = false.
Proof. exact (still P s ls s'). Qed.
Print Assumptions C83_runner_stands_still.

(** C83: so StartWorker, called from such a callback, returns only if its context is done, and then ErrDead; *)
Theorem C83_start_inside P s i id f ls s' : reachable P s -> judging s \/ killing s -> loop_waits ls -> run P s (LCall i (KStart id f) :: ls) = Some s' ->
  forall r, EvClient (CvRet i (KStart id f) r) ∈ rlog s' -> r = RErr (Some (EConst KRunnerDead)) /\ EvCtx i ∈ rlog s'.
Proof. exact (inside_start P s i id f ls s'). Qed.
Print Assumptions C83_start_inside.

(** C83: StopWorker never returns, even if the runner is killed: the callback, the runner, and everybody who waits for it, are
    deadlocked; *)
Theorem C83_stop_inside P s i id ls s' : reachable P s -> judging s \/ killing s -> loop_waits ls -> run P s (LCall i (KStop id) :: ls) = Some s' ->
  forall r, EvClient (CvRet i (KStop id) r) ∉ rlog s'.
Proof. exact (inside_stop P s i id ls s'). Qed.
Print Assumptions C83_stop_inside.

(** C83: StopAndRemoveWorker of a known id, and Worker of a known id that has no worker, return only if the runner was killed or
    stops because of a fatal error, or their abort channel is closed. *)
Theorem C83_wait_inside P s i id ls s' k : reachable P s -> judging s \/ killing s -> loop_waits ls -> run P s (LCall i k :: ls) = Some s' ->
  k = KStopRm id \/ (k = KWorker id /\ registered (rlog s) id = None) -> known (rlog s) id <> None ->
  forall r, EvClient (CvRet i k r) ∈ rlog s' ->
    (r = RErr (Some (EConst KRunnerDead)) /\ (EvKilled ∈ rlog s' \/ stopping_all (rlog s))) \/ (r = RErr (Some (EConst KRunnerAborted)) /\ EvCtx i ∈ rlog s').
Proof. exact (inside_wait P s i id ls s' k). Qed.
Print Assumptions C83_wait_inside.

(** C83: a worker's Kill method is called with the runner's mutex locked; Worker and StopAndRemoveWorker, called from it, never
    return, whatever happens: not even closing their abort channel helps. *)
Theorem C83_locked_inside P s i id ls s' k : reachable P s -> killing s -> (holds_mutex P s -> mutex_waits ls) -> run P s (LCall i k :: ls) = Some s' ->
  k = KStopRm id \/ k = KWorker id -> forall r, EvClient (CvRet i k r) ∉ rlog s'.
Proof. exact (inside_killing P s i id ls s' k). Qed.
Print Assumptions C83_locked_inside.

(** C83: StopAndRemoveWorker that has killed a worker returns only after that worker has ended; so a worker that calls it on
    itself, and does not end before the call returns, waits for itself, even if the abort channel is closed. *)
Theorem C83_remove_self P s i id g w r : reachable P s -> EvClient (CvKill i g w) ∈ rlog s -> EvClient (CvRet i (KStopRm id) r) ∈ rlog s -> worker_ended (rlog s) g.
Proof. exact (self_waits P s i id g w r). Qed.
Print Assumptions C83_remove_self.

(** C83: Wait returns only after all start funcs have returned and all workers have ended; so called from one of them, it waits for
    itself. *)
Theorem C83_runner_wait P s e : reachable P s -> EvClient (CvWait e) ∈ rlog s ->
  (forall g, start_called (rlog s) g -> over (rlog s) g) /\ (forall g id w, EvStartRet g id (inl w) ∈ rlog s -> worker_ended (rlog s) g).
Proof. exact (wait_ends P s e). Qed.
Print Assumptions C83_runner_wait.

(** Worker a of rl_up fails, and IsFatal is called ... *)
Definition in_judge : list label := rl_up ++ [LCore (KEnd 0 (Some (EUser 1))); LCore (KExit 0); LCore (KRecvDone 0)].
(** ... and calls StartWorker (or StopWorker, or StopAndRemoveWorker): other calls go on, the runner is killed, the context and the abort
    channel are closed. *)
Definition in_start : list label := [LCall 9 (KStopRm "b"); LLock 9; LCheck 9; LStopKill 9; LCore KKill; LCore (KEnd 1 None); LStopWaited 9; LCore (KCtx 6); LStartCtx 6].
Definition in_stop : list label := [LCore KKill; LCore (KEnd 1 None); LCore (KExit 1); LCore (KCtx 7)].
Definition in_remove : list label := [LLock 8; LCheck 8; LStopKill 8; LCore (KEnd 1 None); LStopWaited 8; LCore (KCtx 8); LDoneAbort 8].
(** Worker a of rl_up is stopped; its Kill is called with the mutex locked, and calls Worker. *)
Definition in_kill : list label := rl_up ++ [LCall 3 (KStop "a"); LRecvStop 3].
Definition in_worker : list label := [LCore (KCtx 7); LCore KKill; LCore (KEnd 1 None)].
Definition ran (s : state) (ls : list label) : state := default s (run rx s ls).
Lemma ran_ok s ls : match run rx s ls with Some _ => true | None => false end = true -> run rx s ls = Some (ran s ls).
Proof. unfold ran. by destruct (run rx s ls). Qed.
Definition is_act (l : label) : bool := match l with LCore KAct => true | _ => false end.
Lemma waits_ok ls : existsb is_act ls = false -> loop_waits ls.
Proof. unfold loop_waits. induction ls as [|l ls IH]; intros H Hin; [by apply elem_of_nil in Hin|]. cbn in H. apply orb_false_iff in H as [H1 H2]. apply elem_of_cons in Hin as [<-|Hin]; [done|]. by apply (IH H2). Qed.
Lemma mutex_ok ls : existsb locks ls = false -> mutex_waits ls.
Proof. intros H l Hin. induction ls as [|x ls IH]; [by apply elem_of_nil in Hin|]. cbn in H. apply orb_false_iff in H as [H1 H2]. apply elem_of_cons in Hin as [->|Hin]; auto. Qed.
Lemma judging_ok s g : c_loop (s_core s) = LDo (ADone g) -> judging s.
Proof. by exists g. Qed.
Lemma killing_ok s id : c_loop (s_core s) = LDo (AKill id) -> killing s.
Proof. right. left. by exists id. Qed.
Lemma known_ok log id : match known log id with Some _ => true | None => false end = true -> known log id <> None.
Proof. by destruct (known log id). Qed.
Example C83_start_example : let s := rx_state rx in_judge in reachable rx s /\ judging s /\ loop_waits in_start /\
  run rx s (LCall 6 (KStart "z" 5) :: in_start) = Some (ran s (LCall 6 (KStart "z" 5) :: in_start)) /\
  EvClient (CvRet 6 (KStart "z" 5) (RErr (Some (EConst KRunnerDead)))) ∈ rlog (ran s (LCall 6 (KStart "z" 5) :: in_start)).
Proof. intros s. split; [rx_go|]. split; [apply (judging_ok s 0); rx_go|]. split; [apply waits_ok; rx_go|]. split; [apply ran_ok; rx_go|]. apply (rx_present 0). rx_go. Qed.
Example C83_stop_example : let s := rx_state rx in_judge in reachable rx s /\ judging s /\ loop_waits in_stop /\
  run rx s (LCall 7 (KStop "b") :: in_stop) = Some (ran s (LCall 7 (KStop "b") :: in_stop)) /\ EvKilled ∈ rlog (ran s (LCall 7 (KStop "b") :: in_stop)).
Proof. intros s. split; [rx_go|]. split; [apply (judging_ok s 0); rx_go|]. split; [apply waits_ok; rx_go|]. split; [apply ran_ok; rx_go|]. apply (rx_present 2). rx_go. Qed.
Example C83_remove_example : let s := rx_state rx in_judge in reachable rx s /\ judging s /\ loop_waits in_remove /\ known (rlog s) "b" <> None /\
  run rx s (LCall 8 (KStopRm "b") :: in_remove) = Some (ran s (LCall 8 (KStopRm "b") :: in_remove)) /\
  EvClient (CvRet 8 (KStopRm "b") (RErr (Some (EConst KRunnerAborted)))) ∈ rlog (ran s (LCall 8 (KStopRm "b") :: in_remove)) /\
  EvClient (CvKill 8 1 11) ∈ rlog (ran s (LCall 8 (KStopRm "b") :: in_remove)).
Proof.
  intros s. split; [rx_go|]. split; [apply (judging_ok s 0); rx_go|]. split; [apply waits_ok; rx_go|]. split; [apply known_ok; rx_go|]. split; [apply ran_ok; rx_go|].
  split; [apply (rx_present 0)|apply (rx_present 3)]; rx_go.
Qed.
Example C83_locked_example : let s := rx_state rx in_kill in reachable rx s /\ killing s /\ holds_mutex rx s /\ mutex_waits in_worker /\ loop_waits in_worker /\
  run rx s (LCall 7 (KWorker "b") :: in_worker) = Some (ran s (LCall 7 (KWorker "b") :: in_worker)).
Proof. intros s. split; [rx_go|]. split; [apply (killing_ok s "a"); rx_go|]. split; [exists (AKill "a"); split; rx_go|]. split; [apply mutex_ok; rx_go|]. split; [apply waits_ok; rx_go|]. apply ran_ok. rx_go. Qed.
Example C83_runner_wait_example : let s := rx_state rx rl_dead in reachable rx s /\ EvClient (CvWait (Some (EUser 99))) ∈ rlog s /\ EvStartRet 1 "b" (inl 11) ∈ rlog s.
Proof. intros s. split; [rx_go|]. split; [apply (rx_present 0)|apply (rx_present 11)]; rx_go. Qed.
