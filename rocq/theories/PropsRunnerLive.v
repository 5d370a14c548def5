(** Property C74 of the Runner. Statements only: every theorem is closed by a lemma proved elsewhere.
    Vocabulary: RunnerLiveSpec.v (works, at_rest), RunnerSpec.v (the log). *)
From stdpp Require Import gmap strings list.
From Coq Require Import ZArith Lia.
From Verif Require Import Err Tomb Runner RunnerSpec RunnerProgressSpec RunnerAnswers RunnerLiveSpec RunnerLive RunnerExample.

(** C74: left alone by its environment, the runner takes a bounded number of steps, whichever it takes; *)
Theorem C74_finite P s : reachable P s ->
  exists n, forall ls s', run P s ls = Some s' -> (forall l, l ∈ ls -> works l = true) -> length ls <= n.
Proof. exact (work_bounded P s). Qed.
Print Assumptions C74_finite.

(** C74: and it can always go on until nothing is left to do. *)
Theorem C74_settles P s : reachable P s ->
  exists ls s', (forall l, l ∈ ls -> works l = true) /\ run P s ls = Some s' /\ at_rest P s'.
Proof. exact (work_settles P s). Qed.
Print Assumptions C74_settles.

(** C74: the run loop is then waiting for something new, or the runner is dead, or (finding 7) the tomb crashed the program; *)
Theorem C74_loop P s : reachable P s -> at_rest P s ->
  at_select (s_core s) = true \/ EvDead ∈ rlog s \/ crashed P s.
Proof. exact (rest_loop P s). Qed.
Print Assumptions C74_loop.

(** C74: every StartWorker and every StopWorker has returned; *)
Theorem C74_start_returned P s i id f : reachable P s -> at_rest P s ->
  EvClient (CvCall i (KStart id f)) ∈ rlog s -> call_returned (rlog s) i (KStart id f) \/ crashed P s.
Proof. exact (rest_start P s i id f). Qed.
Print Assumptions C74_start_returned.
Theorem C74_stop_returned P s i id : reachable P s -> at_rest P s ->
  EvClient (CvCall i (KStop id)) ∈ rlog s -> call_returned (rlog s) i (KStop id) \/ crashed P s.
Proof. exact (rest_stop P s i id). Qed.
Print Assumptions C74_stop_returned.

(** C74: every Worker has returned, unless its worker is known and not running (and neither its abort channel is closed nor
    the runner killed); *)
Theorem C74_worker_returned P s i id : reachable P s -> at_rest P s ->
  EvClient (CvCall i (KWorker id)) ∈ rlog s -> call_returned (rlog s) i (KWorker id) \/
    (known (rlog s) id <> None /\ registered (rlog s) id = None /\ EvCtx i ∉ rlog s /\ EvKilled ∉ rlog s).
Proof. exact (rest_worker P s i id). Qed.
Print Assumptions C74_worker_returned.

(** C74: every StopAndRemoveWorker has returned, unless it waits in the same way for a worker to appear, or has killed a
    worker that has not ended, or waits for the removal of an entry that the runner keeps (it restarted the worker), or
    (finding 4) for the removal signal that another StopAndRemoveWorker took. *)
Theorem C74_stoprm_returned P s i id : reachable P s -> at_rest P s ->
  EvClient (CvCall i (KStopRm id)) ∈ rlog s -> call_returned (rlog s) i (KStopRm id) \/
  (known (rlog s) id <> None /\ registered (rlog s) id = None /\ EvCtx i ∉ rlog s /\ EvKilled ∉ rlog s) \/
  exists g w d, EvClient (CvLookup i id (GWorker g w d)) ∈ rlog s /\ EvClient (CvKill i g w) ∈ rlog s /\
    (~ worker_ended (rlog s) g \/
     (EvCtx i ∉ rlog s /\ ((exists f, known (rlog s) id = Some (f, d)) \/
        (EvRemoved id d ∈ rlog s /\ exists j e g' w', j <> i /\ EvClient (CvRet j (KStopRm id) (RRemoved e)) ∈ rlog s /\ EvClient (CvLookup j id (GWorker g' w' d)) ∈ rlog s)))).
Proof. exact (rest_stoprm P s i id). Qed.
Print Assumptions C74_stoprm_returned.

(** C74: a known id has a goroutine in charge whose start func is running, or whose worker is running (registered, or
    killed), or that waits for the end of its restart delay. (No worker ended its goroutine with runtime.Goexit.) *)
Theorem C74_known_ids P s ls id : run P init ls = Some s -> (forall g, LCore (KLost g) ∉ ls) -> at_rest P s -> known (rlog s) id <> None ->
  exists g, in_charge (rlog s) id = Some g /\
    ((start_called (rlog s) g /\ (forall r, EvStartRet g id r ∉ rlog s)) \/
     (exists w, EvSet g id w ∈ rlog s /\ ~ worker_ended (rlog s) g /\
        (registered (rlog s) id = Some (g, w) \/ EvKill g id w ∈ rlog s)) \/
     (~ start_called (rlog s) g /\ delayed s g /\ EvKilled ∉ rlog s)).
Proof. exact (rest_known P s ls id). Qed.
Print Assumptions C74_known_ids.

(** C74: every goroutine that was to start a worker has called the start func, or is in the delay, or gave up because the
    runner was killed; *)
Theorem C74_started P s ls g id f d t : run P init ls = Some s -> (forall g, LCore (KLost g) ∉ ls) -> at_rest P s ->
  EvSpawn g id f d t ∈ rlog s ->
  (exists t', EvStartCall g id f t' ∈ rlog s) \/ delayed s g \/ (EvKilled ∈ rlog s /\ exists t', EvDone g id None t' ∈ rlog s).
Proof. exact (rest_spawned P s ls g id f d t). Qed.
Print Assumptions C74_started.

(** C74: every worker that was returned and has not ended is recorded under its id; *)
Theorem C74_recorded P s ls g id w : run P init ls = Some s -> (forall g, LCore (KLost g) ∉ ls) -> at_rest P s ->
  EvStartRet g id (inl w) ∈ rlog s ->
  worker_ended (rlog s) g \/ (EvSet g id w ∈ rlog s /\ in_charge (rlog s) id = Some g /\ known (rlog s) id <> None).
Proof. exact (rest_recorded P s ls g id w). Qed.
Print Assumptions C74_recorded.

(** C74: and every end of a worker, every failure of a start func, has been dealt with. *)
Theorem C74_end_handled P s ls g id e : run P init ls = Some s -> (forall g, LCore (KLost g) ∉ ls) -> at_rest P s ->
  EvEnd g id e ∈ rlog s -> exists t, EvDone g id e t ∈ rlog s.
Proof. exact (rest_ended P s ls g id e). Qed.
Print Assumptions C74_end_handled.
Theorem C74_failure_handled P s ls g id y : run P init ls = Some s -> (forall g, LCore (KLost g) ∉ ls) -> at_rest P s ->
  EvStartRet g id (inr y) ∈ rlog s -> exists t, EvDone g id (Some y) t ∈ rlog s.
Proof. exact (rest_failed P s ls g id y). Qed.
Print Assumptions C74_failure_handled.

(** A state with work in it: a call in progress, a failure to handle, a start func to call. *)
Definition lv_busy : list label := rl_dup ++ [LCall 3 (KStart "c" 4); LCall 4 (KStop "b"); LCall 5 (KWorker "c"); LCore (KEnd 0 (Some (EUser 1)))].
(** The steps that bring it to rest: a in its restart delay, b killed, c's start func called, Worker(c) waiting. *)
Definition lv_work : list label := [LCore (KExit 0); LCore (KRecvDone 0); A; A; LCore (KBegin 2); LRecvStart 3; A; A; A; LCore (KBegin 3); LRecvStop 4; A; A;
  LLock 5; LWtCheck 5; LWtAdd 5].
Definition lv_rest : list label := lv_busy ++ lv_work.
Definition lv_no_lost (ls : list label) : bool := forallb (fun l => match l with LCore (KLost _) => false | _ => true end) ls.
Lemma lv_lost ls : lv_no_lost ls = true -> forall g, LCore (KLost g) ∉ ls.
Proof. unfold lv_no_lost. rewrite forallb_forall. intros H g Hin%elem_of_list_In. by apply H in Hin. Qed.

Example C74_busy_sat : reachable rx (rx_state rx lv_busy) /\ ~ at_rest rx (rx_state rx lv_busy) /\
  forallb works lv_work = true /\ run rx (rx_state rx lv_busy) lv_work = Some (rx_state rx lv_rest).
Proof.
  split; [rx_go|]. split; [|split].
  - intros H. assert (step rx (rx_state rx lv_busy) (LCore (KExit 0)) = None) as Hn by (by apply H). vm_compute in Hn. discriminate Hn.
  - vm_compute. reflexivity.
  - vm_compute. reflexivity.
Qed.
Example C74_rest_sat : run rx init lv_rest = Some (rx_state rx lv_rest) /\ at_rest rx (rx_state rx lv_rest) /\ (forall g, LCore (KLost g) ∉ lv_rest).
Proof. split; [rx_go|]. split; [apply rest_check_ok; vm_compute; reflexivity|apply lv_lost; vm_compute; reflexivity]. Qed.
Example C74_rest_log : let s := rx_state rx lv_rest in
  at_select (s_core s) = true /\ known (rlog s) "a" = Some (1, 0) /\ known (rlog s) "b" = Some (2, 1) /\ known (rlog s) "c" = Some (4, 2) /\ known (rlog s) "z" = None /\
  in_charge (rlog s) "a" = Some 2 /\ in_charge (rlog s) "b" = Some 1 /\ in_charge (rlog s) "c" = Some 3.
Proof. vm_compute. tauto. Qed.
Definition lv_has (p : event -> bool) (ls : list label) : bool := existsb p (rlog (rx_state rx ls)).
Example C74_rest_events :
  lv_has (fun ev => match ev with EvClient (CvRet 3 (KStart "c" 4) _) => true | _ => false end) lv_rest = true /\
  lv_has (fun ev => match ev with EvClient (CvRet 4 (KStop "b") _) => true | _ => false end) lv_rest = true /\
  lv_has (fun ev => match ev with EvClient (CvRet 5 _ _) => true | _ => false end) lv_rest = false /\
  lv_has (fun ev => match ev with EvEnd 0 "a" (Some (EUser 1)) => true | _ => false end) lv_rest = true /\
  lv_has (fun ev => match ev with EvDone 0 "a" (Some (EUser 1)) 0 => true | _ => false end) lv_rest = true /\
  lv_has (fun ev => match ev with EvKill 1 "b" 11 => true | _ => false end) lv_rest = true /\
  lv_has (fun ev => match ev with EvStartCall 3 "c" 4 0 => true | _ => false end) lv_rest = true /\
  lv_has (fun ev => match ev with EvStartCall 2 _ _ _ => true | _ => false end) lv_rest = false.
Proof. vm_compute. tauto. Qed.
(** The exceptions are real: a crash, and the two StopAndRemoveWorker calls of which one waits for ever. *)
Example C74_crash_sat : at_rest rx_all (rx_state rx_all rl_panic) /\ crashed rx_all (rx_state rx_all rl_panic).
Proof.
  split; [apply rest_check_ok; vm_compute; reflexivity|]. split; [vm_compute; reflexivity|].
  exists ETombStillAlive. split; [vm_compute; reflexivity|by left].
Qed.
Example C74_two_sat : at_rest rx (rx_state rx rl_two) /\
  lv_has (fun ev => match ev with EvClient (CvCall 5 (KStopRm "a")) => true | _ => false end) rl_two = true /\
  lv_has (fun ev => match ev with EvClient (CvRet 5 _ _) => true | _ => false end) rl_two = false.
Proof. split; [apply rest_check_ok; vm_compute; reflexivity|]. vm_compute. tauto. Qed.
