(** Properties C46-C48, C53, C63 and the catacomb's part of C58. Statements only: every theorem is closed by a lemma proved elsewhere.
    Vocabulary: CatacombSpec.v (the log) and CatacombProgressSpec.v (internal steps, rest). *)
From stdpp Require Import gmap strings list.
From RecordUpdate Require Import RecordSet.
From Verif Require Import Err Tomb Catacomb CatacombSpec CatacombProgressSpec CatacombThms CatacombMore CatacombExample.
Import RecordSetNotations.

(** C46: Wait returns the first thing that was said in a Kill, also by Kills after the catacomb was dead (see below). *)
Theorem C46_wait_result_partial me s pre e post : reachable me s -> x_log s = pre ++ EvWait e :: post -> EvDead ∈ post /\ e = first_said me post.
Proof. exact (wait_result me s pre e post). Qed.
Print Assumptions C46_wait_result_partial.

(** C46: it is the first thing that was said before death if there was one, or if Kill was not called with an error after death. *)
Theorem C46_wait_at_death me s pre e mid post : reachable me s -> x_log s = pre ++ EvWait e :: mid ++ EvDead :: post ->
  first_said me post <> None \/ (forall src x, EvKill src x ∈ mid -> says me x = None) -> e = first_said me post.
Proof. exact (wait_at_death me s pre e mid post). Qed.
Print Assumptions C46_wait_at_death.

(** C46: an error that Wait returned does not change. *)
Theorem C46_wait_stable me s pre x post e : reachable me s -> x_log s = pre ++ EvWait (Some x) :: post -> EvWait e ∈ pre -> e = Some x.
Proof. exact (wait_stable me s pre x post e). Qed.
Print Assumptions C46_wait_stable.

(** C46: the same for Err, which is ErrStillAlive while nobody called Kill. *)
Theorem C46_err_result me s : reachable me s -> tomb_err (x_tomb s) = Some ETombStillAlive /\ ~ is_dying (x_log s) \/ is_dying (x_log s) /\ tomb_err (x_tomb s) = first_said me (x_log s).
Proof. exact (err_result me s). Qed.
Print Assumptions C46_err_result.

(** C46 as documented is false: Kill on a dead catacomb whose error is nil is not ignored. *)
Theorem C46_late_kill_refuted : exists s pre mid post e, reachable 0 s /\ x_log s = pre ++ EvWait e :: mid ++ EvDead :: post /\ e <> first_said 0 post.
Proof.
  exists (cx cl_after), [], [EvKill FromClient (Some (EUser 9)); EvWait None], (before 3 (cx cl_after)), (Some (EUser 9)). split; [cx_go|]. split; [exact (cx_split 3 (cx cl_after) EvDead ltac:(cx_go))|].
  assert (H : first_said 0 (before 3 (cx cl_after)) = None) by cx_go. by rewrite H.
Qed.
Print Assumptions C46_late_kill_refuted.
(** The client's error came first, worker 2's and the catacomb's own ErrDying later. *)
Example C46_example : let s := cx cl_dead in reachable 0 s /\ x_log s = [] ++ EvWait (Some (EUser 9)) :: [] ++ EvDead :: before 1 s /\ first_said 0 (before 1 s) = Some (EUser 9) /\
  EvKill (FromWorker 1) (Some (EUser 2)) ∈ x_log s /\ EvKill FromWork (Some (ECatacombDying 0)) ∈ x_log s.
Proof. intros s. split; [cx_go|]. split; [exact (cx_split 1 s EvDead ltac:(cx_go))|]. split_and!; cx_go. Qed.

(** C47: Kill panics with no error but tomb.ErrStillAlive (what Err returns while the catacomb is alive), and never accepts that one. *)
Theorem C47_kill_panics_partial me s : reachable me s -> (forall src e, EvKillPanic src e ∈ x_log s -> e = Some ETombStillAlive) /\ (forall src, ~ EvKill src (Some ETombStillAlive) ∈ x_log s).
Proof. exact (kill_panics me s). Qed.
Print Assumptions C47_kill_panics_partial.

(** C47: so a client's call is accepted, or panics without any other effect. *)
Theorem C47_kill_call me s e s' : reachable me s -> step me s (LKill e) = Some s' ->
  (e = Some ETombStillAlive -> s' = s <| x_log := EvKillPanic FromClient e :: x_log s |>) /\ (e <> Some ETombStillAlive -> x_log s' = EvKill FromClient e :: x_log s).
Proof. exact (kill_call me s e s'). Qed.
Print Assumptions C47_kill_call.

(** C47: the program crashes only if a worker's error, or Work's, is tomb.ErrStillAlive. *)
Theorem C47_crash_why me s : reachable me s -> x_crash s = true ->
  (exists b n, EvBind b (WExt n) ∈ x_log s /\ EvEnd n (Some ETombStillAlive) ∈ x_log s) \/ EvWorkRet (WkReturn (Some ETombStillAlive)) ∈ x_log s.
Proof. exact (crash_why me s). Qed.
Print Assumptions C47_crash_why.

(** C47 as documented is false. *)
Theorem C47_kill_safe_refuted : exists s e s', reachable 0 s /\ e = tomb_err (x_tomb s) /\ step 0 s (LKill e) = Some s' /\ EvKillPanic FromClient e ∈ x_log s'.
Proof. exists (cx cl_up), (Some ETombStillAlive), (cx cl_still). split_and!; cx_go. Qed.
Print Assumptions C47_kill_safe_refuted.
Theorem C47_no_crash_refuted : exists s, reachable 0 s /\ x_crash s = true.
Proof. exists (cx cl_crash). split_and!; cx_go. Qed.
Print Assumptions C47_no_crash_refuted.
Example C47_example : let s := cx cl_still in reachable 0 s /\ EvKillPanic FromClient (Some ETombStillAlive) ∈ x_log s /\ step 0 s (LKill (Some ETombDying)) <> None.
Proof. intros s. split_and!; [cx_go|cx_go|vm_compute; discriminate]. Qed.

(** C48: the error of a bound worker is passed to Kill (in time: at rest it has been). *)
Theorem C48_error_kills me s b n e : reachable me s -> x_crash s = false -> at_rest me s -> EvBind b (WExt n) ∈ x_log s -> EvEnd n (Some e) ∈ x_log s -> EvKill (FromWorker b) (Some e) ∈ x_log s.
Proof. exact (worker_error_kills me s b n e). Qed.
Print Assumptions C48_error_kills.

(** C48: a worker that finished without an error never makes the catacomb call Kill. *)
Theorem C48_clean_does_not me s b n e : reachable me s -> EvBind b (WExt n) ∈ x_log s -> EvEnd n None ∈ x_log s -> ~ EvKill (FromWorker b) e ∈ x_log s.
Proof. exact (worker_clean me s b n e). Qed.
Print Assumptions C48_clean_does_not.

(** C48: the catacomb is dying only if a client killed it, a bound worker failed, Work is over, or an Invoke that failed had
    the parent worker among its Init workers. *)
Theorem C48_dying_why me s : reachable me s -> is_dying (x_log s) ->
  (exists e, EvKill FromClient e ∈ x_log s) \/
  (exists b n e, EvBind b (WExt n) ∈ x_log s /\ EvEnd n (Some e) ∈ x_log s) \/
  work_returned (x_log s) \/
  (exists i p, EvInvoke i p ∈ x_log s /\ Some WSelf ∈ p_init p /\ ~ EvUsed i ∈ x_log s).
Proof. exact (dying_why me s). Qed.
Print Assumptions C48_dying_why.

(** Worker 1 failed. *)
Example C48_example : let s := cx cl_fail in reachable 0 s /\ x_crash s = false /\ at_rest 0 s /\ EvBind 0 (WExt 1) ∈ x_log s /\ EvEnd 1 (Some (EUser 7)) ∈ x_log s /\
  first_said 0 (x_log s) = Some (EUser 7).
Proof. intros s. split_and!; cx_go. Qed.
(** Worker 1 finished without an error, the catacomb is alive. *)
Example C48_example_clean : let s := cx cl_clean_gone in reachable 0 s /\ at_rest 0 s /\ EvBind 0 (WExt 1) ∈ x_log s /\ EvEnd 1 None ∈ x_log s /\ t_dying (x_tomb s) = false.
Proof. intros s. split_and!; cx_go. Qed.

(** C53: when Work panicked, the panic is passed to Kill before Wait returns, Wait returns an error, and if nobody else
    said anything it is that one. *)
Theorem C53_panic_reported me s pre e post v : reachable me s -> x_log s = pre ++ EvWait e :: post -> EvWorkRet (WkPanic v) ∈ x_log s ->
  EvKill FromWork (Some (EMsg (MsgPanicked v))) ∈ post /\ e <> None /\
  ((forall src x, EvKill src x ∈ post -> src = FromWork \/ says me x = None) -> e = Some (EMsg (MsgPanicked v))).
Proof. exact (panic_reported me s pre e post v). Qed.
Print Assumptions C53_panic_reported.

(** C53: Work's error, or its panic, is passed to Kill next, without a crash (unless the error is tomb.ErrStillAlive), *)
Theorem C53_work_kill me s r e : reachable me s -> x_crash s = false -> EvWorkRet r ∈ x_log s -> outcome r = Some e ->
  EvKill FromWork e ∈ x_log s \/ exists s', step me s LWorkKill = Some s' /\ (e <> Some ETombStillAlive -> EvKill FromWork e ∈ x_log s' /\ x_crash s' = false).
Proof. exact (work_kill_said me s r e). Qed.
Print Assumptions C53_work_kill.

(** C53: so that at rest it has been. *)
Theorem C53_rest_work_said me s r e : reachable me s -> x_crash s = false -> at_rest me s -> EvWorkRet r ∈ x_log s -> outcome r = Some e -> EvKill FromWork e ∈ x_log s.
Proof. exact (rest_work_said me s r e). Qed.
Print Assumptions C53_rest_work_said.

Example C53_example : let s := cx cl_panic in reachable 0 s /\ x_log s = later 0 s ++ EvWait (Some (EMsg (MsgPanicked 13))) :: before 0 s /\ EvWorkRet (WkPanic 13) ∈ x_log s /\ x_crash s = false /\
  EvDead ∈ x_log s /\ EvGone 0 ∈ x_log s /\ EvGone 1 ∈ x_log s.
Proof. intros s. split_and!; cx_go. Qed.
Example C53_example_next : let s := cx (cl_up ++ [LWorkRet (WkPanic 13)]) in reachable 0 s /\ x_crash s = false /\ EvWorkRet (WkPanic 13) ∈ x_log s.
Proof. intros s. split_and!; cx_go. Qed.

(** C58, the catacomb: dying and dead are permanent, dead implies dying, a non-nil reason does not change. *)
Theorem C58_catacomb_tomb me s ls s' : reachable me s -> run me s ls = Some s' ->
  (t_dead (x_tomb s) = true -> t_dying (x_tomb s) = true) /\
  (t_dying (x_tomb s) = true -> t_dying (x_tomb s') = true) /\
  (t_dead (x_tomb s) = true -> t_dead (x_tomb s') = true) /\
  (forall e, t_reason (x_tomb s) = Reason (Some e) -> t_reason (x_tomb s') = Reason (Some e)).
Proof. exact (catacomb_tomb me s ls s'). Qed.
Print Assumptions C58_catacomb_tomb.

Example C58_catacomb_example : let s := cx cl_dead in reachable 0 s /\ t_dead (x_tomb s) = true /\ t_reason (x_tomb s) = Reason (Some (EUser 9)).
Proof. intros s. split_and!; cx_go. Qed.

(** C63: ErrDying returns the catacomb's own error if Kill was called, a complaint otherwise. *)
Theorem C63_errdying_result me s pre e post : reachable me s -> x_log s = pre ++ EvErrDying e :: post ->
  (is_dying post /\ e = Some (ECatacombDying me)) \/ (~ is_dying post /\ e = Some (EMsg MsgStillAlive)).
Proof. exact (errdying_result me s pre e post). Qed.
Print Assumptions C63_errdying_result.

(** C63: Kill with the catacomb's own ErrDying, wrapped or not, leaves a dying catacomb as it is. *)
Theorem C63_errdying_harmless me s e s' : reachable me s -> is_dying (x_log s) -> as_dying e = Some me -> step me s (LKill (Some e)) = Some s' -> s' = s <| x_log := EvKill FromClient (Some e) :: x_log s |>.
Proof. exact (errdying_harmless me s e s'). Qed.
Print Assumptions C63_errdying_harmless.

Example C63_example : let s := cx cl_errdying in reachable 0 s /\ x_log s = later 0 s ++ EvErrDying (Some (ECatacombDying 0)) :: before 0 s /\
  x_log s = later 2 s ++ EvErrDying (Some (EMsg MsgStillAlive)) :: before 2 s /\ as_dying (EWrap MsgTrace (ECatacombDying 0)) = Some 0.
Proof. intros s. split_and!; cx_go. Qed.
Example C63_example_dying : let s := cx cl_errdying in reachable 0 s /\ is_dying (x_log s) /\ step 0 s (LKill (Some (EWrap MsgTrace (ECatacombDying 0)))) <> None.
Proof. intros s. split; [cx_go|]. split; [|vm_compute; discriminate]. exists FromClient, None. cx_go. Qed.
