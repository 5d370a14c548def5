(** Properties C43-C45 and C64 of the Catacomb. Statements only: every theorem is closed by a lemma proved elsewhere.
    Vocabulary: CatacombSpec.v (the log) and CatacombProgressSpec.v (internal steps, rest). *)
From stdpp Require Import gmap strings list.
From Verif Require Import Err Tomb Catacomb CatacombSpec CatacombProgressSpec CatacombThms CatacombMore CatacombExample.

(** C43: what Invoke returns, and what it did: success needs a valid plan and a catacomb nobody else uses; a failure is due
    to the plan, or to another call that used the catacomb, and every worker of the plan was killed and has finished. *)
Theorem C43_invoke_answer me s pre i r post p : reachable me s -> x_log s = pre ++ EvInvoked i r :: post -> EvInvoke i p ∈ x_log s ->
  match r with
  | None => valid_plan p /\ (forall j, EvUsed j ∈ x_log s <-> j = i) /\ EvWork ∈ post /\ forall w, Some w ∈ p_init p -> exists b, EvBind b w ∈ post
  | Some e => ~ EvUsed i ∈ x_log s /\ failure post i p e /\ forall w, Some w ∈ p_init p -> stopped post i w
  end.
Proof. exact (invoke_answer me s pre i r post p). Qed.
Print Assumptions C43_invoke_answer.

(** C43: at most one call succeeds, *)
Theorem C43_one_success me s i j : reachable me s -> EvInvoked i None ∈ x_log s -> EvInvoked j None ∈ x_log s -> i = j.
Proof. exact (invoke_success_once me s i j). Qed.
Print Assumptions C43_one_success.

(** C43: the catacomb is used at most once, *)
Theorem C43_used_once me s i j : reachable me s -> EvUsed i ∈ x_log s -> EvUsed j ∈ x_log s -> i = j.
Proof. exact (used_once me s i j). Qed.
Print Assumptions C43_used_once.

(** C43: it is marked as used only by a call with a valid plan, *)
Theorem C43_used_flag me s : reachable me s -> x_dirty s = true <-> exists i p, EvUsed i ∈ x_log s /\ EvInvoke i p ∈ x_log s /\ valid_plan p.
Proof. exact (dirty_used me s). Qed.
Print Assumptions C43_used_flag.

(** C43: so an invalid plan leaves it unused. *)
Theorem C43_invalid_unused me s i p : reachable me s -> EvInvoke i p ∈ x_log s -> ~ valid_plan p -> ~ EvUsed i ∈ x_log s.
Proof. exact (invoke_invalid_unused me s i p). Qed.
Print Assumptions C43_invalid_unused.

(** C43: the call returns, unless it failed and a worker of its plan does not finish after it was killed. *)
Theorem C43_invoke_ends me s i p : reachable me s -> x_crash s = false -> at_rest me s -> EvInvoke i p ∈ x_log s ->
  (exists r, EvInvoked i r ∈ x_log s) \/ (exists w r, Some w ∈ p_init p /\ failure (x_log s) i p r /\ EvWKill (ByInvoke i) w ∈ x_log s /\ ~ finished (x_log s) w).
Proof. exact (invoke_ends me s i p). Qed.
Print Assumptions C43_invoke_ends.

(** The first call succeeds, the second one fails and stops worker 5. *)
Example C43_example : let s := cx cl_reuse in reachable 0 s /\ x_log s = later 0 s ++ EvInvoked 1 (Some (EMsg MsgReused)) :: before 0 s /\ EvInvoke 1 cx_plan2 ∈ x_log s /\
  x_log s = later 4 s ++ EvInvoked 0 None :: before 4 s /\ EvInvoke 0 cx_plan ∈ x_log s /\ EvUsed 0 ∈ x_log s /\ x_dirty s = true.
Proof. intros s. split_and!; cx_go. Qed.
(** An invalid plan. *)
Example C43_example_bad : let s := cx cl_bad in reachable 0 s /\ at_rest 0 s /\ EvInvoke 0 cx_bad ∈ x_log s /\ ~ valid_plan cx_bad /\ x_dirty s = false /\ x_crash s = false /\
  x_log s = later 0 s ++ EvInvoked 0 (Some (EWrap MsgTrace (ETyped TNotValid (MsgNilInit 1)))) :: before 0 s.
Proof. intros s. do 3 (split; [cx_go|]). split; [intros (_ & _ & _ & H); apply H; vm_compute; right; left|]. split_and!; cx_go. Qed.
Example C43_example_wait : let s := cx cl_bad_wait in reachable 0 s /\ at_rest 0 s /\ EvInvoke 0 cx_bad ∈ x_log s.
Proof. intros s. split_and!; cx_go. Qed.

(** C44: what Add returns: nil on a catacomb in use and not dead; otherwise the catacomb was dying, the worker was killed and
    has finished, and its error or ErrDying is returned. It returns once. *)
Theorem C44_add_answer me s pre i w r post : reachable me s -> x_log s = pre ++ EvAddRet i w r :: post ->
  EvAddCall i w ∈ post /\ (forall w' r', ~ EvAddRet i w' r' ∈ post) /\
  match r with
  | None => (exists j, EvUsed j ∈ post) /\ ~ EvDead ∈ post
  | Some x => is_dying post /\ EvWKill (ByAdd i) w ∈ post /\ exists e, finished_with me post w e /\ x = match e with Some y => EWrap MsgTrace y | None => ECatacombDying me end
  end.
Proof. exact (add_answer me s pre i w r post). Qed.
Print Assumptions C44_add_answer.

(** C44: the catacomb binds the workers of the plan and then those that Add handed over, in that order; one may be on its way. *)
Theorem C44_bound_seq me s i p : reachable me s -> EvInvoked i None ∈ x_log s -> EvInvoke i p ∈ x_log s ->
  exists acc rest, accepted_of (x_log s) = acc ++ rest /\ bound_of (x_log s) = inits p ++ acc /\ length rest <= 1 /\ (x_crash s = false -> at_rest me s -> rest = []).
Proof. exact (bound_seq me s i p). Qed.
Print Assumptions C44_bound_seq.

(** C44: the call returns, unless the worker does not finish after it was killed, or the call was made before the catacomb was
    used and the catacomb is not dying. *)
Theorem C44_add_ends me s i w : reachable me s -> x_crash s = false -> at_rest me s -> EvAddCall i w ∈ x_log s ->
  (exists r, EvAddRet i w r ∈ x_log s) \/
  (is_dying (x_log s) /\ EvWKill (ByAdd i) w ∈ x_log s /\ ~ finished (x_log s) w) \/
  (~ is_dying (x_log s) /\ exists pre post, x_log s = pre ++ EvAddCall i w :: post /\ forall j, ~ EvUsed j ∈ post).
Proof. exact (add_ends me s i w). Qed.
Print Assumptions C44_add_ends.

(** Handed over; stopped, finishing without an error and with one. *)
Example C44_example : let s := cx cl_late in reachable 0 s /\ EvAddRet 0 (WExt 3) None ∈ x_log s /\
  x_log s = later 4 s ++ EvAddRet 1 (WExt 4) (Some (ECatacombDying 0)) :: before 4 s /\
  x_log s = later 0 s ++ EvAddRet 2 (WExt 6) (Some (EWrap MsgTrace (EUser 6))) :: before 0 s /\
  EvInvoked 0 None ∈ x_log s /\ EvInvoke 0 cx_plan ∈ x_log s /\ bound_of (x_log s) = [WExt 1; WExt 2; WExt 3] /\ accepted_of (x_log s) = [WExt 3].
Proof. intros s. split_and!; cx_go. Qed.
Example C44_example_rest : let s := cx cl_early in reachable 0 s /\ x_crash s = false /\ at_rest 0 s /\ EvAddCall 0 (WExt 3) ∈ x_log s.
Proof. intros s. split_and!; cx_go. Qed.

(** C64: a call of Add made before the catacomb was used never hands over its worker, even if the catacomb is used later. *)
Theorem C64_early_add me s pre i w post w' : reachable me s -> x_log s = pre ++ EvAddCall i w :: post -> (forall j, ~ EvUsed j ∈ post) -> ~ EvAddRet i w' None ∈ x_log s.
Proof. exact (early_add_refused me s pre i w post w'). Qed.
Print Assumptions C64_early_add.

Example C64_example : let s := cx cl_early in reachable 0 s /\ x_log s = later 6 s ++ EvAddCall 0 (WExt 3) :: before 6 s /\ before 6 s = [] /\ EvInvoked 0 None ∈ x_log s.
Proof. intros s. split_and!; cx_go. Qed.

(** C45: when the catacomb becomes dead, Work is over, and all bound workers, all workers Add handed over (there will be no
    more of either) and all Init workers have finished. *)
Theorem C45_dead_finished me s pre post : reachable me s -> x_log s = pre ++ EvDead :: post ->
  work_returned post /\
  (forall b w, EvBind b w ∈ x_log s -> EvBind b w ∈ post /\ finished post w) /\
  (forall i w, EvAddRet i w None ∈ x_log s -> EvAddRet i w None ∈ post /\ finished post w) /\
  (forall i p w, EvInvoked i None ∈ x_log s -> EvInvoke i p ∈ x_log s -> Some w ∈ p_init p -> finished post w).
Proof. exact (dead_finished me s pre post). Qed.
Print Assumptions C45_dead_finished.

(** C45: this is when the Dead channel is closed; Wait returns only after it (C46). *)
Theorem C45_dead_tomb me s : reachable me s -> t_dead (x_tomb s) = true <-> EvDead ∈ x_log s.
Proof. exact (dead_tomb me s). Qed.
Print Assumptions C45_dead_tomb.

Example C45_example : let s := cx cl_dead in reachable 0 s /\ x_log s = later 1 s ++ EvDead :: before 1 s /\ EvAddRet 0 (WExt 3) None ∈ x_log s /\ EvInvoked 0 None ∈ x_log s /\
  EvInvoke 0 cx_plan ∈ x_log s /\ EvBind 2 (WExt 3) ∈ x_log s.
Proof. intros s. split_and!; cx_go. Qed.
