(** Property C73, and C14 for the fine-grained loop. Statements only: every theorem is closed by a lemma proved
    elsewhere.  [freachable] (EngineFine.v): the loop takes small steps, the other goroutines step in between.
    [same] (EngineFineSpec.v): equal states, the same events, those of the loop in the same order, and those
    of the others in the same order.  Other vocabulary: EngineSpec.v. *)
From stdpp Require Import gmap strings list sorting.
From Coq Require Import ZArith.
From Verif Require Import Err Tomb Snapshot Engine EngineSpec EngineFine EngineFineSpec EngineFineProofs EngineFineMore EngineExample.

(** C73: whenever the loop waits for its next message, the state is one that the model with atomic handlers
    reaches too, with the same events; only the moments at which clients killed the engine may differ. *)
Theorem C73_atomic_handlers E fs : freachable E fs -> f_todo fs = [] ->
  exists kills s, reachable (with_preempt kills E) s /\ same s (f_s fs).
Proof. exact (fine_reduction E fs). Qed.
Print Assumptions C73_atomic_handlers.

(** C73: and the loop can always finish the handler it is in, whatever happened in between. *)
Theorem C73_handlers_end E fs : freachable E fs -> exists k fs' new,
  frun E fs (repeat FLoop k) = Some fs' /\ f_todo fs' = [] /\ freachable E fs' /\
  s_log (f_s fs') = new ++ s_log (f_s fs) /\ List.filter other_event new = [] /\
  (forall x, t_reason (s_tomb (f_s fs)) = Reason (Some x) -> t_reason (s_tomb (f_s fs')) = Reason (Some x)).
Proof. exact (fine_completes E fs). Qed.
Print Assumptions C73_handlers_end.

(** C04 for any interleaving *)
Theorem C73_one_worker E fs pre g n f t post : freachable E fs ->
  s_log (f_s fs) = pre ++ EvStartCall g n f t :: post ->
  forall g' f' t', EvStartCall g' n f' t' ∈ post -> g' <> g /\ finished post g'.
Proof. exact (fine_one_worker E fs pre g n f t post). Qed.
Print Assumptions C73_one_worker.

(** C05 for any interleaving, whenever the loop is idle *)
Theorem C73_no_stale_inputs E fs n m : freachable E fs -> f_todo fs = [] ->
  ~ is_dying (s_log (f_s fs)) -> installed (s_log (f_s fs)) n = Some m ->
  exists g sn post, last_attempt (s_log (f_s fs)) n = Some (g, sn, post) /\ installed post n = Some m /\
    (~ asked_to_stop (s_log (f_s fs)) g -> forall x, x ∈ m_inputs m ->
      sn_workers sn !! x = Some (snd <$> registered (s_log (f_s fs)) x) /\
      registered post x = registered (s_log (f_s fs)) x /\ registrations post x = registrations (s_log (f_s fs)) x).
Proof. exact (fine_no_stale E fs n m). Qed.
Print Assumptions C73_no_stale_inputs.

(** C10 for any interleaving: no consistency check of the loop fires. *)
Theorem C73_checks_never_fire E fs : freachable E fs ->
  t_reason (s_tomb (f_s fs)) = StillAlive \/ t_reason (s_tomb (f_s fs)) = Reason None.
Proof. exact (fine_checks E fs). Qed.
Print Assumptions C73_checks_never_fire.

(** C11 for any interleaving *)
Theorem C73_wait_returns_worst E fs e : freachable E fs -> f_todo fs = [] -> EvWait e ∈ s_log (f_s fs) ->
  EvDead ∈ s_log (f_s fs) /\
  e = (match c_filter (e_cfg E) with Some f => f | None => id end) (worst_of (e_cfg E) (s_log (f_s fs))).
Proof. exact (fine_wait E fs e). Qed.
Print Assumptions C73_wait_returns_worst.

(** C12 for any interleaving *)
Theorem C73_shutdown_complete E fs : freachable E fs -> EvDead ∈ s_log (f_s fs) ->
  (forall g n f t, EvStartCall g n f t ∈ s_log (f_s fs) -> exists r, EvStartRet g n r ∈ s_log (f_s fs)) /\
  (forall g n w, EvStartRet g n (inl w) ∈ s_log (f_s fs) -> w = WSelf \/ worker_exited (s_log (f_s fs)) g).
Proof. exact (fine_shutdown E fs). Qed.
Print Assumptions C73_shutdown_complete.

(** C13 for any interleaving: Kill is called at most once per worker instance, on a worker a Start func returned. *)
Theorem C73_kill_once E fs pre g n w post : freachable E fs -> s_log (f_s fs) = pre ++ EvKill g n w :: post ->
  (forall n' w', EvKill g n' w' ∉ post) /\ EvStartRet g n (inl w) ∈ s_log (f_s fs).
Proof. exact (fine_kill_once E fs pre g n w post). Qed.
Print Assumptions C73_kill_once.

(** C14 for any interleaving: after the kill at most one attempt is launched, or one worker registered, or one
    manifold uninstalled: the loop had polled the tomb before the kill, and acts after it. *)
Theorem C14_at_most_one E fs pre post : freachable E fs -> s_log (f_s fs) = pre ++ EvDying :: post ->
  length (List.filter starting_event pre) <= 1.
Proof. exact (fine_late_once E fs pre post). Qed.
Print Assumptions C14_at_most_one.

(** Concrete runs *)
Definition fstate_of (ls : list flabel) : fstate := default finit (frun ex_env finit ls).
Lemma freach_of ls : (if frun ex_env finit ls then true else false) = true -> freachable ex_env (fstate_of ls).
Proof. unfold fstate_of. destruct (frun ex_env finit ls) as [fs|] eqn:H; [|done]. intros _. by exists ls. Qed.

Definition fup (g w : nat) : list flabel := FOther <$> [LDelayFire g; LStartRet g (inl (WExt w)); LExpire g].
Definition handle (l : label) (k : nat) : list flabel := FRecv l :: repeat FLoop k.

(** db and api are up; db fails.  While the loop handles its end, and has decided to stop api, api's worker ends by
    itself; then the loop cancels api's context and kills the worker that has just finished. *)
Definition fl_cross : list flabel :=
  handle (LInstall "db" m_db) 7 ++ fup 0 10 ++ handle (LStarted 0) 5 ++
  handle (LInstall "api" m_api) 7 ++ fup 1 11 ++ handle (LStarted 1) 5 ++
  [FOther (LExit 0 (Some (EUser 1)))] ++ handle (LStopped 0) 11 ++ [FOther (LExit 1 None)] ++ repeat FLoop 4.

Example C73_example : let fs := fstate_of fl_cross in
  freachable ex_env fs /\ f_todo fs = [] /\
  s_log (f_s fs) !! 0 = Some (EvKill 1 "api" (WExt 11)) /\ s_log (f_s fs) !! 1 = Some (EvCancel 1 "api") /\
  s_log (f_s fs) !! 2 = Some (EvExit 1 "api" None) /\
  s_log (f_s fs) !! 4 = Some (EvStopped 0 "db" (Some (EUser 1)) (Some (EUser 1)) 0) /\
  length (s_log (f_s fs)) = 20 /\ installed (s_log (f_s fs)) "api" = Some m_api.
Proof. split; [apply freach_of; vm_compute; reflexivity|]. split_and!; vm_compute; reflexivity. Qed.

(** Then db is started again. *)
Example C73_one_worker_example : let fs := fstate_of (fl_cross ++ (FOther <$> [LTick 5; LDelayFire 2])) in
  freachable ex_env fs /\ s_log (f_s fs) = [] ++ EvStartCall 2 "db" 1 5 :: tail (s_log (f_s fs)) /\
  tail (s_log (f_s fs)) !! 16 = Some (EvStartCall 0 "db" 1 0) /\ ~ is_dying (s_log (f_s fs)).
Proof.
  split; [apply freach_of; vm_compute; reflexivity|]. split; [vm_compute; reflexivity|]. split; [vm_compute; reflexivity|].
  apply (ex_absent is_dying_ev); [vm_compute; reflexivity|reflexivity].
Qed.

(** Kill arrives when the loop, installing db, has just found that the engine is not dying: db is still launched. *)
Definition fl_race : list flabel := FRecv (LInstall "db" m_db) :: repeat FLoop 4 ++ FOther LKill :: repeat FLoop 3.

(** C14, taken literally, is false of the code: an attempt can be launched after the engine's tomb was killed. *)
Theorem C14_start_after_kill_refuted : exists E fs pre post g n sn t d,
  freachable E fs /\ f_todo fs = [] /\ s_log (f_s fs) = pre ++ EvDying :: post /\ EvAttempt g n sn t d ∈ pre.
Proof.
  exists ex_env, (fstate_of fl_race), (take 2 (s_log (f_s (fstate_of fl_race)))), [EvInstalled "db" m_db].
  eexists _, _, _, _, _. split; [apply freach_of; vm_compute; reflexivity|].
  split; [vm_compute; reflexivity|]. split; [vm_compute; reflexivity|].
  vm_compute. apply elem_of_list_further, elem_of_list_here.
Qed.
Print Assumptions C14_start_after_kill_refuted.

(** Shutdown: the loop stops the worker and dies; Wait returns. *)
Definition fl_dead : list flabel :=
  handle (LInstall "db" m_db) 7 ++ fup 0 10 ++ handle (LStarted 0) 5 ++ [FOther LKill] ++
  handle LDying 2 ++ [FOther (LExit 0 (Some (EUser 99)))] ++ repeat FLoop 4 ++ handle (LStopped 0) 6 ++ [FOther LWait].

Example C73_dead_example : let fs := fstate_of fl_dead in
  freachable ex_env fs /\ f_todo fs = [] /\
  s_log (f_s fs) !! 0 = Some (EvWait (Some (EWrap (MsgNote 1) (EUser 99)))) /\ s_log (f_s fs) !! 1 = Some EvDead /\
  s_log (f_s fs) !! 3 = Some (EvKill 0 "db" (WExt 10)) /\ s_log (f_s fs) !! 5 = Some (EvExit 0 "db" (Some (EUser 99))).
Proof. split; [apply freach_of; vm_compute; reflexivity|]. split_and!; vm_compute; reflexivity. Qed.
