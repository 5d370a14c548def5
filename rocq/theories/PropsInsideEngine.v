(** Property C83, the engine. Statements only: every theorem is closed by a lemma proved elsewhere.
    Vocabulary: InsideEngineSpec.v (loop_waits, by_loop), EngineCalls.v (calls and their history), EngineSpec.v (the log). *)
From stdpp Require Import gmap strings list.
From Coq Require Import ZArith Lia.
From Verif Require Import Err Tomb Validate Snapshot Engine EngineSpec EngineCalls InsideEngineSpec InsideEngine EngineExample.

(** C83: as long as code of the user that the engine's loop called (IsFatal, WorstError, a Filter, Kill or Report of a worker) has not
    returned, nothing is installed, started, registered, cancelled or uninstalled, and the engine does not become dead; *)
Theorem C83_engine_stands_still E x ls x' : creachable E x -> EvDead ∉ s_log (x_e x) -> loop_waits ls -> crun E x ls = Some x' ->
  exists new, s_log (x_e x') = new ++ s_log (x_e x) /\ forall ev, ev ∈ new -> by_loop ev = false.
Proof. exact (e_still E x ls x'). Qed.
Print Assumptions C83_engine_stands_still.

(** C83: so Report and Wait of the engine, called from there, never return: the engine is deadlocked, and does not die; *)
Theorem C83_engine_deadlock E x i k ls x' : creachable E x -> EvDead ∉ s_log (x_e x) -> loop_waits ls -> k = KReport \/ k = KWait ->
  crun E x (CCall i k :: ls) = Some x' -> x_calls x' !! i = Some (Asking k) /\ EvDead ∉ s_log (x_e x').
Proof. exact (e_stuck E x i k ls x'). Qed.
Print Assumptions C83_engine_deadlock.

(** C83: and Install never returns before the engine is killed; then it can return at once, and returns that the engine is shutting
    down. *)
Theorem C83_install_inside E x i n m ls x' : creachable E x -> EvDead ∉ s_log (x_e x) -> loop_waits ls ->
  crun E x (CCall i (KInstall n m) :: ls) = Some x' ->
  (forall a u u', HServed i (KInstall n m) a u u' ∈ x_hist x' -> is_dying (s_log (x_e x')) /\ a = AnsInstall (Some (EMsg MsgShuttingDown))) /\
  (~ is_dying (s_log (x_e x')) -> x_calls x' !! i = Some (Asking (KInstall n m))) /\
  (is_dying (s_log (x_e x')) -> x_calls x' !! i = Some (Asking (KInstall n m)) ->
     exists x2, cstep E x' (CServe i true) = Some x2 /\ x_calls x2 !! i = Some (Holding (KInstall n m) (AnsInstall (Some (EMsg MsgShuttingDown))))).
Proof. exact (e_install E x i n m ls x'). Qed.
Print Assumptions C83_install_inside.

(** C83: the engine's Wait returns only after all Start funcs have returned and all their workers have ended (except the engine itself);
    so called from one of them, it waits for itself. (Install and Report, called from there, can always be served: C75.) *)
Theorem C83_engine_wait E x i e t : creachable E x -> HRet i KWait (AnsWait e) t ∈ x_hist x ->
  (forall g n f t', EvStartCall g n f t' ∈ s_log (x_e x) -> exists r, EvStartRet g n r ∈ s_log (x_e x)) /\
  (forall g n w, EvStartRet g n (inl w) ∈ s_log (x_e x) -> w = WSelf \/ worker_exited (s_log (x_e x)) g).
Proof. exact (e_wait_ends E x i e t). Qed.
Print Assumptions C83_engine_wait.

(** db runs; the loop calls its Report, say, which calls methods of the engine; meanwhile the engine is killed and db ends. *)
Definition ie_up : list clabel := [CCall 0 (KInstall "db" m_db); CServe 0 false; CRet 0] ++ map CEng (up 0 10).
Definition ie_kill : list clabel := [CCall 5 KReport; CEng LKill; CEng (LTick 3); CEng (LExit 0 (Some (EUser 99)))].
Definition ie_dead : list clabel := ie_up ++ [CCall 1 KWait; CEng LKill; CEng LDying; CEng (LExit 0 None); CEng (LStopped 0); CServe 1 false; CRet 1].
Definition ie_state (ls : list clabel) : cstate := default cinit (crun ex_env cinit ls).
Lemma ie_reach ls : match crun ex_env cinit ls with Some _ => true | None => false end = true -> creachable ex_env (ie_state ls).
Proof. unfold ie_state. destruct (crun ex_env cinit ls) as [x|] eqn:H; [|done]. intros _. by exists ls. Qed.
Definition ie_ran (x : cstate) (ls : list clabel) : cstate := default x (crun ex_env x ls).
Lemma ie_ran_ok x ls : match crun ex_env x ls with Some _ => true | None => false end = true -> crun ex_env x ls = Some (ie_ran x ls).
Proof. unfold ie_ran. by destruct (crun ex_env x ls). Qed.
Lemma ie_waits ls : existsb of_loop ls = false -> loop_waits ls.
Proof. intros H l Hin. induction ls as [|x ls IH]; [by apply elem_of_nil in Hin|]. cbn in H. apply orb_false_iff in H as [H1 H2]. apply elem_of_cons in Hin as [->|Hin]; auto. Qed.
Definition is_dead_ev (ev : event) : bool := match ev with EvDead => true | _ => false end.
Example C83_engine_example : let x := ie_state ie_up in creachable ex_env x /\ EvDead ∉ s_log (x_e x) /\ loop_waits ie_kill /\
  crun ex_env x (CCall 4 (KInstall "api" m_api) :: ie_kill) = Some (ie_ran x (CCall 4 (KInstall "api" m_api) :: ie_kill)) /\
  is_dying (s_log (x_e (ie_ran x (CCall 4 (KInstall "api" m_api) :: ie_kill)))) /\
  x_calls (ie_ran x (CCall 4 (KInstall "api" m_api) :: ie_kill)) !! 5 = Some (Asking KReport).
Proof.
  intros x. split; [apply ie_reach; vm_compute; reflexivity|]. split; [apply (ex_absent is_dead_ev); [vm_compute; reflexivity|done]|]. split; [apply ie_waits; vm_compute; reflexivity|].
  split; [apply ie_ran_ok; vm_compute; reflexivity|]. split; [apply (ex_present 1); vm_compute; reflexivity|vm_compute; reflexivity].
Qed.
Lemma ie_first {A} (l : list A) h : l !! 0 = Some h -> h ∈ l.
Proof. apply elem_of_list_lookup_2. Qed.
Example C83_engine_wait_example : let x := ie_state ie_dead in creachable ex_env x /\ HRet 1 KWait (AnsWait None) (now x) ∈ x_hist x /\ EvStartRet 0 "db" (inl (WExt 10)) ∈ s_log (x_e x).
Proof. intros x. split; [apply ie_reach; vm_compute; reflexivity|]. split; [apply ie_first; vm_compute; reflexivity|]. apply (ex_present 9). vm_compute. reflexivity. Qed.
