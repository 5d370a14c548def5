(** Proofs about the goroutines of Runner.workerInfo (C69). *)
From stdpp Require Import gmap strings list.
From Coq Require Import ZArith Lia.
From Verif Require Import Err Tomb Runner RunnerSpec RunnerProgressSpec RunnerInv RunnerGor RunnerHist RunnerProgress RunnerThms RunnerCalls RunnerUse RunnerAnswers RunnerMore.

(** A goroutine that is not in the condition variable's list can go on, or the one that holds the mutex can. *)
Lemma waiter_runs P s i t : reachable P s -> s_waits s !! i = Some t -> t_pc t <> TExit -> t_pc t <> TWaiting ->
  exists j, is_Some (step P s (LWtCheck j)) \/ is_Some (step P s (LWtAdd j)) \/ is_Some (step P s (LWtWake j)).
Proof.
  intros Hr Ht Hp1 Hp2. pose proof (reach_muinv P s Hr) as M. destruct (s_mu s) as [j|] eqn:Hm.
  - exists j. destruct (mu_held s M _ Hm) as ([id' p st ch] & Hj & Hp & _). cbn in Hp. destruct Hp as [-> | ->]; cbn [step]; rewrite Hj; [left; destruct st; eauto|right; left; eauto].
  - destruct t as [id p st ch]. cbn in Hp1, Hp2. destruct p; try done.
    + apply mu_owner in Ht; [congruence|done|by left].
    + apply mu_owner in Ht; [congruence|done|by right].
    + exists i. right. right. cbn [step]. rewrite Ht, Hm. destruct (get_worker _ _); eauto.
Qed.
Lemma dead_gone P s i t : reachable P s -> EvDead ∈ rlog s -> s_waits s !! i = Some t -> t_pc t <> TExit ->
  exists j, is_Some (step P s (LWtCheck j)) \/ is_Some (step P s (LWtAdd j)) \/ is_Some (step P s (LWtWake j)).
Proof.
  intros Hr Hd Ht Hp. assert (t_pc t = TWaiting \/ t_pc t <> TWaiting) as [Hw|Hw] by (destruct (t_pc t); auto); [|by eapply waiter_runs]. exfalso.
  assert (idle s) as Hi by (right; exact (dead_loop P _ (reach_all P s Hr) Hd)).
  destruct (waiter_blocked P s i t Hr Hi Ht Hw) as [Hk _]. destruct (dead_complete P s Hr Hd) as (_ & _ & _ & Hn). by apply Hk.
Qed.
(** Aborting a call tells its goroutine, and wakes it if it waits. *)
Lemma abort_wakes P s i s' : reachable P s -> step P s (LSelAbort i) = Some s' ->
  exists t, s_waits s' !! i = Some t /\ t_stopped t = true /\ t_pc t <> TWaiting.
Proof.
  intros Hr Hs. cbn [step] in Hs. destruct (s_calls s !! i) as [[]|] eqn:Hc; try done. destruct (negb _); [done|]. injection Hs as <-. cbn.
  destruct (li_select s (reach_linv P s Hr) _ _ _ Hc) as (t & Ht & _). rewrite lookup_fmap, lookup_alter, Ht. cbn. eexists. split; [reflexivity|].
  unfold wake. destruct t as [? p ? ?]. cbn. by destruct p.
Qed.
(** Every step of the loop that changes the workers wakes all of them. *)
Lemma bcast_wakes P s s' i t : c_loop (s_core s) = LDo ABcast -> step P s (LCore KAct) = Some s' -> s_waits s' !! i = Some t -> t_pc t <> TWaiting.
Proof.
  intros Hl Hs Ht. cbn [step own negb] in Hs. destruct (cstep P (s_core s) KAct); [|done]. rewrite Hl in Hs. destruct (_ && _); [done|]. injection Hs as <-.
  cbn in Ht. rewrite lookup_fmap in Ht. destruct (s_waits s !! i) as [[? p ? ?]|]; [|done]. cbn in Ht. injection Ht as <-. unfold wake. cbn. by destruct p.
Qed.
(** A goroutine that was told to stop exits when it has the mutex. *)
Lemma stopped_exits P s i id ch : s_waits s !! i = Some (mkWaiter id TLocked true ch) ->
  exists s', step P s (LWtCheck i) = Some s' /\ s_waits s' !! i = Some (mkWaiter id TExit true ch) /\ s_mu s' = None.
Proof. intros Ht. cbn [step]. rewrite Ht. eexists. split; [done|]. cbn. by rewrite lookup_insert. Qed.

(** Without a broadcast it stays. *)
Lemma leak_step P s l s' i id ch : reachable P s -> step P s l = Some s' -> s_waits s !! i = Some (mkWaiter id TWaiting true ch) ->
  l <> LCore KAct -> (forall j, l <> LSelAbort j) -> s_waits s' !! i = Some (mkWaiter id TWaiting true ch).
Proof.
  intros Hr Hs Ht Hl1 Hl2. pose proof (ex_stop s (reach_exitinv P s Hr) _ _ Ht eq_refl) as Hc. destruct l; cbn [step] in Hs.
  - destruct (own l); [|done]. cbn [negb] in Hs. destruct (cstep P (s_core s) l) as [c'|]; [|done]. destruct l; try done; by injection Hs as <-.
  - destruct (s_calls s !! c); [done|]. by injection Hs as <-.
  - destruct (s_calls s !! c) as [[]|]; try done. destruct (cstep _ _ _); [|done]. by injection Hs as <-.
  - destruct (s_calls s !! c) as [[]|]; try done. case_bool_decide; [|done]. by injection Hs as <-.
  - destruct (t_dead _); [|done]. destruct (s_calls s !! c) as [[]|]; try done; by injection Hs as <-.
  - destruct (s_calls s !! c) as [[]|]; try done. destruct (cstep _ _ _); [|done]. by injection Hs as <-.
  - destruct (s_calls s !! c) as [[]|] eqn:Hx; try done. destruct (s_mu s); [done|]. destruct (get_worker _ _); injection Hs as <-; [done|].
    cbn. rewrite lookup_insert_ne; [done|]. intros ->. congruence.
  - destruct (s_calls s !! c) as [[]|]; try done. injection Hs as <-. destruct (t_dying _); [done|]. by destruct k, r.
  - destruct (s_calls s !! c) as [[]|]; try done. destruct (s_waits s !! c) as [[? ? ? [r|]]|]; try done. injection Hs as <-. destruct r; [done|]. by destruct k.
  - destruct (s_calls s !! c) as [[]|]; try done. injection Hs as <-. destruct (t_dying _); [done|]. by destruct k.
  - destruct (s_calls s !! c) as [[]|]; try done. destruct (t_dying _); [|done]. by injection Hs as <-.
  - by destruct (Hl2 c).
  - destruct (s_calls s !! c) as [[]|]; try done. by injection Hs as <-.
  - destruct (s_calls s !! c) as [[]|]; try done. destruct (c_ended _ !! _); [|done]. by injection Hs as <-.
  - destruct (s_calls s !! c) as [[]|]; try done. case_bool_decide; [|done]. by injection Hs as <-.
  - destruct (s_calls s !! c) as [[]|]; try done. cbn in Hs. case_bool_decide; [|done]. by injection Hs as <-.
  - destruct (s_waits s !! c) as [[? [] [] ?]|] eqn:Hx; try done; injection Hs as <-; cbn; (rewrite lookup_insert_ne; [done|]; intros ->; congruence).
  - destruct (s_waits s !! c) as [[? [] st ?]|] eqn:Hx; try done; injection Hs as <-; cbn; (rewrite lookup_insert_ne; [done|]; intros ->; congruence).
  - destruct (s_waits s !! c) as [[? [] st ?]|] eqn:Hx; try done. destruct (s_mu s); [done|].
    destruct (get_worker _ _); injection Hs as <-; cbn; (rewrite lookup_insert_ne; [done|]; intros ->; congruence).
  - destruct (s_mu s); [done|]. by injection Hs as <-.
  - destruct (s_mu s); [done|]. by injection Hs as <-.
  - destruct (tomb_wait _); [|done]. by injection Hs as <-.
Qed.
Lemma leak_run P ls : forall s s' i id ch, reachable P s -> run P s ls = Some s' -> s_waits s !! i = Some (mkWaiter id TWaiting true ch) ->
  LCore KAct ∉ ls -> (forall j, LSelAbort j ∉ ls) -> s_waits s' !! i = Some (mkWaiter id TWaiting true ch).
Proof.
  induction ls as [|l ls IH]; intros s s' i id ch Hr; cbn [run]; [by intros [= <-]|]. destruct (step P s l) as [s1|] eqn:Hs; [|done].
  intros Hrun Ht H1 H2. eapply (IH s1); [by eapply reach_step|done| | |].
  - eapply leak_step; [exact Hr|exact Hs|done| |]; [intros ->; apply H1; by left|intros j ->; apply (H2 j); by left].
  - intros Hx. apply H1. by right.
  - intros j Hx. apply (H2 j). by right.
Qed.

(** ** C72: abort channels *)
Lemma aborted_only P s pre i k post : reachable P s -> rlog s = pre ++ EvC (CvRet i k (RErr err_aborted)) :: post ->
  EvCtx i ∈ post /\ exists id, k = KWorker id \/ k = KStopRm id.
Proof.
  intros Hr Hl. destruct k as [id f|id|id|id].
  - exfalso. destruct (start_result P s Hr _ _ _ _ _ _ Hl) as [(e & He & Ha)|[He _]]; [|done]. injection He as <-.
    destruct (elem_split _ _ Ha) as (p1 & p2 & ->). assert (rlog s = (pre ++ EvC (CvRet i (KStart id f) (RErr err_aborted)) :: p1) ++ EvAnswer i id f err_aborted :: p2) as Hl' by (rewrite Hl, <- app_assoc; done).
    destruct (start_answer P s _ _ _ _ _ _ Hr Hl') as (H1 & H2 & H3).
    assert (~ stopping_all p2) as Hs by (intros Hs; by destruct (H1 Hs)). destruct (known p2 id) eqn:Hk; [by destruct (H2 Hs ltac:(done))|by destruct (H3 Hs eq_refl)].
  - exfalso. by destruct (stop_result P s _ _ _ _ _ Hr Hl) as [[? _]|[? _]].
  - destruct (worker_result P s _ _ _ _ _ Hr Hl) as [_ [[He _]|[[_ He]|(p1 & p2 & q & _ & _ & H)]]]; [done|eauto|exfalso]. destruct q; by destruct H.
  - destruct (stoprm_other P s _ _ _ _ _ Hr Hl) as [[e He]|[[He _]|[[_ He]|[He _]]]]; [done|done|eauto|done].
Qed.
(** A call in progress whose abort channel is done. *)
Lemma mu_free P s : reachable P s -> s_mu s = None \/ exists j, is_Some (step P s (LWtCheck j)) \/ is_Some (step P s (LWtAdd j)).
Proof.
  intros Hr. destruct (s_mu s) as [j|] eqn:Hm; [|by left]. right. exists j.
  destruct (mu_held s (reach_muinv P s Hr) _ Hm) as ([id' p st ch] & Hj & Hp & _). cbn in Hp. destruct Hp as [-> | ->]; cbn [step]; rewrite Hj; [left; destruct st|right]; eauto.
Qed.
Lemma abort_enabled P s i k id : reachable P s -> EvC (CvCall i (icall k id)) ∈ rlog s -> EvCtx i ∈ rlog s ->
  (exists r, EvC (CvRet i (icall k id) r) ∈ rlog s) \/
  (exists l, (l = LLock i \/ l = LCheck i \/ l = LWcCheck i \/ l = LSelAbort i \/ l = LStopKill i \/ l = LStopWaited i \/ l = LDoneAbort i \/ exists j, l = LWtCheck j \/ l = LWtAdd j) /\ is_Some (step P s l)) \/
  (k = IStopRm /\ exists g w, EvC (CvKill i g w) ∈ rlog s /\ ~ worker_ended (rlog s) g).
Proof.
  intros Hr Hc Hx. apply (RunnerAnswers.ctx_log P s i Hr) in Hx. destruct (called_some P s Hr _ _ Hc) as [p Hp]. pose proof (li_pc _ (reach_linv P s Hr) _ _ Hp) as Hok.
  assert (forall k', EvC (CvCall i k') ∈ rlog s -> k' = icall k id) as Hu by (intros k' H; by eapply call_unique).
  destruct p; cbn in Hok.
  - apply Hu in Hok. by destruct k.
  - apply Hu in Hok. by destruct k.
  - apply Hu in Hok. by destruct k.
  - right. left. destruct (mu_free P s Hr) as [Hm|(j & [Hj|Hj])].
    + exists (LLock i). split; [tauto|]. cbn [step]. rewrite Hp, Hm. destruct (get_worker _ _); eauto.
    + exists (LWtCheck j). split; [|done]. do 7 right. eauto.
    + exists (LWtAdd j). split; [|done]. do 7 right. eauto.
  - right. left. exists (LCheck i). split; [tauto|]. cbn [step]. rewrite Hp. eauto.
  - right. left. exists (LSelAbort i). split; [tauto|]. cbn [step]. rewrite Hp, bool_decide_eq_true_2 by done. eauto.
  - right. left. exists (LWcCheck i). split; [tauto|]. cbn [step]. rewrite Hp. eauto.
  - right. left. exists (LStopKill i). split; [tauto|]. cbn [step]. rewrite Hp. eauto.
  - destruct (c_ended (s_core s) !! g) as [e|] eqn:He.
    + right. left. exists (LStopWaited i). split; [tauto|]. cbn [step]. rewrite Hp, He. eauto.
    + right. right. destruct Hok as (Hk & w & _ & Hkill). apply Hu in Hk. destruct k; [done|]. split; [done|]. exists g, w. split; [done|].
      intros (id' & e & Hend). apply (gl_ended' _ (a_gor P _ (reach_all P s Hr))) in Hend. congruence.
  - right. left. exists (LDoneAbort i). split; [tauto|]. cbn [step]. rewrite Hp, bool_decide_eq_true_2 by done. eauto.
  - left. destruct Hok as (k' & r & Hk & Hret). apply Hu in Hk as ->. eauto.
Qed.
(** While the worker it killed has not ended, StopAndRemoveWorker does not look at its abort channel. *)
Lemma wait_stuck P ls : forall s s' i id g d, reachable P s -> run P s ls = Some s' -> s_calls s !! i = Some (CWait id g d) -> ~ worker_ended (rlog s') g ->
  s_calls s' !! i = Some (CWait id g d).
Proof.
  induction ls as [|l ls IH]; intros s s' i id g d Hr; cbn [run]; [by intros [= <-]|]. destruct (step P s l) as [s1|] eqn:Hs; [|done].
  intros Hrun Hc Hne. eapply (IH s1); [by eapply reach_step|done| |done].
  assert (c_ended (s_core s) !! g = None) as He.
  { destruct (c_ended (s_core s) !! g) as [e|] eqn:He; [|done]. destruct Hne. apply (gl_ended _ (a_gor P _ (reach_all P s Hr))) in He as [id' He]. exists id', e.
    apply (log_grows P (l :: ls) s s'); [cbn [run]; by rewrite Hs|done]. }
  assert (forall j p, (forall q, s_calls s !! j = Some q -> q <> CWait id g d) -> <[j := p]> (s_calls s) !! i = Some (CWait id g d)) as Ho.
  { intros j p Hj. rewrite lookup_insert_ne; [done|]. intros ->. by apply (Hj _ Hc). }
  destruct l; cbn [step] in Hs.
  - destruct (own l); [|done]. cbn [negb] in Hs. destruct (cstep P (s_core s) l) as [c'|]; [|done].
    destruct l; try (by injection Hs as <-). destruct (c_loop (s_core s)) as [|a| |]; try (by injection Hs as <-). destruct (_ && _); [done|].
    destruct a; try (by injection Hs as <-). destruct (s_calls s !! c) as [[]|] eqn:Hx; try done. injection Hs as <-. cbn. apply Ho. intros q Hq. by simplify_eq.
  - destruct (s_calls s !! c) eqn:Hx; [done|]. injection Hs as <-. cbn. apply Ho. intros q Hq. by simplify_eq.
  - destruct (s_calls s !! c) as [[]|] eqn:Hx; try done. destruct (cstep _ _ _); [|done]. injection Hs as <-. cbn. apply Ho. intros q Hq. by simplify_eq.
  - destruct (s_calls s !! c) as [[]|] eqn:Hx; try done. case_bool_decide; [|done]. injection Hs as <-. cbn. apply Ho. intros q Hq. by simplify_eq.
  - destruct (t_dead _); [|done]. destruct (s_calls s !! c) as [[]|] eqn:Hx; try done; injection Hs as <-; cbn; apply Ho; intros q Hq; by simplify_eq.
  - destruct (s_calls s !! c) as [[]|] eqn:Hx; try done. destruct (cstep _ _ _); [|done]. injection Hs as <-. cbn. apply Ho. intros q Hq. by simplify_eq.
  - destruct (s_calls s !! c) as [[]|] eqn:Hx; try done. destruct (s_mu s); [done|]. destruct (get_worker _ _); injection Hs as <-; cbn; apply Ho; intros q Hq; by simplify_eq.
  - destruct (s_calls s !! c) as [[]|] eqn:Hx; try done. injection Hs as <-. destruct (t_dying _); [|destruct k, r]; cbn; apply Ho; intros q Hq; by simplify_eq.
  - destruct (s_calls s !! c) as [[]|] eqn:Hx; try done. destruct (s_waits s !! c) as [[? ? ? [r|]]|]; try done. injection Hs as <-. destruct r, k; cbn; apply Ho; intros q Hq; by simplify_eq.
  - destruct (s_calls s !! c) as [[]|] eqn:Hx; try done. injection Hs as <-. destruct (t_dying _); [|destruct k]; cbn; apply Ho; intros q Hq; by simplify_eq.
  - destruct (s_calls s !! c) as [[]|] eqn:Hx; try done. destruct (t_dying _); [|done]. injection Hs as <-. cbn. apply Ho. intros q Hq. by simplify_eq.
  - destruct (s_calls s !! c) as [[]|] eqn:Hx; try done. destruct (negb _); [done|]. injection Hs as <-. cbn. apply Ho. intros q Hq. by simplify_eq.
  - destruct (s_calls s !! c) as [[]|] eqn:Hx; try done. injection Hs as <-. cbn. apply Ho. intros q Hq. by simplify_eq.
  - destruct (s_calls s !! c) as [[]|] eqn:Hx; try done. destruct (c_ended _ !! _) eqn:He'; [|done]. injection Hs as <-. cbn. apply Ho. intros q Hq ->. rewrite Hx in Hq. injection Hq as -> -> ->. congruence.
  - destruct (s_calls s !! c) as [[]|] eqn:Hx; try done. case_bool_decide; [|done]. injection Hs as <-. cbn. apply Ho. intros q Hq. by simplify_eq.
  - destruct (s_calls s !! c) as [[]|] eqn:Hx; try done. destruct (cstep _ _ _); [|done]. injection Hs as <-. cbn. apply Ho. intros q Hq. by simplify_eq.
  - destruct (s_waits s !! c) as [[? [] [] ?]|] eqn:Hx; try done; by injection Hs as <-.
  - destruct (s_waits s !! c) as [[? [] st ?]|] eqn:Hx; try done; by injection Hs as <-.
  - destruct (s_waits s !! c) as [[? [] st ?]|] eqn:Hx; try done. destruct (s_mu s); [done|]. destruct (get_worker _ _); by injection Hs as <-.
  - destruct (s_mu s); [done|]. by injection Hs as <-.
  - destruct (s_mu s); [done|]. by injection Hs as <-.
  - destruct (tomb_wait _); [|done]. by injection Hs as <-.
Qed.
Lemma abort_ignored P s ls s' i id g d : reachable P s -> run P s ls = Some s' -> s_calls s !! i = Some (CWait id g d) -> ~ worker_ended (rlog s') g ->
  forall k r, EvC (CvRet i k r) ∉ rlog s'.
Proof.
  intros Hr Hrun Hc Hne k r Hx. pose proof (wait_stuck P ls s s' i id g d Hr Hrun Hc Hne) as H.
  assert (reachable P s') as Hr'. { destruct Hr as [l0 H0]. exists (l0 ++ ls). clear -H0 Hrun. revert H0. generalize init. induction l0 as [|l l0 IH]; intros s0; cbn [run app]; [by intros [= ->]|]. destruct (step P s0 l); [apply IH|done]. }
  pose proof (li_returned _ (reach_linv P s' Hr') _ _ _ Hx). congruence.
Qed.
