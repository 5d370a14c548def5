(** Corollaries stated as the properties need them (C10-C12, C15, C58). *)
From stdpp Require Import gmap strings list relations.
From Coq Require Import ZArith.
From RecordUpdate Require Import RecordSet.
From Verif Require Import Err Tomb Order Validate ValidateSpec ValidateProofs Snapshot Engine EngineSpec EngineMicro EngineSteps EngineLog EngineSafety EngineFresh EngineKill EngineObs EngineHandlers EngineProgressSpec EngineProgress.
Import RecordSetNotations.

Lemma running_dead s : inv s -> (s_running s = false <-> t_dead (s_tomb s) = true).
Proof. intros V. pose proof (v_run s V) as H. destruct (s_running s); [destruct H as [_ H]|destruct H as (_ & H & _)]; by rewrite H. Qed.

(** History is never rewritten. *)
Lemma micro_log E s D s' D' : inv s -> micro E s D s' D' -> exists new, s_log s' = new ++ s_log s.
Proof. intros V Hm. mnorm V; first [by exists []|by eexists [_]|by eexists [_; _]|by eexists [_; _; _]|idtac]. Qed.
Lemma micros_log E s D s' D' : micros E s D s' D' -> inv s -> exists new, s_log s' = new ++ s_log s.
Proof.
  induction 1 as [|s1 D1 s2 D2 s3 D3 Hm Hms IH]; intros V; [by exists []|].
  destruct (micro_log E _ _ _ _ V Hm) as [n1 H1]. destruct IH as [n2 H2]; [by eapply micro_inv|].
  exists (n2 ++ n1). by rewrite H2, H1, app_assoc.
Qed.
Lemma step_log E s l s' : reachable E s -> step E s l = Some s' -> exists new, s_log s' = new ++ s_log s.
Proof. intros Hr Hs. pose proof (reachable_inv E s Hr) as V. eapply micros_log; [eapply step_micros; [done|by apply (reachable_reg E)|done]|done]. Qed.


Lemma wait_after_dead E s pre e post : reachable E s -> s_log s = pre ++ EvWait e :: post -> EvDead ∈ post.
Proof.
  intros Hr Heq.
  set (Q := fun ev (post : list event) => match ev with EvWait _ => EvDead ∈ post | _ => True end).
  enough (Q (EvWait e) post) by done. apply (hist_split Q pre). rewrite <- Heq. clear Heq pre e post.
  enough ((EvDead ∈ s_log s <-> s_running s = false) /\ hist Q (s_log s)) by tauto.
  apply (reach_ind2 E (fun s D => (EvDead ∈ s_log s <-> s_running s = false) /\ hist Q (s_log s))); [| |done].
  { simpl. split; [|done]. split; [|done]. intros H. by apply elem_of_nil in H. }
  clear s Hr. intros s D s' D' V L V' L' [HP Hh] Hm. subst Q.
  mnorm V; try done; (split; [first [exact HP|rewrite !elem_of_cons; naive_solver]|split; [|done]; try done]).
  apply HP. by apply running_dead.
Qed.

Lemma finished_mono g l l' : finished l g -> finished (l' ++ l) g.
Proof. intros [(n & e & H)|(n & e & H)]; [left|right]; exists n, e; apply elem_of_app; by right. Qed.

Lemma shutdown_complete E s : reachable E s -> EvDead ∈ s_log s ->
  (forall g n f t, EvStartCall g n f t ∈ s_log s -> exists r, EvStartRet g n r ∈ s_log s) /\
  (forall g n w, EvStartRet g n (inl w) ∈ s_log s -> w = WSelf \/ worker_exited (s_log s) g).
Proof.
  intros Hr Hd. pose proof Hd as (pre & post & Heq)%elem_of_list_split.
  assert (forall g n f t, EvStartCall g n f t ∈ s_log s -> finished (s_log s) g \/ EvStartRet g n (inl WSelf) ∈ s_log s) as Hfin.
  { intros g n f t Hc. assert (EvStartCall g n f t ∈ post) as Hp.
    { rewrite Heq in Hc. apply elem_of_app in Hc as [Hc|[Hc|Hc]%elem_of_cons]; [|done|done]. exfalso.
      apply elem_of_list_split in Hc as (p1 & p2 & ->). rewrite <- app_assoc in Heq. cbn [app] in Heq.
      apply (dead_no_events E s _ _ _ Hr Heq); [|done]. apply elem_of_app. right. by left. }
    rewrite Heq. destruct (dead_all_finished E s pre post Hr Heq g n f t Hp) as [H|H].
    - left. change (EvDead :: post) with ([EvDead] ++ post). rewrite app_assoc. by apply finished_mono.
    - right. apply elem_of_app. right. by right. }
  destruct (reachable_linv E s Hr) as [_ L].
  assert (forall g n f t n' , EvStartCall g n f t ∈ s_log s -> forall r, EvStartRet g n' r ∈ s_log s -> n' = n) as Hname.
  { intros g n f t n' Hc r Hrr. destruct (l_called E s L _ _ _ _ Hc) as (r1 & H1 & H2 & _). destruct (l_ret E s L _ _ _ Hrr) as (r2 & H3 & H4 & _). congruence. }
  split.
  - intros g n f t Hc. destruct (Hfin g n f t Hc) as [[(n' & e & H)|(n' & e & H)]|H]; [|destruct (l_exit E s L _ _ _ H) as [w Hw]|].
    + rewrite <- (Hname g n f t n' Hc _ H). eauto.
    + rewrite <- (Hname g n f t n' Hc _ Hw). eauto.
    + eauto.
  - intros g n w Hw. destruct (l_ret E s L _ _ _ Hw) as (r & _ & _ & _ & _ & (n' & f & t & Hc)).
    destruct (Hfin _ _ _ _ Hc) as [[(n2 & e & H)|H]|H]; [|by right|].
    + destruct (ret_unique E s _ _ _ _ _ Hr Hw H). done.
    + left. destruct (ret_unique E s _ _ _ _ _ Hr Hw H) as [_ [= ->]]. done.
Qed.

(** Every step of a dying engine can be continued until it is dead. *)
Lemma tomb_once E s l s' : reachable E s -> step E s l = Some s' ->
  (t_dead (s_tomb s) = true -> t_dying (s_tomb s) = true) /\
  (t_dying (s_tomb s) = true -> t_dying (s_tomb s') = true) /\ (t_dead (s_tomb s) = true -> t_dead (s_tomb s') = true).
Proof.
  intros Hr Hs. pose proof (reachable_inv E s Hr) as V. pose proof (reachable_inv E s' (reachable_step E s l s' Hr Hs)) as V'.
  split_and!.
  - intros Hd. pose proof (v_run s V) as H. destruct (s_running s); [destruct H; congruence|]. by destruct H as (_ & _ & H).
  - by apply (step_dying_mono E s l).
  - rewrite <- !running_dead by done. intros Hrun.
    destruct (s_running s') eqn:Hr'; [|done]. exfalso.
    assert (EvDead ∈ s_log s) as Hd by (by apply (dead_running E s Hr)).
    assert (EvDead ∈ s_log s') as Hd'.
    { destruct (step_log E s l s' Hr Hs) as [new ->]. apply elem_of_app. by right. }
    apply (dead_running E s' (reachable_step E s l s' Hr Hs)) in Hd'. congruence.
Qed.

Lemma abort_iff E s g r ready : reachable E s -> s_gors s !! g = Some r -> g_pc r = PDelay ready ->
  ((exists s', step E s (LAbort g) = Some s') <-> is_dying (s_log s) \/ asked_to_stop (s_log s) g).
Proof.
  intros Hr Hg Hp. rewrite <- (ctx_done_iff E s g Hr). simpl. rewrite Hg. destruct r as [n f sp x al p]. simpl in Hp. subst p.
  assert (dying s || ctx_done s g = ctx_done s g) as -> by (unfold ctx_done; by destruct (dying s)).
  destruct (ctx_done s g); split; [done|eauto|intros [? [=]]|done].
Qed.

Lemma shutdown_terminates E s : reachable E s -> is_dying (s_log s) ->
  exists N, forall ls s', run E s ls = Some s' -> internal_steps ls <= N /\
    ((forall l, owed (s_log s') l -> step E s' l = None) -> EvDead ∈ s_log s').
Proof.
  intros Hr Hd. destruct (dying_bounded E s Hr Hd) as [N HN]. exists N. intros ls s' Hrun. split; [by eapply HN|]. clear N HN.
  enough (reachable E s' /\ is_dying (s_log s')) as [H1 H2] by (by apply stuck_dead).
  revert s Hr Hd Hrun. induction ls as [|l ls IH]; intros s Hr Hd; cbn [run]; [by intros [= ->]|].
  destruct (step E s l) as [s1|] eqn:Hs; [|done]. apply IH; [by eapply reachable_step|].
  destruct (step_log E s l s1 Hr Hs) as [new ->]. apply elem_of_app. by right.
Qed.

Lemma metrics_true E s n m : reachable E s -> installed (s_log s) n = Some m ->
  metrics_since_install (s_log s) n = starts_since_install (s_log s) n.
Proof.
  intros Hr Hi. destruct (reachable_linv E s Hr) as [V L]. rewrite (l_inst E s L) in Hi.
  destruct (s_current s !! n) as [i|] eqn:Hc.
  - destruct (l_count E s L n i Hc). congruence.
  - exfalso. destruct (proj2 (v_dom s V n)) as [i Hx]; [by rewrite Hi|congruence].
Qed.
