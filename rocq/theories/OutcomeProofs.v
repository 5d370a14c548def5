(** Which manifolds run once the engine has converged (C85). *)
From stdpp Require Import gmap strings list relations.
From Coq Require Import ZArith.
From Verif Require Import Err Tomb Snapshot Sum Engine EngineSpec EngineProgressSpec EngineMicro EngineSteps EngineLog EngineSafety EngineFresh EngineKill
  EngineObs EngineHandlers EngineProgress EngineMore EngineMore2 EngineSettle FairSpec FairEngineSpec FairProofs FairEngine OutcomeSpec.

Lemma last_attempt_split log n g sn post : last_attempt log n = Some (g, sn, post) -> exists pre t d, log = pre ++ EvAttempt g n sn t d :: post.
Proof.
  induction log as [|ev log IH]; [done|]. cbn [last_attempt].
  assert (last_attempt log n = Some (g, sn, post) -> exists pre t d, ev :: log = pre ++ EvAttempt g n sn t d :: post) as Hx.
  { intros (pre & t & d & ->)%IH. by exists (ev :: pre), t, d. }
  destruct ev; try done. case_bool_decide; [|done]. intros [= -> -> ->]. subst. by exists [], t, d.
Qed.
Lemma last_end_split log n g raw e : last_end log n = Some (g, raw, e) -> exists pre t post, log = pre ++ EvStopped g n raw e t :: post.
Proof.
  induction log as [|ev log IH]; [done|]. cbn [last_end].
  assert (last_end log n = Some (g, raw, e) -> exists pre t post, ev :: log = pre ++ EvStopped g n raw e t :: post) as Hx.
  { intros (pre & t & post & ->)%IH. by exists (ev :: pre), t, post. }
  destruct ev; try done; case_bool_decide; try done. intros [= -> -> ->]. subst. by exists [], t, log.
Qed.

(** Induction along the inputs of what is installed. *)
Lemma inputs_ind E s (P : string -> Prop) : reachable E s ->
  (forall n, (forall x, depends_on (s_log s) n x -> P x) -> P n) -> forall n, P n.
Proof.
  intros Hr Hstep. destruct (reachable_linv E s Hr) as [V L].
  set (succ := fun n => match installed (s_log s) n with Some m => m_inputs m | None => [] end).
  assert (Hs : forall n x, x ∈ succ n <-> depends_on (s_log s) n x).
  { intros n x. unfold succ, depends_on. destruct (installed (s_log s) n) as [m|]; split.
    - intros H. by exists m.
    - intros (m' & [= <-] & H). done.
    - by intros H%elem_of_nil.
    - by intros (m' & H & _). }
  destruct (weights_exist succ S ((map_to_list (s_manifolds s)).*1)) as [W HW].
  { intros x y (m & Hm & _)%Hs. rewrite (l_inst E s L) in Hm. apply elem_of_list_fmap. exists (x, m). split; [done|]. by apply elem_of_map_to_list. }
  { intros x Hx. apply (never_cycles E s [] (s_log s) Hr eq_refl x). revert Hx. apply tc_congruence with (f := fun y => y). intros a b. apply Hs. }
  assert (Hlt : forall n x, depends_on (s_log s) n x -> W x < W n).
  { intros n x Hx%Hs. specialize (HW n). apply elem_of_list_split in Hx as (l1 & l2 & Heq). rewrite Heq in HW.
    pose proof (lsum_submseteq (fun y => S (W y)) [x] (l1 ++ x :: l2)) as H. cbn in H. enough (S (W x) + 0 <= W n) by lia.
    etrans; [apply H|apply HW]. apply singleton_submseteq_l, elem_of_app. right. apply elem_of_list_here. }
  enough (forall N n, W n < N -> P n) as Hx by (intros n; apply (Hx (S (W n))); lia).
  induction N as [|N IH]; intros n Hn; [lia|]. apply Hstep. intros x Hx. apply IH. pose proof (Hlt n x Hx). lia.
Qed.

(** The newest attempt of a manifold of a converged engine: if it is running its Start func returned the worker; if not, it
    returned an error. *)
Lemma outcome E s n m : reachable E s -> ~ is_dying (s_log s) -> converged (s_log s) -> none_retired (s_log s) ->
  installed (s_log s) n = Some m ->
  exists g sn pre t d post r, s_log s = pre ++ EvAttempt g n sn t d :: post /\ installed post n = Some m /\ EvStartRet g n r ∈ s_log s /\
    (forall x, x ∈ m_inputs m -> sn_workers sn !! x = Some (snd <$> registered (s_log s) x)) /\
    ((exists w, r = inl w) <-> running (s_log s) n).
Proof.
  intros Hr Hnd Hc Hq Hi. destruct (Hc n m Hi) as (g & sn & post & Ha & Hp & Hna & Hf & Hcase).
  destruct (last_attempt_split _ _ _ _ _ Ha) as (pre & t & d & Heq). exists g, sn, pre, t, d, post.
  destruct Hcase as [(w & Hreg & Hne)|(Hpr & raw & e & He & Ht)].
  - exists (inl w). split; [done|]. split; [done|]. destruct (registered_event _ _ _ _ Hreg) as [tr Hev].
    split; [by apply (register_ret E s g n w tr)|]. split; [done|]. unfold running. rewrite Hreg. split; [by eexists|]. intros _. by exists w.
  - destruct (last_end_split _ _ _ _ _ He) as (pre' & t' & post' & Heq').
    destruct (stopped_cause E s _ _ _ _ _ _ _ Hr Heq') as (Hcause & _ & _).
    assert (Hin : forall ev, ev ∈ post' -> ev ∈ s_log s) by (intros ev H; rewrite Heq'; apply elem_of_app; right; by right).
    assert (Hterm : terminal e = true).
    { unfold terminal. destruct e as [e|]; [|done]. cbn in Ht. destruct Ht as [Ht|[Ht|Ht]]; [done| |]; rewrite Ht; by rewrite ?orb_true_r. }
    destruct Hcause as [Hx|[(e' & Hx & _)|(_ & _ & Hx)]].
    + destruct (Hq _ _ _ _ _ _ _ Heq' Hx) as [[k Hk]|H]; [|congruence]. destruct Hna. exists k. by apply Hin.
    + exists (inr e'). split; [done|]. split; [done|]. split; [by apply Hin|]. split; [done|]. split; [by intros [w Hw]|].
      intros [[g0 w0] H0]. exfalso. destruct (reachable_linv E s Hr) as [V L]. destruct (l_regg E s L _ _ _ H0) as (r0 & Hg0 & Hn0 & Hp0).
      assert (in_progress (s_log s) n = Some g0) as H by (apply (l_prog E s L); by eexists). congruence.
    + destruct Hx as [Hx|[k Hk]]; [by destruct Hnd; apply Hin|]. destruct Hna. exists k. by apply Hin.
Qed.

Lemma given_now log m sn : (forall x, x ∈ m_inputs m -> sn_workers sn !! x = Some (snd <$> registered log x)) -> given m sn = running_inputs log m.
Proof.
  unfold given, running_inputs. generalize (m_inputs m) as l. induction l as [|x l IH]; intros H; [done|]. cbn [List.filter].
  rewrite (H x) by apply elem_of_list_here. rewrite IH by (intros y Hy; apply H; by apply elem_of_list_further). by destruct (registered log x).
Qed.

Lemma running_iff runs E s n m : reachable E s -> ~ is_dying (s_log s) -> converged (s_log s) -> none_retired (s_log s) -> predictable runs (s_log s) ->
  installed (s_log s) n = Some m -> (running (s_log s) n <-> runs (m_start m) (running_inputs (s_log s) m) = true).
Proof.
  intros Hr Hnd Hc Hq Hd Hi. destruct (outcome E s n m Hr Hnd Hc Hq Hi) as (g & sn & pre & t & d & post & r & Heq & Hp & Hret & Hf & Hiff).
  rewrite <- Hiff. rewrite <- (given_now _ _ _ Hf). symmetry. by eapply Hd.
Qed.

Lemma not_installed E s n : reachable E s -> installed (s_log s) n = None -> ~ running (s_log s) n.
Proof. intros Hr Hi [x Hx]. destruct (uninstalled_gone E s n Hr Hi) as (_ & H & _). congruence. Qed.

Lemma same_outcome runs E1 s1 E2 s2 : reachable E1 s1 -> reachable E2 s2 ->
  ~ is_dying (s_log s1) -> ~ is_dying (s_log s2) -> converged (s_log s1) -> converged (s_log s2) ->
  none_retired (s_log s1) -> none_retired (s_log s2) -> predictable runs (s_log s1) -> predictable runs (s_log s2) ->
  (forall n, installed (s_log s1) n = installed (s_log s2) n) ->
  forall n, running (s_log s1) n <-> running (s_log s2) n.
Proof.
  intros Hr1 Hr2 Hd1 Hd2 Hc1 Hc2 Hq1 Hq2 Hp1 Hp2 Hsame. apply (inputs_ind E1 s1 _ Hr1). intros n IH.
  destruct (installed (s_log s1) n) as [m|] eqn:Hi1.
  - rewrite (running_iff runs E1 s1 n m) by done. rewrite (running_iff runs E2 s2 n m); [|done..|by rewrite <- Hsame].
    replace (running_inputs (s_log s2) m) with (running_inputs (s_log s1) m); [done|].
    assert (forall x, x ∈ m_inputs m -> (running (s_log s1) x <-> running (s_log s2) x)) as H.
    { intros x Hx. apply IH. by exists m. }
    unfold running_inputs. revert H. generalize (m_inputs m) as l. induction l as [|x l IHl]; intros H; [done|]. cbn [List.filter].
    rewrite IHl by (intros y Hy; apply H; by apply elem_of_list_further). specialize (H x (elem_of_list_here _ _)). unfold running in H.
    destruct (registered (s_log s1) x), (registered (s_log s2) x); try done; destruct H as [H H']; exfalso;
      [destruct (H ltac:(by eexists)) as [? Hx]|destruct (H' ltac:(by eexists)) as [? Hx]]; done.
  - assert (installed (s_log s2) n = None) as Hi2 by (by rewrite <- Hsame).
    split; intros H; exfalso; revert H; [by apply (not_installed E1)|by apply (not_installed E2)].
Qed.

Lemma running_needs_all E s n : reachable E s -> ~ is_dying (s_log s) -> converged (s_log s) -> none_retired (s_log s) -> needs_all (s_log s) ->
  (running (s_log s) n <-> forall x, rtc (depends_on (s_log s)) n x -> is_Some (installed (s_log s) x)).
Proof.
  intros Hr Hnd Hc Hq Hall. revert n. apply (inputs_ind E s _ Hr). intros n IH.
  destruct (installed (s_log s) n) as [m|] eqn:Hi.
  - destruct (outcome E s n m Hr Hnd Hc Hq Hi) as (g & sn & pre & t & d & post & r & Heq & Hp & Hret & Hf & Hiff).
    rewrite <- Hiff. rewrite <- (Hall _ _ _ _ _ _ _ _ _ Heq Hp Hret). split.
    + intros H x Hx. inversion Hx as [|? y ? Hxy Hyx]; subst; [by exists m|]. assert (Hdep := Hxy). destruct Hxy as (m' & Hm' & Hin). rewrite Hi in Hm'. injection Hm' as <-.
      destruct (H y Hin) as [w Hw]. apply (IH y Hdep); [|done]. rewrite (Hf y Hin) in Hw. unfold running. destruct (registered (s_log s) y); [by eexists|done].
    + intros H x Hin. rewrite (Hf x Hin). assert (Hdep : depends_on (s_log s) n x) by (by exists m).
      assert (running (s_log s) x) as [[g' w'] Hw]. { apply (IH x Hdep). intros y Hy. apply H. by apply rtc_l with x. }
      rewrite Hw. by exists w'.
  - split; intros H; exfalso; [revert H; by apply (not_installed E)|]. destruct (H n) as [? Hx]; [apply rtc_refl|]. congruence.
Qed.

(** ** Infinite executions *)
Lemma same_end runs E1 tr1 lab1 i1 E2 tr2 lab2 i2 :
  reachable E1 (tr1 0) -> execution (step E1) tr1 lab1 -> not_starved (step E1) (fun s => owed (s_log s)) tr1 lab1 ->
  (forall j l, i1 <= j -> lab1 j = Some l -> calm (s_log (tr1 j)) l) -> (forall t j, exists k, j <= k /\ (t <= s_now (tr1 k))%Z) ->
  reachable E2 (tr2 0) -> execution (step E2) tr2 lab2 -> not_starved (step E2) (fun s => owed (s_log s)) tr2 lab2 ->
  (forall j l, i2 <= j -> lab2 j = Some l -> calm (s_log (tr2 j)) l) -> (forall t j, exists k, j <= k /\ (t <= s_now (tr2 k))%Z) ->
  (forall j, ~ is_dying (s_log (tr1 j))) -> (forall j, ~ is_dying (s_log (tr2 j))) ->
  (forall j, none_retired (s_log (tr1 j)) /\ predictable runs (s_log (tr1 j))) ->
  (forall j, none_retired (s_log (tr2 j)) /\ predictable runs (s_log (tr2 j))) ->
  (forall j1 j2 n, i1 <= j1 -> i2 <= j2 -> installed (s_log (tr1 j1)) n = installed (s_log (tr2 j2)) n) ->
  exists j, forall k1 k2 n, j <= k1 -> j <= k2 -> (running (s_log (tr1 k1)) n <-> running (s_log (tr2 k2)) n).
Proof.
  intros Hr1 He1 Hf1 Hc1 Ht1 Hr2 He2 Hf2 Hc2 Ht2 Hd1 Hd2 Hp1 Hp2 Hsame.
  destruct (converges E1 tr1 lab1 Hr1 He1 Hf1 i1 Hc1 Ht1) as (j1 & Hj1 & H1).
  destruct (converges E2 tr2 lab2 Hr2 He2 Hf2 i2 Hc2 Ht2) as (j2 & Hj2 & H2).
  exists (j1 + j2). intros k1 k2 n Hk1 Hk2.
  destruct (H1 k1 ltac:(lia)) as [H|C1]; [by destruct (Hd1 k1)|]. destruct (H2 k2 ltac:(lia)) as [H|C2]; [by destruct (Hd2 k2)|].
  apply (same_outcome runs E1 (tr1 k1) E2 (tr2 k2)); try done; try apply Hp1; try apply Hp2;
    try (by eapply tr_reach). intros n'. apply Hsame; lia.
Qed.
