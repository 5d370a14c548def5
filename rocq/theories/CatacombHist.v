(** What every event of the catacomb's log says about the events before it. *)
From stdpp Require Import gmap strings list.
From Coq Require Import Lia.
From RecordUpdate Require Import RecordSet.
From Verif Require Import Err Tomb Sum Catacomb CatacombSpec CatacombInv CatacombTr CatacombLog.
Import RecordSetNotations.

Lemma hist_at Q pre ev post : hist Q (pre ++ ev :: post) -> Q ev post.
Proof. induction pre as [|x pre IH]; cbn; intros [H1 H2]; auto. Qed.
Lemma hist_and (P Q : event -> list event -> Prop) log : hist P log -> hist Q log -> hist (fun ev post => P ev post /\ Q ev post) log.
Proof. induction log as [|ev log IH]; cbn; [done|]. intros [H1 H2] [H3 H4]. auto. Qed.

(** ** Work *)
Definition wfact (s : state) : Prop :=
  match x_work s with
  | WkNone => ~ EvWork ∈ x_log s /\ ~ work_returned (x_log s)
  | WkRun => EvWork ∈ x_log s /\ ~ work_returned (x_log s)
  | WkKill e => EvWork ∈ x_log s /\ exists r, (forall r', EvWorkRet r' ∈ x_log s <-> r' = r) /\ outcome r = Some e
  | WkWg false | WkDone | WkOver => EvWork ∈ x_log s /\ exists r e, (forall r', EvWorkRet r' ∈ x_log s <-> r' = r) /\ outcome r = Some e /\ (x_crash s = false -> EvKill FromWork e ∈ x_log s)
  | WkWg true | WkLost => EvWork ∈ x_log s /\ (forall r, EvWorkRet r ∈ x_log s <-> r = WkGoexit)
  end.
Lemma l_work me s : reachable me s -> wfact s.
Proof.
  apply (reach_tr me wfact).
  { split; [intros H; by apply elem_of_nil in H|]. intros [r H]. by apply elem_of_nil in H. }
  clear s. intros s l s' Hr V Hc IH Ht.
  assert (Hsame : x_work s' = x_work s -> (EvWork ∈ x_log s' <-> EvWork ∈ x_log s) -> (forall r, EvWorkRet r ∈ x_log s' <-> EvWorkRet r ∈ x_log s) -> wfact s').
  { intros H1 H2 H3. unfold wfact in *. rewrite H1. unfold work_returned in *.
    assert (Hm : forall e, EvKill FromWork e ∈ x_log s -> EvKill FromWork e ∈ x_log s') by (intros e; by eapply old_ev).
    assert (Hg : (EvWork ∈ x_log s /\ exists r e, (forall r', EvWorkRet r' ∈ x_log s <-> r' = r) /\ outcome r = Some e /\ (x_crash s = false -> EvKill FromWork e ∈ x_log s)) ->
      (EvWork ∈ x_log s' /\ exists r e, (forall r', EvWorkRet r' ∈ x_log s' <-> r' = r) /\ outcome r = Some e /\ (x_crash s' = false -> EvKill FromWork e ∈ x_log s'))).
    { intros (K1 & r & e & K2 & K3 & K4). split; [by apply H2|]. exists r, e. split; [intros r'; by rewrite H3|]. split; [done|]. auto. }
    destruct (x_work s) as [| | |[]| | |]; auto.
    - rewrite H2. split; [apply IH|]. intros [r K]. apply IH. exists r. by apply H3.
    - rewrite H2. split; [apply IH|]. intros [r K]. apply IH. exists r. by apply H3.
    - destruct IH as (K1 & r & K2 & K3). split; [by apply H2|]. exists r. split; [intros r'; by rewrite H3|done].
    - destruct IH as (K1 & K2). split; [by apply H2|]. intros r. by rewrite H3.
    - destruct IH as (K1 & K2). split; [by apply H2|]. intros r. by rewrite H3. }
  destruct Ht; try (apply Hsame; [reflexivity|intros; ccbn; soft_done; reflexivity|intros; ccbn; soft_done; reflexivity]); clear Hsame; unfold wfact in *; ccbn.
  - destruct (c_act s V i _ H I) as (_ & Hw & _). rewrite Hw in IH. destruct IH as [K1 K2]. split; [by right; left|]. intros [r K]. apply K2. exists r. by rewrite !other_ev in K by done.
  - rewrite H in IH. destruct IH as [K1 K2]. split; [by right|]. exists (WkReturn e). split; [|done]. intros r'. rewrite elem_of_cons. split; [intros [?|K]; [congruence|]|intros ->; by left]. destruct K2. by exists r'.
  - rewrite H in IH. destruct IH as [K1 K2]. split; [by right|]. exists (WkPanic v). split; [|done]. intros r'. rewrite elem_of_cons. split; [intros [?|K]; [congruence|]|intros ->; by left]. destruct K2. by exists r'.
  - rewrite H in IH. destruct IH as [K1 K2]. split; [by right|]. intros r'. rewrite elem_of_cons. split; [intros [?|K]; [congruence|]|intros ->; by left]. destruct K2. by exists r'.
  - rewrite H in IH. destruct IH as (K1 & r & K2 & K3). split; [by right|]. exists r, e. split; [intros r'; by rewrite (soft_kres _ _ _ _ _ _ _ _ _ H0)|]. split; [done|]. intros ->. inversion H0; subst. by left.
  - rewrite H in IH. destruct g; [done|]. destruct IH as (K1 & r & e & K2 & K3 & K4). split; [done|]. exists r, e. auto.
  - rewrite H in IH. destruct IH as (K1 & r & e & K2 & K3 & K4). split; [by right|]. exists r, e. split; [intros r'; by rewrite other_ev|]. split; [done|]. intros Hcc. right. auto.
Qed.

(** ** Every event *)
Definition good (me : nat) (ev : event) (post : list event) : Prop :=
  match ev with
  | EvInvoke i p => (forall p', ~ EvInvoke i p' ∈ post)
  | EvUsed i => (forall j, ~ EvUsed j ∈ post) /\ exists p, EvInvoke i p ∈ post /\ validate p = None
  | EvInvoked i r => (forall r', ~ EvInvoked i r' ∈ post) /\ exists p, EvInvoke i p ∈ post /\
      match r with
      | None => validate p = None /\ EvUsed i ∈ post /\ EvWork ∈ post /\ exists acc, bound_of post = inits p ++ acc
      | Some e => ~ EvUsed i ∈ post /\ why_failed post i p e /\ forall w, Some w ∈ p_init p -> stopped post i w
      end
  | EvBind b w => (exists i, EvUsed i ∈ post) /\ ~ EvDead ∈ post /\ forall w', ~ EvBind b w' ∈ post
  | EvWork => ~ EvWork ∈ post /\ exists i p, EvInvoke i p ∈ post /\ EvUsed i ∈ post /\ exists acc, bound_of post = inits p ++ acc
  | EvWorkRet r => EvWork ∈ post /\ ~ work_returned post
  | EvAddCall i w => forall w', ~ EvAddCall i w' ∈ post
  | EvAddRet i w r => EvAddCall i w ∈ post /\ (forall w' r', ~ EvAddRet i w' r' ∈ post) /\
      match r with
      | None => (exists j, EvUsed j ∈ post) /\ ~ EvDead ∈ post
      | Some x => is_dying post /\ EvWKill (ByAdd i) w ∈ post /\ exists e, finished_with me post w e /\ x = match e with Some y => EWrap MsgTrace y | None => ECatacombDying me end
      end
  | EvKill (FromWorker b) e => exists n, EvBind b (WExt n) ∈ post /\ EvEnd n e ∈ post /\ e <> None
  | EvKill FromWork e => exists r, EvWorkRet r ∈ post /\ outcome r = Some e
  | EvKill FromSelf e => e = None /\ exists k, EvWKill k WSelf ∈ post
  | EvKill FromClient e => True
  | EvKillPanic src e => e = Some ETombStillAlive /\
      match src with
      | FromClient => True
      | FromWorker b => exists n, EvBind b (WExt n) ∈ post /\ EvEnd n e ∈ post
      | FromWork => EvWorkRet (WkReturn e) ∈ post
      | FromSelf => False
      end
  | EvWKill (ByBind b) w => is_dying post /\ EvBind b w ∈ post
  | EvWKill (ByAdd i) w => is_dying post /\ EvAddCall i w ∈ post
  | EvWKill (ByInvoke i) w => ~ EvUsed i ∈ post /\ exists p r, EvInvoke i p ∈ post /\ Some w ∈ p_init p /\ why_failed post i p r
  | EvEnd n e => forall e', ~ EvEnd n e' ∈ post
  | EvGone b => exists n e, EvBind b (WExt n) ∈ post /\ EvEnd n e ∈ post
  | EvDead => ~ EvDead ∈ post /\ is_dying post /\ (exists r e, EvWorkRet r ∈ post /\ outcome r = Some e /\ EvKill FromWork e ∈ post) /\
      (forall b w, EvBind b w ∈ post -> EvGone b ∈ post /\ finished post w) /\ (exists i p, EvInvoke i p ∈ post /\ EvUsed i ∈ post /\ bound_of post = inits p ++ accepted_of post)
  | EvWait e => EvDead ∈ post /\ e = first_said me post
  | EvErrDying e => (is_dying post /\ e = Some (ECatacombDying me)) \/ (~ is_dying post /\ e = Some (EMsg MsgStillAlive))
  end.

Lemma dying_mono me s l s' : tr me s l s' -> t_dying (x_tomb s) = true -> t_dying (x_tomb s') = true.
Proof.
  intros Ht Hd. pose proof (fun t e => tomb_kill_same t e) as Hk.
  assert (Hkr : forall src e t t' p ev, kres me src e t t' p ev -> t_dying t = true -> t_dying t' = true).
  { intros src e t t' p ev K. destruct K; [|done]. apply (tomb_kill_same _ _ H). }
  assert (Hnil : forall t, t_dying t = true -> t_dying (tomb_kill t None) = true).
  { intros t. unfold t_dying, tomb_kill. by destruct (t_reason t) as [|[]] eqn:E; cbn; rewrite ?E. }
  assert (Hwk : forall w, t_dying (wk_tomb w (x_tomb s)) = true) by (intros w; destruct w; cbn -[tomb_kill]; auto).
  destruct Ht; ccbn; try done; try (by eapply Hkr); try (apply Hwk).
  - unfold tomb_go. by destruct (t_dead _).
  - change (t_dying (tomb_kill (x_tomb s <| t_alive := 0 |>) None <| t_dead := true |>)) with (t_dying (tomb_kill (x_tomb s <| t_alive := 0 |>) None)). by apply Hnil.
Qed.
Definition hon (me : nat) (s : state) (e : option err) : Prop := honest me e s = true.
Lemma l_hon me s : reachable me s -> (forall e, x_work s = WkKill e -> hon me s e) /\ (forall n e, x_ended s !! n = Some e -> hon me s e).
Proof.
  apply (reach_tr me (fun s => (forall e, x_work s = WkKill e -> hon me s e) /\ (forall n e, x_ended s !! n = Some e -> hon me s e))).
  { split; [done|]. intros n e H. change (x_ended init) with (∅ : gmap nat (option err)) in H. by rewrite lookup_empty in H. }
  clear s. intros s l s' Hr V Hc [IH1 IH2] Ht.
  assert (Hm : forall e, hon me s e -> hon me s' e).
  { intros [e|]; [|done]. unfold hon, honest. intros H. destruct (t_dying (x_tomb s)) eqn:Hd; [by rewrite (dying_mono _ _ _ _ Ht Hd)|]. cbn in H. rewrite H. apply orb_true_r. }
  split.
  - intros e He. destruct Ht; cbn in He; try (by apply Hm, IH1); try congruence.
    + injection He as <-. by apply Hm.
    + injection He as <-. unfold hon, honest. cbn. apply orb_true_r.
    + by destruct g.
  - intros n e He. destruct Ht; cbn in He; try (by eapply Hm, IH2). destruct (decide (n0 = n)) as [->|].
    + rewrite lookup_insert in He. injection He as <-. by apply Hm.
    + rewrite lookup_insert_ne in He by done. by eapply Hm, IH2.
Qed.
Lemma as_mentions x c : as_dying x = Some c -> mentions c x = true.
Proof. induction x; cbn; try done. intros [= ->]. by apply bool_decide_eq_true. Qed.
Lemma panic_still me e s : t_panic (x_tomb s) = false -> hon me s e -> t_panic (tomb_kill (x_tomb s) (translate me e)) = true -> e = Some ETombStillAlive.
Proof.
  intros Hp Hh. destruct e as [x|]; [|change (translate me None) with (@None err); intros H; by rewrite (kill_nil _ Hp) in H]. unfold translate.
  case_bool_decide as Hx; [cbn; unfold tomb_kill; destruct (t_reason _) as [|[]]; cbn; congruence|].
  destruct (as_dying x) as [c|] eqn:Ha.
  - apply as_mentions in Ha. case_bool_decide as Hm.
    + subst c. unfold hon, honest in Hh. rewrite Ha, orb_false_r in Hh. unfold tomb_kill, t_dying in *. destruct (t_reason (x_tomb s)); cbn; congruence.
    + unfold tomb_kill. destruct (t_reason _) as [|[]]; cbn; congruence.
  - unfold tomb_kill. destruct x; try (destruct (t_reason _) as [|[]]; cbn; congruence); done.
Qed.

Lemma bound_all_gone s b r : cinv s -> x_wg s = 0 -> x_binds s !! b = Some r -> b_wait r = VGone /\ b_stop r = SGone.
Proof. intros V Hz Hb. pose proof (bound_wg s b r V Hb) as H. unfold bc in H. destruct (b_wait r), (b_stop r); try lia; done. Qed.
Lemma used_back me s i : linv me s -> EvUsed i ∈ x_log s -> exists pc, x_invs s !! i = Some pc /\ (active pc \/ pc = IReturned /\ exists p, EvInvoke i p ∈ x_log s /\ validate p = None /\ seqd s p).
Proof.
  intros L Hu. pose proof (li_inv _ _ L i) as Hi. destruct (x_invs s !! i) as [pc|] eqn:E; [|by destruct Hi as (_ & Hi & _)]. exists pc. split; [done|].
  destruct pc; try (by left); try (exfalso; destruct Hi as (? & Hi & _); done); try (exfalso; destruct Hi as (? & ? & ? & Hi & _); done).
  right. split; [done|]. destruct Hi as (p & Hi & [(K1 & K2 & K3 & K4)|(K1 & _)]); [|done]. by exists p.
Qed.
Lemma not_dead me s : reachable me s -> x_wg s <> 0 -> ~ EvDead ∈ x_log s.
Proof. intros Hr Hw Hd. apply (l_dead me s Hr) in Hd. pose proof (c_wait s (reach_cinv me s Hr)) as H. by rewrite Hd in H. Qed.
Lemma good_kill me src e s (log : list event) t p ev : reachable me s -> log = x_log s -> hon me s e -> kres me src e (x_tomb s) t p ev -> good me (EvKill src e) (x_log s) -> good me ev (x_log s).
Proof.
  intros Hr -> Hh Hk Hg. destruct Hk as [Hk|Hk]; [done|]. assert (He : e = Some ETombStillAlive) by (eapply panic_still; eauto; apply (c_panic s (reach_cinv me s Hr))). split; [done|].
  subst e. destruct src; cbn in Hg; [done| | |by destruct Hg].
  - destruct Hg as (n & H1 & H2 & _). by exists n.
  - destruct Hg as (r & H1 & H2). destruct r; try done. by injection H2 as ->.
Qed.
Lemma good_wk me k w s : good me (EvWKill k w) (x_log s) -> hist (good me) (x_log s) -> hist (good me) (wk_evs k w ++ x_log s).
Proof. intros H1 H2. destruct w; cbn -[good]; [done|]. split; [|done]. cbn. split; [done|]. exists k. by left. Qed.
Lemma l_good me s : reachable me s -> hist (good me) (x_log s).
Proof.
  apply (reach_tr me (fun s => hist (good me) (x_log s))); [done|].
  clear s. intros s l s' Hr V Hc IH Ht. pose proof (l_linv me s Hr) as L. pose proof (li_inv _ _ L) as Hinv. pose proof (l_adds me s Hr) as Hadds.
  pose proof (l_work me s Hr) as Hw. unfold wfact in Hw. pose proof (l_dying me s Hr) as Hdy. pose proof (l_hon me s Hr) as [Hh1 Hh2]. pose proof (l_dead me s Hr) as Hdd.
  pose proof (l_bind me s Hr) as Hbd. pose proof (l_bfact me s Hr) as Hbf. pose proof (l_end me s Hr) as Hend.
  destruct Ht; cbn -[good wk_evs gone_evs wk_tomb tomb_kill tomb_go]; try (by apply IH).
  - (* TInvoke *) split; [|done]. specialize (Hinv i). rewrite H in Hinv. exact (proj1 Hinv).
  - (* TUsed *) split; [|done]. specialize (Hinv i). rewrite H in Hinv. destruct Hinv as (K1 & K2 & K3 & K4). split; [|by exists p].
    intros j Hj. assert (x_dirty s = true) by (apply (li_dirty _ _ L); eauto). congruence.
  - (* TInit *) split; [|done]. destruct (c_act s V i _ H I) as (Hd & Hwk & Hl). split; [by apply (li_dirty _ _ L)|]. split; [rewrite Hdd; congruence|].
    intros w' Hx. apply Hbd in Hx as (v & p & Hx). pose proof (c_next s V (x_next s) ltac:(eauto)). lia.
  - (* TGo *) destruct (c_act s V i _ H I) as (Hd & Hwk & Hl). specialize (Hinv i). rewrite H in Hinv. destruct Hinv as (p & K1 & K2 & K3 & K4 & (acc & _ & K5)). rewrite Hwk in Hw.
    split; [|split; [|done]].
    + split; [intros r'; rewrite other_ev by done; apply K3|]. exists p. split; [by right|]. split; [done|]. split; [by right|]. split; [by left|]. exists acc. done.
    + split; [apply Hw|]. exists i, p. split; [done|]. split; [done|]. by exists acc.
  - (* TStopped *) split; [|done]. specialize (Hinv i). rewrite H in Hinv. destruct Hinv as (p & dn & K1 & K2 & K3 & K4 & K5 & K6). rewrite app_nil_r in K4. subst dn. split; [done|]. exists p. auto.
  - (* TStop *) apply good_wk; [|done]. specialize (Hinv i). rewrite H in Hinv. destruct Hinv as (p & dn & K1 & K2 & K3 & K4 & K5 & K6). cbn. split; [done|]. exists p, r. split; [done|]. split; [|done].
    rewrite K4. apply elem_of_app. right. by left.
  - (* TAdd *) split; [|done]. specialize (Hadds i). rewrite H in Hadds. exact (proj1 Hadds).
  - (* THand *) split; [|done]. specialize (Hadds i). rewrite H in Hadds. destruct Hadds as (K1 & K2 & K3). split; [done|]. split; [done|].
    split; [apply (li_dirty _ _ L); auto|]. apply (not_dead me s Hr). rewrite (c_wg s V), H0. cbn. lia.
  - (* TAddKill *) apply good_wk; [|done]. specialize (Hadds i). rewrite H in Hadds. destruct Hadds as (K1 & K2 & K3). done.
  - (* TAddWaited *) split; [|done]. specialize (Hadds i). rewrite H in Hadds. destruct Hadds as (K1 & K2 & K3 & K4). split; [done|]. split; [done|].
    assert (Hf : finished_with me (x_log s) w e).
    { destruct w as [n|]; cbn in *; [by apply Hend|]. unfold tomb_wait in H0. destruct (t_dead (x_tomb s)) eqn:Hd; [|done]. split; [apply Hdd; by apply (c_dead s V)|].
      destruct (t_reason (x_tomb s)) eqn:Hre; [exfalso|injection H0 as <-; unfold tomb_err; rewrite Hre; exact (l_reason me s _ Hr Hre)]. apply Hdy in K3. unfold t_dying in K3. by rewrite Hre in K3. }
    destruct e as [x|]; [cbn; split; [done|]; split; [done|]; by exists (Some x)|]. unfold err_dying. rewrite (proj1 Hdy K3). split; [done|]. split; [done|]. by exists None.
  - (* TKill *) split; [|done]. eapply good_kill; eauto. done.
  - (* TAdded *) split; [|done]. split; [|split].
    + apply (li_dirty _ _ L). destruct (x_dirty s) eqn:Hd; [done|]. destruct (c_clean s V Hd) as (_ & Hl & _). congruence.
    + apply (not_dead me s Hr). rewrite (c_wg s V), H. cbn. lia.
    + intros w' Hx. apply Hbd in Hx as (v & p & Hx). pose proof (c_next s V (x_next s) ltac:(eauto)). lia.
  - split; [|done]. rewrite H in Hw. exact Hw.
  - split; [|done]. rewrite H in Hw. exact Hw.
  - split; [|done]. rewrite H in Hw. exact Hw.
  - (* TWorkKill *) split; [|done]. eapply (good_kill me FromWork e s); eauto. rewrite H in Hw. destruct Hw as (_ & r & K2 & K3). exists r. split; [by apply K2|done].
  - (* TDone *) split; [|done]. rewrite H in Hw. destruct Hw as (_ & r & e & K2 & K3 & K4). pose proof (c_wait s V) as Hz. rewrite H in Hz.
    split; [rewrite Hdd; congruence|]. split; [apply (l_tomb me s Hr); auto|]. split; [exists r, e; split; [by apply K2|]; split; [done|by apply K4]|]. split.
    + intros b w Hb. apply Hbd in Hb as (v & p & Hb). destruct (bound_all_gone s b _ V Hz Hb) as [E1 E2]. cbn in E1, E2. subst v p. split; [apply (l_gone me s Hr); eauto|].
      destruct (Hbf _ _ _ _ Hb) as [(n & e' & -> & Hn & _) _]. exists e'. by apply Hend.
    + assert (Hdi : x_dirty s = true). { destruct (x_dirty s) eqn:Hd; [done|]. destruct (c_clean s V Hd) as (Hwk & _). congruence. }
      apply (li_dirty _ _ L) in Hdi as [i Hi]. destruct (used_back me s i L Hi) as (pc & Hpc & [Ha|(-> & p & P1 & P2 & acc & P3 & P4)]).
      { destruct (c_act s V i pc Hpc Ha) as (_ & Hx & _). congruence. }
      exists i, p. split; [done|]. split; [done|]. rewrite P3, P4. assert (Hl : x_lis s <> LiNone) by (apply (c_lis s V); congruence).
      pose proof (c_wg s V) as Hg. rewrite Hz in Hg. destruct (x_lis s); cbn in Hg; try lia; try done. cbn. by rewrite app_nil_r.
  - (* TWaitKill *) split; [|done]. destruct (Hbf _ _ _ _ H) as [(n & -> & Hn) _]. eapply good_kill; eauto. cbn. exists n. split; [apply Hbd; eauto|]. split; [by apply Hend|done].
  - (* TWaitExit *) destruct p; try done. split; [|done]. destruct (Hbf _ _ _ _ H) as [(n' & e & -> & Hn & _) _]. exists n', e. split; [apply Hbd; eauto|by apply Hend].
  - (* TStopKill *) apply good_wk; [|done]. destruct (Hbf _ _ _ _ H) as [_ Hs]. split; [done|]. apply Hbd. eauto.
  - (* TStopExit *) destruct v; try done. split; [|done]. destruct (Hbf _ _ _ _ H) as [(n' & e & -> & Hn & _) _]. exists n', e. split; [apply Hbd; eauto|by apply Hend].
  - (* TEnd *) split; [|done]. intros e' He. apply Hend in He. congruence.
  - (* TWait *) split; [|done]. unfold tomb_wait in H. destruct (t_dead (x_tomb s)) eqn:Hd; [|done]. apply (c_dead s V) in Hd. split; [by apply Hdd|].
    pose proof (c_over s V Hd) as Hy. unfold t_dying in Hy. destruct (t_reason (x_tomb s)) eqn:Hre; [done|]. injection H as <-. unfold tomb_err; rewrite Hre; exact (l_reason me s _ Hr Hre).
  - (* TErrDying *) split; [|done]. cbn. unfold err_dying. destruct (t_dying (x_tomb s)) eqn:Hd; [left; split; [by apply Hdy|done]|right; split; [|done]]. intros Hx. apply Hdy in Hx. congruence.
Qed.
Lemma at_event me s pre ev post : reachable me s -> x_log s = pre ++ ev :: post -> good me ev post.
Proof. intros Hr Hl. pose proof (l_good me s Hr) as H. rewrite Hl in H. by eapply hist_at. Qed.
