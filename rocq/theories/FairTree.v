(** Infinite executions of workers made of workers: a worker that was killed comes to its end (C81). *)
From stdpp Require Import gmap strings list relations.
From RecordUpdate Require Import RecordSet.
From Verif Require Import Err Tomb Tree TreeSpec TreeProofs TreeFinish FairSpec FairTreeSpec FairProofs.
From Verif Require Snapshot Engine EngineSpec EngineProgressSpec EngineMicro EngineLog EngineMore EngineProgress TreeEngine
  Runner RunnerSpec RunnerProgressSpec RunnerInv RunnerHist RunnerThms RunnerProgress TreeRunner
  Catacomb CatacombSpec CatacombProgressSpec CatacombInv CatacombTr CatacombLog TreeCatacomb FairCatacombSpec FairCatacomb.
Import RecordSetNotations.

(** ** One worker *)
Definition nmeasure (nd : node) : nat * nat :=
  match nd with
  | NEngine _ s => (EngineProgress.psi s, 0)
  | NRunner _ s => (RunnerProgress.measure s, 0)
  | NCatacomb _ s => FairCatacomb.cmeasure s
  | NPlain _ f => (match f with Some _ => 0 | None => 1 end, 0)
  end.
(** It is on its way out. *)
Definition leaving (nd : node) : Prop :=
  match nd with
  | NEngine _ s => EngineSpec.is_dying (Engine.s_log s)
  | NRunner _ s => Runner.EvKilled ∈ RunnerSpec.rlog s /\ RunnerSpec.stopping_all (RunnerSpec.rlog s)
  | NCatacomb _ s => CatacombSpec.is_dying (Catacomb.x_log s)
  | NPlain k _ => k = true
  end.
Definition le_m (nd nd' : node) : Prop := (nmeasure nd' = nmeasure nd /\ forall k, k ∈ wkills nd' -> k ∈ wkills nd) \/ lexlt (nmeasure nd') (nmeasure nd).
Lemma le_m_refl nd : le_m nd nd.
Proof. by left. Qed.
Lemma le_m_trans a b c : le_m a b -> le_m b c -> le_m a c.
Proof.
  intros [[H1 H2]|H1] [[H3 H4]|H3].
  - left. split; [congruence|auto].
  - right. by rewrite <- H1.
  - right. by rewrite H3.
  - right. by etransitivity.
Qed.
Lemma le_m_lt a b c : le_m a b -> lexlt (nmeasure c) (nmeasure b) -> lexlt (nmeasure c) (nmeasure a).
Proof. intros [[H1 _]|H1] H2; [by rewrite <- H1|by etransitivity]. Qed.

(** Engine: what is not internal kills nobody. *)
Definition ekills (s : Engine.state) : list nat := omap ekill (Engine.s_log s).
Lemma ek_emit ev s : ekill ev = None -> ekills (Engine.emit ev s) = ekills s.
Proof. intros H. unfold ekills, Engine.emit. cbn. by rewrite H. Qed.
Lemma ek_kill_tomb e s : ekills (Engine.kill_tomb e s) = ekills s.
Proof. unfold Engine.kill_tomb. cbv zeta. destruct (_ && _); [|done]. by rewrite ek_emit. Qed.
Lemma ek_poll E s : ekills (Engine.poll E s) = ekills s.
Proof. unfold Engine.poll. etransitivity; [reflexivity|]. case_match; [apply ek_kill_tomb|done]. Qed.
Lemma ek_end_iteration E s : ekills (Engine.end_iteration E s) = ekills s.
Proof. unfold Engine.end_iteration. cbv zeta. case_match; rewrite ?ek_emit by done; [change (ekills (Engine.poll E s) = ekills s)|]; apply ek_poll. Qed.
Lemma ek_launch E n d s : ekills (Engine.launch E n d s) = ekills s.
Proof. unfold Engine.launch. cbv zeta. rewrite ek_emit by done. done. Qed.
Lemma ek_request_start E n d s : ekills (Engine.request_start E n d s) = ekills s.
Proof.
  unfold Engine.request_start. cbv zeta. destruct (Engine.s_manifolds s !! n); repeat case_match; rewrite ?ek_launch, ?ek_poll, ?ek_kill_tomb; done.
Qed.
Lemma ek_got_install E n m s : ekills (Engine.got_install E n m s).2 = ekills s.
Proof.
  unfold Engine.got_install. destruct (Engine.s_manifolds s !! n); [done|]. destruct (Engine.check_acyclic E n m s); cbn [snd]; [done|].
  rewrite ek_request_start. unfold Engine.record_manifold. by rewrite ek_emit.
Qed.
Lemma ek_step E s l s' : Engine.step E s l = Some s' -> EngineProgressSpec.internal l = false -> ekills s' = ekills s.
Proof.
  destruct l; cbn [Engine.step]; intros Hs Hi; try done; repeat case_match; try done; simplify_eq;
    rewrite ?ek_end_iteration, ?ek_kill_tomb, ?ek_emit by done; rewrite ?ek_poll; try done.
  match goal with H : Engine.got_install _ _ _ _ = (_, ?x) |- _ => change x with (snd (o, x)); rewrite <- H end. apply ek_got_install.
Qed.
Lemma rk_step P s l s' : Runner.step P s l = Some s' -> RunnerProgressSpec.internal l = false -> RunnerProgressSpec.request l = false ->
  omap rwkill (RunnerSpec.rlog s') = omap rwkill (RunnerSpec.rlog s).
Proof.
  intros Hs Hi Hq. destruct l; try done; cbn [Runner.step] in Hs.
  { destruct (Runner.own l) eqn:Ho; [|done]. cbn [negb] in Hs. destruct l; try done; cbn [Runner.cstep] in Hs.
    - injection Hs as <-. unfold Runner.kill_tomb. by destruct (t_dying _).
    - destruct (0 <=? d)%Z; [|done]. by injection Hs as <-.
    - by injection Hs as <-.
    - repeat case_match; try done. by simplify_eq. }
  all: unfold Runner.deliver in Hs; repeat case_match; try done; simplify_eq; try done. cbn [Runner.cstep] in *. case_match; [|done]. by simplify_eq.
Qed.
Lemma ck_request me s l s' : Catacomb.reachable me s -> Catacomb.step me s l = Some s' -> FairCatacombSpec.new_work l = false ->
  lexlt (FairCatacomb.cmeasure s') (FairCatacomb.cmeasure s) \/ omap ckill (Catacomb.x_log s') = omap ckill (Catacomb.x_log s).
Proof.
  intros Hr Hs Hn. pose proof (CatacombInv.reach_cinv me s Hr) as V. destruct (CatacombTr.step_tr me s l s' V Hs) as [_ Ht].
  destruct (CatacombProgressSpec.request l) eqn:Hq.
  - right. destruct Ht; try done. match goal with H : CatacombTr.kres _ _ _ _ _ _ _ |- _ => by destruct H end.
  - destruct (CatacombProgressSpec.foreign l) eqn:Hf.
    + right. destruct Ht; try done.
    + left. apply (FairCatacomb.cstep_measure me s l s' Hr Hs Hn). unfold FairCatacombSpec.due. destruct l; try done.
Qed.
Lemma leaving_dying nd : leaving nd -> dying nd.
Proof. destruct nd; try done. intros [? _]. by left. Qed.
Lemma nstep_measure nd l nd' : node_ok nd -> leaving nd -> nstep nd l = Some nd' -> new_work l = false ->
  leaving nd' /\ le_m nd nd' /\ (bound_to_happen nd l -> lexlt (nmeasure nd') (nmeasure nd)).
Proof.
  intros Hok Hle. unfold nstep. destruct (goexit l) eqn:Hg; [done|]. destruct nd as [E s|P s|me s|kd [f|]], l as [l|l|l|e0]; try done; intros Hs Hn.
  - destruct (Engine.step E s l) as [s'|] eqn:Hst; [|done]. injection Hs as <-. cbn in Hok, Hle.
    assert (Hok' : Engine.reachable E s') by (by eapply EngineProgress.reachable_step).
    assert (Hdy : Engine.dying s = true) by (by apply (EngineLog.l_dying E _ (proj2 (EngineLog.reachable_linv E _ Hok)))).
    pose proof (EngineProgress.psi_step E _ _ _ Hdy Hst) as Hp. split; [|split].
    + cbn. apply (EngineLog.l_dying E _ (proj2 (EngineLog.reachable_linv E _ Hok'))). exact (EngineProgress.step_dying_mono E _ _ _ Hok Hst Hdy).
    + destruct (EngineProgressSpec.internal l) eqn:Hi; [right; left; cbn; lia|]. destruct (decide (EngineProgress.psi s' = EngineProgress.psi s)) as [He|He]; [left|right; left; cbn; lia].
      split; [cbn; congruence|]. intros k. cbn [wkills]. change (k ∈ ekills s' -> k ∈ ekills s). by rewrite (ek_step E s l s' Hst Hi).
    + intros [Hi _]. rewrite Hi in Hp. left. cbn. lia.
  - destruct (Runner.step P s l) as [s'|] eqn:Hst; [|done]. injection Hs as <-. pose proof (ok_runner P s Hok) as Hr. destruct Hle as [Hk Hd].
    assert (V : RunnerInv.cinv (Runner.s_core s)) by (apply (RunnerHist.a_inv P _ (RunnerThms.reach_all P _ Hr))).
    assert (Hdy : Runner.c_dying (Runner.s_core s) = true) by (by apply (RunnerThms.dying_all P _ (RunnerThms.reach_all P _ Hr))).
    split; [split|].
    + eapply in_mono; [by eapply TreeRunner.rlog_step|done].
    + apply (RunnerProgress.stopping_grows P s [l]); [cbn; by rewrite Hst|done].
    + destruct (RunnerProgressSpec.internal l) eqn:Hi.
      * pose proof (RunnerProgress.internal_less P _ l _ V Hdy Hi Hst) as Hm. split; [right|intros _]; left; cbn; lia.
      * cbn in Hn. pose proof (RunnerProgress.other_le P _ l _ Hi Hn Hst) as Hm. split.
        -- destruct (decide (RunnerProgress.measure s' = RunnerProgress.measure s)) as [He|He]; [left|right; left; cbn; lia]. split; [cbn; congruence|].
           intros k. cbn [wkills]. by rewrite (rk_step P s l s' Hst Hi Hn).
        -- intros [Hc _]. congruence.
  - destruct (Catacomb.step me s l) as [s'|] eqn:Hst; [|done]. injection Hs as <-. destruct Hok as [Hr _]. cbn in Hle, Hn.
    destruct (FairCatacomb.cstep_measure me s l s' Hr Hst Hn) as [H1 H2]. split; [|split].
    + destruct Hle as (src & e & H). exists src, e. by apply (TreeCatacomb.step_log me _ _ _ _ Hr Hst).
    + destruct (ck_request me s l s' Hr Hst Hn) as [?|H3]; [by right|]. destruct H1 as [H1|H1]; [left|by right]. split; [done|]. intros k. cbn [wkills]. by rewrite H3.
    + intros Hb. apply H2. exact Hb.
  - injection Hs as <-. split; [done|]. split; [right|intros _]; left; cbn; lia.
Qed.
Lemma nkill_cases nd : nkill nd = nd \/ (exists f, nd = NPlain false f /\ nkill nd = NPlain true f) \/ exists l, new_work l = false /\ nstep nd l = Some (nkill nd).
Proof.
  destruct nd as [E s|P s|me s|kd f]; unfold nkill; cbn [kill_label].
  - right; right. exists (LEngine Engine.LKill). done.
  - right; right. exists (LRunner (Runner.LCore Runner.KKill)). done.
  - destruct (nstep (NCatacomb me s) (LCatacomb (Catacomb.LKill None))) as [nd'|] eqn:E; [|by left]. right; right. exists (LCatacomb (Catacomb.LKill None)). by rewrite E.
  - destruct kd; [by left|]. right; left. by exists f.
Qed.
Lemma nkill_measure nd : node_ok nd -> leaving nd -> leaving (nkill nd) /\ le_m nd (nkill nd).
Proof.
  intros Hok Hle. destruct (nkill_cases nd) as [-> |[(f & -> & _)|(l & Hn & Hs)]]; [split; [done|apply le_m_refl]|done|].
  by destruct (nstep_measure nd l _ Hok Hle Hs Hn) as (? & ? & _).
Qed.
Lemma told_killed nd : node_ok nd -> told nd -> crashed nd = false -> killed nd \/ dead nd.
Proof.
  intros Hok Ht Hc. destruct nd as [E s|P s|me s|kd f]; cbn in *; auto.
  - destruct Ht as [?|Ht]; [auto|]. right. by apply (dead_log (NRunner P s) Hok).
  - destruct Ht as [?|Ht]; [auto|congruence].
Qed.
Lemma killed_told nd : killed nd -> told nd.
Proof. destruct nd; cbn; auto. Qed.

(** ** One step of the forest, seen from worker [n] *)
Lemma fstep_node (rank : nat -> nat) F l F' n nd : fstep F l = Some F' -> (forall m k c, f_link F' !! (m, k) = Some c -> rank c < rank m) -> f_nodes F !! n = Some nd ->
  exists nd', f_nodes F' !! n = Some nd' /\
    ((exists x cs, l = FStep n x cs /\ nstep nd x = Some nd') \/ ((forall x cs, l <> FStep n x cs) /\ (nd' = nd \/ nd' = nkill nd))).
Proof.
  intros Hs Hrk Hn. destruct l as [m nd0|m|m x cs]; cbn [fstep] in Hs.
  - destruct (f_nodes F !! m) eqn:Hm; [done|]. injection Hs as <-. exists nd. cbn. rewrite lookup_insert_ne by congruence. split; [done|]. right. split; [done|by left].
  - destruct (f_nodes F !! m) as [ndm|] eqn:Hm; [|done]. injection Hs as <-. cbn. destruct (decide (m = n)) as [-> |Hne].
    + rewrite lookup_insert. eexists; split; [done|]. right. split; [done|]. right. congruence.
    + rewrite lookup_insert_ne by done. exists nd. split; [done|]. right. split; [done|by left].
  - destruct (f_nodes F !! m) as [ndm|] eqn:Hm; [|done]. destruct (negb _); [done|]. destruct (negb _); [done|].
    destruct (nstep ndm x) as [nd1|] eqn:Hst; [|done]. destruct (add_links F m _) as [F1|] eqn:Hal; [|done]. injection Hs as <-.
    destruct (add_links_ok _ _ _ _ Hal) as (A1 & _ & _ & _). set (F2 := F1 <| f_nodes ::= <[m := nd1]> |>) in *.
    assert (Hlink : f_link (pass_kills F2 m ndm nd1) = f_link F2) by done. rewrite Hlink in Hrk.
    assert (Hnodes : f_nodes (pass_kills F2 m ndm nd1) !! n = (fun y => if now_killed F2 m ndm nd1 n then nkill y else y) <$> f_nodes F2 !! n).
    { unfold pass_kills. change (f_nodes (F2 <| f_nodes ::= map_imap (fun c nd0 => Some (if now_killed F2 m ndm nd1 c then nkill nd0 else nd0)) |>))
        with (map_imap (fun c nd0 => Some (if now_killed F2 m ndm nd1 c then nkill nd0 else nd0)) (f_nodes F2)). rewrite map_lookup_imap. by destruct (f_nodes F2 !! n). }
    rewrite Hnodes. destruct (decide (m = n)) as [-> |Hne].
    + assert (f_nodes F2 !! n = Some nd1) as -> by (subst F2; cbn; by rewrite lookup_insert).
      assert (now_killed F2 n ndm nd1 n = false) as ->.
      { apply not_true_iff_false. unfold now_killed. rewrite existsb_exists. intros ([[a k] c] & Hin & Hb). apply elem_of_list_In, elem_of_map_to_list in Hin.
        cbn in Hb. repeat (apply andb_true_iff in Hb as [Hb ?]). apply bool_decide_eq_true in Hb as ->. match goal with H : bool_decide (c = n) = true |- _ => apply bool_decide_eq_true in H as -> end.
        specialize (Hrk _ _ _ Hin). lia. }
      cbn. eexists; split; [done|]. left. exists x, cs. split; [done|]. congruence.
    + assert (f_nodes F2 !! n = Some nd) as -> by (subst F2; cbn; by rewrite lookup_insert_ne, A1).
      cbn. eexists; split; [done|]. right. split; [intros x' cs' [= ? ? ?]; congruence|]. destruct (now_killed _ _ _ _ _); auto.
Qed.
Lemma fstep_link F l F' m k c : fstep F l = Some F' -> f_link F !! (m, k) = Some c -> f_link F' !! (m, k) = Some c.
Proof.
  intros Hs H. destruct l as [n nd0|n|n x cs]; cbn [fstep] in Hs; repeat case_match; try done; simplify_eq; try done.
  all: match goal with Hal : add_links _ _ _ = Some _ |- _ => destruct (add_links_ok _ _ _ _ Hal) as (_ & A2 & _); by apply A2 end.
Qed.

(** ** An execution *)
Section tree.
  Variables (tr : nat -> forest) (lab : nat -> option flabel) (rank : nat -> nat) (root i0 : nat).
  Hypothesis Hr0 : freachable (tr 0).
  Hypothesis He : execution fstep tr lab.
  Hypothesis Hfok : forall j l, lab j = Some l -> fok l.
  Hypothesis Hrk : forall j m k c, f_link (tr j) !! (m, k) = Some c -> rank c < rank m.
  Hypothesis Hfair : forall j m, below (tr j) root m -> not_starved fstep (bound_in m) tr lab.
  Hypothesis Hheed : forall j m, below (tr j) root m -> heeds m tr.
  Hypothesis Hsound : forall j, i0 <= j -> sound (tr j) root.
  Hypothesis Hnew : forall j m l cs, i0 <= j -> lab j = Some (FStep m l cs) -> below (tr j) root m -> new_work l = false.

  Lemma t_inv j : finv (tr j).
  Proof.
    apply (exec_inv fstep tr lab finv He 0); [by apply finv_reach| |lia]. intros k l _ El V Hs. apply (finv_step (tr k) l); [done|by eapply Hfok|done].
  Qed.
  Lemma t_link i j m k c : i <= j -> f_link (tr i) !! (m, k) = Some c -> f_link (tr j) !! (m, k) = Some c.
  Proof. intros Hj H. apply (exec_inv fstep tr lab (fun F => f_link F !! (m, k) = Some c) He i H); [|done]. intros a l _ _ Ha Hs. by eapply fstep_link. Qed.
  Lemma t_below i j m : i <= j -> below (tr i) root m -> below (tr j) root m.
  Proof. intros Hj H. clear Hfair Hheed Hsound Hnew. induction H as [x|x y z [k Hk] _ IH]; [apply rtc_refl|]. eapply rtc_l; [exists k; by eapply t_link|exact IH]. Qed.
  Lemma t_le i j n nd : i <= j -> f_nodes (tr i) !! n = Some nd -> exists nd', f_nodes (tr j) !! n = Some nd' /\ le nd nd'.
  Proof.
    intros Hj Hn. induction Hj as [|j Hj IH]; [exists nd; split; [done|apply le_refl]|]. destruct IH as (nd1 & Hn1 & Hl1).
    pose proof (He j) as Hej. destruct (lab j) as [l|] eqn:El; [|change (1 + j) with (S j) in Hej; rewrite Hej; eauto].
    destruct (fstep_node rank _ _ _ n nd1 Hej (Hrk _) Hn1) as (nd2 & Hn2 & Hc). exists nd2. split; [done|]. eapply le_trans; [done|]. pose proof (v_ok _ (t_inv j) _ _ Hn1) as Hok.
    destruct Hc as [(x & cs & _ & Hs)|[_ [-> | ->]]]; [by destruct (nstep_ok _ _ _ Hok Hs) as (_ & ? & _)|apply le_refl|by destruct (nkill_ok _ Hok) as (_ & ? & _)].
  Qed.
  (** While it is on its way out, its measure does not grow, and goes down with the steps that are bound to happen. *)
  Lemma t_step i n nd : i0 <= i -> below (tr i) root n -> f_nodes (tr i) !! n = Some nd -> leaving nd ->
    exists nd', f_nodes (tr (1 + i)) !! n = Some nd' /\ leaving nd' /\ le_m nd nd' /\ (forall l, lab i = Some l -> bound_in n (tr i) l -> lexlt (nmeasure nd') (nmeasure nd)).
  Proof.
    intros Hi Hbl Hn Hlv. pose proof (He i) as Hei. pose proof (v_ok _ (t_inv i) _ _ Hn) as Hok. destruct (lab i) as [l|] eqn:El.
    - destruct (fstep_node rank _ _ _ n nd Hei (Hrk _) Hn) as (nd' & Hn' & Hc). exists nd'. split; [done|]. destruct Hc as [(x & cs & -> & Hs)|[Hno Hc]].
      + destruct (nstep_measure nd x nd' Hok Hlv Hs (Hnew _ _ _ _ Hi El Hbl)) as (H1 & H2 & H3). split; [done|]. split; [done|]. intros l [= <-] (nd1 & x1 & cs1 & [= <- <-] & H5 & H6). apply H3. congruence.
      + assert (leaving nd' /\ le_m nd nd') as [H1 H2] by (destruct Hc as [-> | ->]; [split; [done|apply le_m_refl]|by apply nkill_measure]). split; [done|]. split; [done|].
        intros l' [= <-] (nd1 & x1 & cs1 & -> & _). by destruct (Hno x1 cs1).
    - exists nd. rewrite Hei. split; [done|]. split; [done|]. split; [apply le_m_refl|done].
  Qed.
  Lemma t_along i j n nd : i0 <= i -> i <= j -> below (tr i) root n -> f_nodes (tr i) !! n = Some nd -> leaving nd ->
    exists nd', f_nodes (tr j) !! n = Some nd' /\ leaving nd' /\ le_m nd nd'.
  Proof.
    intros Hi Hj Hbl Hn Hlv. induction Hj as [|j Hj (nd1 & H1 & H2 & H3)]; [exists nd; split; [done|]; split; [done|apply le_m_refl]|].
    destruct (t_step j n nd1) as (nd2 & H4 & H5 & H6 & _); [lia|by apply (t_below i)|done|done|]. exists nd2. split; [done|]. split; [done|]. by eapply le_m_trans.
  Qed.
  Definition ends (i n : nat) : Prop := exists j nd, i <= j /\ f_nodes (tr j) !! n = Some nd /\ dead nd.
  Lemma ends_later i i' n : i <= i' -> ends i' n -> ends i n.
  Proof. intros H (j & nd & Hj & ?). exists j, nd. split; [lia|done]. Qed.

  (** Finitely many that come to their ends have all done so at some time. *)
  Lemma all_end n (ks : list nat) i : (forall k, k ∈ ks -> exists c, f_link (tr i) !! (n, k) = Some c /\ ends i c) ->
    exists j, i <= j /\ forall k, k ∈ ks -> exists c nd, f_link (tr j) !! (n, k) = Some c /\ f_nodes (tr j) !! c = Some nd /\ dead nd.
  Proof.
    induction ks as [|k ks IH]; intros H; [exists i; split; [done|]; intros k Hk; by apply elem_of_nil in Hk|].
    destruct IH as (j & Hj & IH); [intros k' Hk'; apply H; by right|]. destruct (H k) as (c & Hl & a & nd & Ha & Hc & Hd); [by left|].
    exists (j `max` a). split; [lia|]. intros k'. rewrite elem_of_cons. intros [-> |Hk'].
    - destruct (t_le a (j `max` a) c nd) as (nd' & H1 & H2 & _); [lia|done|]. exists c, nd'. split; [eapply (t_link i); [lia|done]|]. split; [done|auto].
    - destruct (IH k' Hk') as (c' & nd1 & H1 & H2 & H3). destruct (t_le j (j `max` a) c' nd1) as (nd' & H4 & H5 & _); [lia|done|]. exists c', nd'. split; [eapply (t_link j); [lia|done]|]. split; [done|auto].
  Qed.

  Lemma leaves_ends n i nd : i0 <= i -> below (tr i) root n -> f_nodes (tr i) !! n = Some nd -> ready nd = true -> leaving nd ->
    (forall c j ndc, rank c < rank n -> i0 <= j -> below (tr j) root c -> f_nodes (tr j) !! c = Some ndc -> ready ndc = true -> killed ndc -> ends j c) -> ends i n.
  Proof.
    intros Hi Hbl Hn Hrd Hlv HIH. remember (nmeasure nd) as a eqn:Ea. revert i nd Ea Hi Hbl Hn Hrd Hlv. induction (lexlt_wf a) as [a _ IH]. intros i nd -> Hi Hbl Hn Hrd Hlv.
    assert (Hless : forall j ndj, i <= j -> f_nodes (tr j) !! n = Some ndj -> leaving ndj -> lexlt (nmeasure ndj) (nmeasure nd) -> ends i n).
    { intros j ndj Hj Hnj Hlj Hlt. apply (ends_later i j); [done|]. eapply (IH _ Hlt j ndj); try done; [lia|by apply (t_below i)|].
      destruct (t_le i j n nd Hj Hn) as (x & Hx & (_ & _ & Hr)). assert (x = ndj) as -> by congruence. by apply Hr. }
    assert (Hgo : forall j, i <= j -> ends i n \/ exists b ndb, j <= b /\ f_nodes (tr b) !! n = Some ndb /\ leaving ndb /\ nmeasure ndb = nmeasure nd /\ (forall k, k ∈ wkills ndb -> k ∈ wkills nd) /\ node_rest_at (tr b) n ndb).
    { intros j Hj. destruct (Hfair i n Hbl j) as (b & Hb & Hc). destruct (t_along i b n nd) as (ndb & H1 & H2 & H3); try done; [lia|]. destruct Hc as [(l & El & Hdue)|Hno].
      - left. destruct (t_step b n ndb) as (nd2 & H4 & H5 & H6 & H7); try done; [lia|by apply (t_below i); [lia|]|]. apply (Hless (1 + b) nd2); try done; [lia|]. eapply le_m_lt; [done|]. by apply (H7 l).
      - destruct H3 as [[H3 H4]|H3]; [right|left; apply (Hless b ndb); try done; lia]. exists b, ndb. do 5 (split; [done|]). intros l cs Hbt. apply Hno. by exists ndb, l, cs. }
    destruct (Hgo i) as [?|(b & ndb & Hb & Hnb & Hlb & Hmb & Hkb & Hqb)]; [done|done|].
    assert (Hblb : below (tr b) root n) by (by apply (t_below i)).
    (** those it called Kill on come to their ends *)
    destruct (all_end n (wkills ndb) b) as (j & Hj & Hall).
    { intros k Hk%wkills_killed. pose proof (t_inv b) as V. destruct (v_known _ V n ndb k Hnb (killed_known ndb k (v_ok _ V _ _ Hnb) Hk)) as [c Hl]. exists c. split; [done|].
      destruct (v_link _ V _ _ _ Hl) as (_ & ndc & Hndc & Hrdc). pose proof (v_killed _ V _ _ _ _ _ Hnb Hk Hl Hndc) as Ht.
      assert (Hblc : below (tr b) root c) by (eapply rtc_r; [done|by exists k]).
      destruct (told_killed ndc (v_ok _ V _ _ Hndc) Ht) as [Hd|Hd]; [eapply Hsound; [|done|done]; lia| |by exists b, ndc].
      apply (HIH c b ndc); try done; [by eapply Hrk|lia]. }
    destruct (t_along b j n ndb) as (ndj & Hnj & Hlj & Hcj); try done; [lia|].
    destruct (Hgo j) as [?|(d & ndd & Hd & Hnd & Hld & Hmd & _ & Hqd)]; [lia|done|].
    destruct (t_along b d n ndb) as (x & Hx & _ & Hmx); try done; [lia|lia|]. assert (x = ndd) as -> by congruence.
    destruct Hmx as [[_ Hsub]|Hlt]; [|exfalso; rewrite Hmd, Hmb in Hlt; unfold lexlt in Hlt; lia].
    exists d, ndd. split; [lia|]. split; [done|]. destruct (Hsound d ltac:(lia) n ndd) as [Hcr Hself]; [apply (t_below i); [lia|done]|done|].
    apply (node_done (tr d) n ndd (t_inv d)); try done; [|by apply leaving_dying|].
    - destruct (t_le i d n nd ltac:(lia) Hn) as (y & Hy & (_ & _ & Hr)). assert (y = ndd) as -> by congruence. by apply Hr.
    - intros k Hk%Hsub. destruct (Hall k Hk) as (c & ndc & H1 & H2 & H3). destruct (t_le j d c ndc Hd H2) as (nd' & H4 & H5 & _). destruct (H5 H3) as [e Hw].
      exists c, nd', e. split; [by eapply t_link|done].
  Qed.
  Lemma t_runner n i j P s : i <= j -> f_nodes (tr i) !! n = Some (NRunner P s) ->
    exists s', f_nodes (tr j) !! n = Some (NRunner P s') /\ forall ev, ev ∈ RunnerSpec.rlog s -> ev ∈ RunnerSpec.rlog s'.
  Proof.
    intros Hj Hn. induction Hj as [|j Hj (s1 & H1 & H2)]; [by exists s|]. pose proof (He j) as Hej. destruct (lab j) as [l|] eqn:El; [|change (1 + j) with (S j) in Hej; rewrite Hej; eauto].
    destruct (fstep_node rank _ _ _ n _ Hej (Hrk _) H1) as (nd2 & Hn2 & Hc). change (S j) with (1 + j). rewrite Hn2.
    assert (Hx : forall x nd2, nstep (NRunner P s1) x = Some nd2 -> exists s2, nd2 = NRunner P s2 /\ forall ev, ev ∈ RunnerSpec.rlog s -> ev ∈ RunnerSpec.rlog s2).
    { intros x y. unfold nstep. destruct (goexit x); [done|]. destruct x as [x|x|x|x]; try done. destruct (Runner.step P s1 x) as [s2|] eqn:E; [|done]. intros [= <-]. exists s2. split; [done|].
      intros ev Hev. eapply in_mono; [by eapply TreeRunner.rlog_step|auto]. }
    destruct Hc as [(x & cs & _ & Hs)|[_ [-> | ->]]].
    - destruct (Hx _ _ Hs) as (s2 & -> & ?). by exists s2.
    - by exists s1.
    - destruct (nkill_cases (NRunner P s1)) as [-> |[(f & ? & _)|(l' & _ & Hs)]]; [by exists s1|done|]. destruct (Hx _ _ Hs) as (s2 & -> & ?). by exists s2.
  Qed.
  Lemma killed_leaves n i nd : below (tr i) root n -> f_nodes (tr i) !! n = Some nd -> killed nd ->
    exists j nd', i <= j /\ f_nodes (tr j) !! n = Some nd' /\ leaving nd'.
  Proof.
    intros Hbl Hn Hk. destruct nd as [E s|P s|me s|kd f]; try (by eexists i, _). destruct (Hheed i n Hbl i P s Hn Hk) as (j & s' & Hj & Hs & Hst).
    exists j, (NRunner P s'). split; [done|]. split; [done|]. split; [|done].
    destruct (t_runner n i j P s Hj Hn) as (s'' & H1 & H2). assert (s'' = s') as -> by congruence. by apply H2.
  Qed.
  Lemma killed_ends n i nd : i0 <= i -> below (tr i) root n -> f_nodes (tr i) !! n = Some nd -> ready nd = true -> killed nd -> ends i n.
  Proof.
    remember (rank n) as r eqn:Er. revert n i nd Er. induction (lt_wf r) as [r _ IH]. intros n i nd -> Hi Hbl Hn Hrd Hk.
    destruct (killed_leaves n i nd Hbl Hn Hk) as (j & nd' & Hj & Hn' & Hlv). apply (ends_later i j); [done|].
    apply (leaves_ends n j nd'); try done; [lia|by apply (t_below i)| |].
    - destruct (t_le i j n nd Hj Hn) as (x & Hx & (_ & _ & Hr)). assert (x = nd') as -> by congruence. by apply Hr.
    - intros c a ndc Hlt Ha Hblc Hc Hrc Hkc. by apply (IH (rank c) Hlt c a ndc).
  Qed.
End tree.

Lemma exec_freach tr lab : freachable (tr 0) -> execution fstep tr lab -> (forall j l, lab j = Some l -> fok l) -> forall j, freachable (tr j).
Proof.
  intros H0 He Hf j. apply (exec_inv fstep tr lab freachable He 0 H0); [|lia]. intros k l _ El (ls & Hok & Hrun) Hs. exists (ls ++ [l]). split.
  - apply Forall_app. split; [done|]. apply Forall_singleton. by eapply Hf.
  - clear -Hrun Hs. revert Hrun. generalize finit. induction ls as [|x ls IH]; intros F; cbn; [intros [= ->]; by rewrite Hs|]. destruct (fstep F x); [|done]. apply IH.
Qed.
Lemma tree_dies tr lab (rank : nat -> nat) n i nd :
  freachable (tr 0) -> execution fstep tr lab -> (forall j l, lab j = Some l -> fok l) ->
  (forall j m k c, f_link (tr j) !! (m, k) = Some c -> rank c < rank m) ->
  (forall j m, below (tr j) n m -> not_starved fstep (bound_in m) tr lab /\ heeds m tr) ->
  (forall j, i <= j -> sound (tr j) n) ->
  (forall j m l cs, i <= j -> lab j = Some (FStep m l cs) -> below (tr j) n m -> new_work l = false) ->
  f_nodes (tr i) !! n = Some nd -> ready nd = true -> killed nd ->
  exists j nd', i <= j /\ f_nodes (tr j) !! n = Some nd' /\ dead nd' /\ forall c, descendant (tr j) n c -> exists ndc, f_nodes (tr j) !! c = Some ndc /\ dead ndc.
Proof.
  intros H0 He Hf Hrk Hfh Hs Hnw Hn Hrd Hk.
  destruct (killed_ends tr lab rank n i H0 He Hf Hrk (fun j m H => proj1 (Hfh j m H)) (fun j m H => proj2 (Hfh j m H)) Hs Hnw n i nd) as (j & nd' & Hj & Hn' & Hd); try done.
  exists j, nd'. split; [done|]. split; [done|]. split; [done|]. intros c. apply (nothing_left (tr j) n nd' c (exec_freach tr lab H0 He Hf j) Hn' Hd).
Qed.
