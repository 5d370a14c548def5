(** Every attempt of the engine follows the automaton of C89. *)
From stdpp Require Import gmap strings list.
From Coq Require Import ZArith Lia.
From RecordUpdate Require Import RecordSet.
From Verif Require Import Err Tomb Snapshot Engine EngineSpec EngineMicro EngineSteps EngineLog EngineSafety EngineFresh EngineKill EngineObs EngineLifeSpec.
Import RecordSetNotations.

(** What a goroutine's position says about the life of its attempt; [wk] and [stp] are the worker and stopping flag of its manifold's info. *)
Definition fit (p : pc) (st : stage) (wk : option worker) (stp : bool) : Prop :=
  match p with
  | PDelay _ => st = Planned
  | PStart => st = Calling
  | PReturned (inl w) | PSendStarted w => st = Returned w
  | PReturned (inr _) => st = Failed
  | PWait w => (st = Running w /\ wk = Some w /\ stp = false) \/ (st = Killed w /\ (wk = None \/ stp = true))
  | PSelf => (st = Running WSelf /\ wk = Some WSelf /\ stp = false) \/ (st = Killed WSelf /\ (wk = None \/ stp = true))
  | PSendStopped _ => ((st = Planned \/ st = Failed) /\ wk = None) \/ (exists w, st = Exited w false /\ wk = Some w /\ stp = false) \/
      (exists w, st = Exited w true /\ (wk = None \/ stp = true))
  | PGone => st = Over
  end.
Lemma fit_over p wk stp : p <> PGone -> ~ fit p Over wk stp.
Proof. destruct p as [ | |[]| | | | | ]; cbn; naive_solver. Qed.
Lemma fit_stop p st : fit p st None false -> fit p st None true.
Proof. destruct p as [ | |[]| | | | | ]; cbn; naive_solver. Qed.
Definition wk_of (s : state) (n : string) := i_worker (info_of s n).
Definition stp_of (s : state) (n : string) := i_stopping (info_of s n).
Definition lived (s : state) (g : nat) : Prop :=
  match s_gors s !! g with
  | None => life_of (s_log s) g = NotBegun
  | Some r => exists st, life_of (s_log s) g = At (g_name r) (bool_decide (g ∈ s_cancelled s)) st /\ fit (g_pc r) st (wk_of s (g_name r)) (stp_of s (g_name r))
  end.

(** Goroutines that are not concerned. *)
Lemma lived_frame s s' g : lived s g -> life_of (s_log s') g = life_of (s_log s) g -> s_gors s' !! g = s_gors s !! g -> (g ∈ s_cancelled s' <-> g ∈ s_cancelled s) ->
  (forall r, s_gors s !! g = Some r -> g_pc r <> PGone -> wk_of s' (g_name r) = wk_of s (g_name r) /\ stp_of s' (g_name r) = stp_of s (g_name r)) -> lived s' g.
Proof.
  unfold lived. intros H Hl Hg Hc Hi. rewrite Hl, Hg. destruct (s_gors s !! g) as [r|]; [|done]. destruct H as (st & -> & Hf). exists st.
  split. { f_equal. by apply bool_decide_ext. }
  assert (g_pc r = PGone \/ g_pc r <> PGone) as [Hp|Hp] by (destruct (g_pc r); auto); [by rewrite Hp in *|]. destruct (Hi r eq_refl Hp) as [-> ->]. done.
Qed.
Lemma life_skip ev log g : attempt_of ev <> Some g -> life_of (ev :: log) g = life_of log g.
Proof. intros H. cbn. by rewrite bool_decide_eq_false_2. Qed.
Lemma life_take ev log g : attempt_of ev = Some g -> life_of (ev :: log) g = next (life_of log g) ev.
Proof. intros H. cbn [life_of]. by rewrite bool_decide_eq_true_2. Qed.

(** A step of one goroutine that does not touch the infos. *)
Lemma lived_move s s' g0 : (forall g, lived s g) -> s_cancelled s' = s_cancelled s -> s_current s' = s_current s ->
  (forall g, g <> g0 -> s_gors s' !! g = s_gors s !! g) -> (forall g, g <> g0 -> life_of (s_log s') g = life_of (s_log s) g) -> lived s' g0 -> forall g, lived s' g.
Proof.
  intros H Hc Hi Hg Hl H0 g. destruct (decide (g = g0)) as [->|Hne]; [done|]. apply (lived_frame s); auto.
  - by rewrite Hc.
  - intros r _ _. unfold wk_of, stp_of, info_of. by rewrite Hi.
Qed.

(** The infos of other names, and of attempts that are over. *)
Lemma lived_info s s' g0 n : inv s -> (forall g, lived s g) -> (forall g, g <> g0 -> g ∈ s_cancelled s' <-> g ∈ s_cancelled s) ->
  (forall n', n' <> n -> info_of s' n' = info_of s n') ->
  (forall g r, g <> g0 -> s_gors s !! g = Some r -> g_name r = n -> g_pc r = PGone) ->
  (forall g, g <> g0 -> s_gors s' !! g = s_gors s !! g) -> (forall g, g <> g0 -> life_of (s_log s') g = life_of (s_log s) g) -> lived s' g0 -> forall g, lived s' g.
Proof.
  intros V H Hc Hi Hn Hg Hl H0 g. destruct (decide (g = g0)) as [->|Hne]; [done|]. apply (lived_frame s); auto.
  intros r Hr Hp. assert (g_name r <> n) as Hnn. { intros Hx. destruct Hp. by eapply Hn. } unfold wk_of, stp_of. by rewrite Hi.
Qed.

Ltac local Hg :=
  lazymatch type of Hg with s_gors ?s !! ?g = Some _ =>
  match goal with W : forall g, lived s g |- _ =>
    apply (lived_move s _ g W); [done|done|intros g' ?; cbn; by rewrite lookup_insert_ne|intros g' ?; try done; cbn [s_log]; try (apply life_skip; cbn; congruence)|];
    specialize (W g); unfold lived in W |- *; rewrite Hg in W; cbn; rewrite lookup_insert; cbn in W |- *;
    destruct W as (st & Hw & Hf)
  end end.
Ltac arrow_ Hw := rewrite ?bool_decide_eq_true_2 by done; rewrite Hw; cbn; rewrite ?bool_decide_eq_true_2 by done.

Lemma lived_micro E s D s' D' : inv s -> linv E s -> kinv s -> micro E s D s' D' -> (forall g, lived s g) -> forall g, lived s' g.
Proof.
  intros V L K H W.
  assert (forall n, s_manifolds s !! n = None -> i_stopped (info_of s n) = true) as Hun.
  { intros n Hn. by rewrite uninstalled_info. }
  assert (forall n g r, i_stopped (info_of s n) = true -> s_gors s !! g = Some r -> g_name r = n -> g_pc r = PGone) as Hst.
  { intros n g r Hs Hr Hn. by eapply stopped_inactive. }
  mnorm V; try exact W;
    try (intros g0; apply (lived_frame s); [apply W|done|done|done|done]).
  - (* record *) intros g0. apply (lived_frame s); [apply W|done|done|done|]. intros r Hr Hp.
    assert (g_name r <> n) as Hne. { intros Hx. destruct Hp. by eapply Hst; [apply Hun| |]. }
    unfold wk_of, stp_of, info_of. cbn. by rewrite lookup_insert_ne.
  - (* launch *) pose proof (W (s_next s)) as W0. unfold lived in W0. destruct (s_gors s !! s_next s) as [r|] eqn:Hg; [apply (v_next s V) in Hg; lia|].
    apply (lived_info s _ (s_next s) n V W); [done| | | | |].
    + intros n' Hn. unfold info_of. cbn. by rewrite lookup_insert_ne.
    + intros g r _ Hr Hn. by eapply Hst.
    + intros g Hne. cbn. by rewrite lookup_insert_ne.
    + intros g Hne. apply life_skip. cbn. congruence.
    + unfold lived. cbn. rewrite lookup_insert. cbn. exists Planned. split; [|done]. rewrite bool_decide_eq_true_2 by done. rewrite W0. cbn.
      rewrite bool_decide_eq_false_2; [done|]. intros Hc%(v_canc s V). lia.
  - (* stop, with a worker *) destruct (live_progress E s n V L H1 H2) as (g & Hpr & Hc & _); [by destruct H0 as [? ->]|]. pose proof Hpr as (q & Hr & Hn & Hp)%(l_prog E s L).
    destruct (active_info_stop E s g q V L Hr Hp) as (i & Hi & Hii & []). rewrite Hn in *. rewrite Hii in *. rewrite H2 in go_cancel. destruct go_cancel as [_ Hnc].
    rewrite Hc. cbn [default]. apply (lived_info s _ g n V W).
    { intros g' Hne. cbn. set_solver. }
    { intros n' Hne. unfold info_of. cbn. by rewrite lookup_insert_ne. }
    { intros g' r Hne Hr' Hn'. assert (g_pc r = PGone \/ g_pc r <> PGone) as [?|Hp'] by (destruct (g_pc r); auto); [done|]. destruct Hne. eapply (v_uniq s V g' g r q); congruence. }
    { done. }
    { intros g' Hne. cbn -[life_of]. rewrite ?life_skip by (cbn; congruence). done. }
    specialize (W g). unfold lived, wk_of, stp_of in W |- *. rewrite Hr in W. rewrite Hn, Hii, H2 in W. destruct W as (st & Hw & Hf). rewrite (bool_decide_eq_false_2 _ Hnc) in Hw.
    cbn. rewrite Hr, Hn. unfold info_of. cbn. rewrite lookup_insert. cbn. rewrite !(bool_decide_eq_true_2 (Some g = Some g)) by done. rewrite Hw. cbn. rewrite !(bool_decide_eq_true_2 (n = n)) by done.
    rewrite (bool_decide_eq_true_2 (g ∈ {[g]} ∪ s_cancelled s)) by set_solver.
    match goal with Hw' : i_worker i = Some ?w |- _ => rewrite Hw' in *; rename Hw' into Hwk end.
    assert (i_starting i = false) as Hns by (destruct (i_starting i); [specialize (go_starting eq_refl); congruence|done]).
    destruct (g_pc q) as [ | | |w'|w'| |e' | ] eqn:Hpc; cbn in Hf, go_pc; try congruence.
    + destruct Hf as [(-> & [= ->] & _)|(-> & [?|?])]; [|done|done]. cbn. rewrite !bool_decide_eq_true_2 by done. exists (Killed w'). split; [done|]. cbn. auto.
    + destruct Hf as [(-> & [= ->] & _)|(-> & [?|?])]; [|done|done]. cbn. rewrite !bool_decide_eq_true_2 by done. exists (Killed WSelf). split; [done|]. cbn. auto.
    + destruct Hf as [[_ ?]|[(w' & -> & [= ->] & _)|(w' & -> & [?|?])]]; try done. cbn. rewrite !bool_decide_eq_true_2 by done. exists (Exited w' true). split; [done|]. cbn. eauto 6.
  - (* stop, without *) destruct (live_progress E s n V L H1 H2) as (g & Hpr & Hc & _); [by destruct H0 as [? ->]|]. pose proof Hpr as (q & Hr & Hn & Hp)%(l_prog E s L).
    destruct (active_info_stop E s g q V L Hr Hp) as (i & Hi & Hii & []). rewrite Hn in *. rewrite Hii in *. rewrite H2 in go_cancel. destruct go_cancel as [_ Hnc].
    rewrite Hc. cbn [default]. apply (lived_info s _ g n V W).
    { intros g' Hne. cbn. set_solver. }
    { intros n' Hne. unfold info_of. cbn. by rewrite lookup_insert_ne. }
    { intros g' r Hne Hr' Hn'. assert (g_pc r = PGone \/ g_pc r <> PGone) as [?|Hp'] by (destruct (g_pc r); auto); [done|]. destruct Hne. eapply (v_uniq s V g' g r q); congruence. }
    { done. }
    { intros g' Hne. cbn -[life_of]. rewrite ?life_skip by (cbn; congruence). done. }
    specialize (W g). unfold lived, wk_of, stp_of in W |- *. rewrite Hr in W. rewrite Hn, Hii, H2 in W. destruct W as (st & Hw & Hf). rewrite (bool_decide_eq_false_2 _ Hnc) in Hw.
    cbn. rewrite Hr, Hn. unfold info_of. cbn. rewrite lookup_insert. cbn. rewrite !(bool_decide_eq_true_2 (Some g = Some g)) by done. rewrite Hw. cbn. rewrite !(bool_decide_eq_true_2 (n = n)) by done.
    rewrite (bool_decide_eq_true_2 (g ∈ {[g]} ∪ s_cancelled s)) by set_solver.
    match goal with Hw' : i_worker i = None |- _ => rewrite Hw' in *; rename Hw' into Hwk end.
    assert (st <> Over) as Hov. { intros ->. by eapply fit_over. }
    exists st. split; [by destruct st|]. by apply fit_stop.
  - (* uninstall *) intros g0. apply (lived_frame s); [apply W|done|done|done|]. intros r Hr Hp.
    assert (g_name r <> n) as Hne. { intros Hx. destruct Hp. by eapply Hst. }
    unfold wk_of, stp_of, info_of. cbn. by rewrite lookup_delete_ne.
  - (* fire *) match goal with Hg : s_gors s !! g = _ |- _ => local Hg end. cbn in Hf. subst st. exists Calling. split; [|done]. by arrow_ Hw.
  - (* abort *) match goal with Hg : s_gors s !! g = _ |- _ => destruct (v_active s V _ _ Hg) as (i & Hi & []); [done|]; local Hg end. cbn in *. subst st. exists Planned. split; [done|]. left.
    split; [by left|]. unfold wk_of, info_of. cbn. rewrite Hi. cbn. auto.
  - (* get *) match goal with Hg : s_gors s !! g = _ |- _ => local Hg end. exists st. split; [exact Hw|exact Hf].
  - (* ret *) match goal with Hg : s_gors s !! g = _ |- _ => local Hg end. cbn in Hf. subst st. destruct r as [w|e]; [exists (Returned w)|exists Failed]; (split; [|done]); by arrow_ Hw.
  - (* expire *) match goal with Hg : s_gors s !! g = _ |- _ => local Hg end. cbn in Hf. subst st. by exists (Returned w).
  - match goal with Hg : s_gors s !! g = _ |- _ => destruct (v_active s V _ _ Hg) as (i & Hi & []); [done|]; local Hg end. cbn in *. subst st. exists Failed. split; [done|]. left.
    split; [by right|]. unfold wk_of, info_of. cbn. rewrite Hi. cbn. auto.
  - (* register *) destruct (v_active s V _ _ H) as (i & Hi & []); [done|]. cbn in *. pose proof (info_of_eq s n i Hi) as Hii. rewrite Hii in *. rewrite H2 in go_cancel. destruct go_cancel as [_ Hnc].
    apply (lived_info s _ g n V W).
    { done. }
    { intros n' Hne. unfold info_of. cbn. by rewrite lookup_insert_ne. }
    { intros g' r Hne Hr' Hn'. assert (g_pc r = PGone \/ g_pc r <> PGone) as [?|Hp'] by (destruct (g_pc r); auto); [done|]. destruct Hne. by eapply (v_uniq s V g' g r). }
    { intros g' Hne. cbn. by rewrite lookup_insert_ne. }
    { intros g' Hne. cbn -[life_of]. rewrite ?life_skip by (cbn; congruence). done. }
    specialize (W g). unfold lived, wk_of, stp_of in W |- *. rewrite H in W. cbn in W |- *. destruct W as (st & Hw & ->). rewrite lookup_insert. cbn.
    unfold info_of. cbn. rewrite lookup_insert. cbn. rewrite (bool_decide_eq_false_2 (g ∈ s_cancelled s) Hnc) in Hw |- *. rewrite (bool_decide_eq_true_2 (Some g = Some g)) by done. rewrite Hw. cbn.
    rewrite (bool_decide_eq_true_2 (n = n)), (bool_decide_eq_true_2 (w = w)) by done. rewrite (bool_decide_eq_false_2 (None = Some g)) by done. exists (Running w). split; [done|]. unfold info_of in Hii. rewrite Hii, H2. destruct w; cbn; auto.
  - (* refuse *) local H. cbn in Hf. subst st. exists (Killed w). split; [by arrow_ Hw|]. unfold wk_of, info_of in *. cbn. unfold info_of in H0. rewrite H0. destruct w; cbn; auto.
  - (* exit *) local H. cbn in Hf. destruct Hf as [(-> & Ha & Hb)|(-> & Hk)]; [exists (Exited w false)|exists (Exited w true)]; (split; [by arrow_ Hw|]); unfold wk_of, stp_of, info_of in *; cbn; eauto 10.
  - local H. cbn in Hf. destruct Hf as [(-> & Ha & Hb)|(-> & Hk)]; [exists (Exited WSelf false)|exists (Exited WSelf true)]; (split; [by arrow_ Hw|]); unfold wk_of, stp_of, info_of in *; cbn; eauto 10.
  - (* end *) apply (lived_info s _ g n V W).
    { done. }
    { intros n' Hne. unfold info_of. cbn. by rewrite lookup_insert_ne. }
    { intros g' r Hne Hr' Hn'. assert (g_pc r = PGone \/ g_pc r <> PGone) as [?|Hp'] by (destruct (g_pc r); auto); [done|]. destruct Hne. by eapply (v_uniq s V g' g r). }
    { intros g' Hne. cbn. by rewrite lookup_insert_ne. }
    { intros g' Hne. cbn -[life_of]. rewrite ?life_skip by (cbn; congruence). done. }
    specialize (W g). unfold lived in W |- *. rewrite H in W. cbn in W |- *. destruct W as (st & Hw & Hf). rewrite lookup_insert. cbn.
    rewrite !bool_decide_eq_true_2 by done. rewrite Hw. cbn. rewrite bool_decide_eq_true_2 by done. exists Over. split; [|done].
    destruct Hf as [[[-> | ->] _]|[(w & -> & _)|(w & -> & _)]]; done.
  - apply (lived_info s _ g n V W).
    { done. }
    { intros n' Hne. unfold info_of. cbn. by rewrite lookup_insert_ne. }
    { intros g' r Hne Hr' Hn'. assert (g_pc r = PGone \/ g_pc r <> PGone) as [?|Hp'] by (destruct (g_pc r); auto); [done|]. destruct Hne. by eapply (v_uniq s V g' g r). }
    { intros g' Hne. cbn. by rewrite lookup_insert_ne. }
    { intros g' Hne. cbn -[life_of]. rewrite ?life_skip by (cbn; congruence). done. }
    specialize (W g). unfold lived in W |- *. rewrite H in W. cbn in W |- *. destruct W as (st & Hw & Hf). rewrite lookup_insert. cbn.
    rewrite !bool_decide_eq_true_2 by done. rewrite Hw. cbn. rewrite bool_decide_eq_true_2 by done. exists Over. split; [|done].
    destruct Hf as [[[-> | ->] _]|[(w & -> & _)|(w & -> & _)]]; done.
Qed.

Lemma reachable_lived E s : reachable E s -> forall g, lived s g.
Proof.
  intros Hr. assert (kinv s /\ forall g, lived s g) as [_ H]; [|done].
  apply (reach_ind2 E (fun s D => kinv s /\ forall g, lived s g)); [| |done].
  - split; [by apply (reachable_kinv E); exists []|]. intros g. unfold lived. cbn. done.
  - intros s1 D1 s2 D2 V1 L1 V2 L2 [K W] Hm. split; [by apply (kinv_micro E s1 D1 s2 D2)|by apply (lived_micro E s1 D1 s2 D2)].
Qed.
