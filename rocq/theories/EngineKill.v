(** Kill discipline, cancellation, uninstall, getters, delays: proofs of C13, C16-C18, C20, C21, C23. *)
From stdpp Require Import gmap strings list relations.
From Coq Require Import ZArith.
From RecordUpdate Require Import RecordSet.
From Verif Require Import Err Tomb Order Validate ValidateSpec ValidateProofs Snapshot Engine EngineSpec EngineMicro EngineSteps EngineLog EngineSafety EngineFresh.
Import RecordSetNotations.

(** ** C13 *)
Record kinv (s : state) : Prop := {
  k_killed : forall g n w, EvKill g n w ∈ s_log s -> exists r, s_gors s !! g = Some r /\ g_name r = n /\
    pre_handover (g_pc r) = false /\
    (g_pc r <> PGone -> i_worker (info_of s n) = None \/ i_stopping (info_of s n) = true);
  k_kill : forall g r w, s_gors s !! g = Some r -> g_pc r = waiting_pc w ->
    i_worker (info_of s (g_name r)) = None \/ i_stopping (info_of s (g_name r)) = true ->
    EvKill g (g_name r) w ∈ s_log s;
  k_reg : forall n g w, registered (s_log s) n = Some (g, w) -> EvStartRet g n (inl w) ∈ s_log s;
  k_done : forall g, start_done (s_log s) g -> exists r, s_gors s !! g = Some r /\ pre_handover (g_pc r) = false
}.

Lemma waiting_pc_inj w w' : waiting_pc w = waiting_pc w' -> w = w'.
Proof. by destruct w, w'; intros [=]; subst. Qed.
Lemma waiting_not_gone w : waiting_pc w <> PGone.
Proof. by destruct w. Qed.

Lemma start_done_cons ev log g : start_done (ev :: log) g <->
  start_done log g \/ match ev with
    | EvRegister g' _ _ _ | EvKill g' _ _ | EvExit g' _ _ | EvStopped g' _ _ _ _ => g' = g
    | _ => False end.
Proof.
  unfold start_done. split.
  - intros (ev' & [->|H]%elem_of_cons & Hx); [by right|left; eauto].
  - intros [(ev' & H & Hx)|Hx]; [exists ev'; split; [by right|done]|exists ev; split; [by left|done]].
Qed.

Lemma active_info_stop E s g r : inv s -> linv E s -> s_gors s !! g = Some r -> g_pc r <> PGone ->
  exists i, s_current s !! g_name r = Some i /\ info_of s (g_name r) = i /\ gi_ok (dying s) (s_cancelled s) g (g_pc r) i.
Proof.
  intros V L Hr Hp. destruct (v_active s V _ _ Hr Hp) as (i & Hi & Hok). exists i. split; [done|].
  split; [by apply info_of_eq|done].
Qed.

Lemma stopped_inactive s n g r : inv s -> i_stopped (info_of s n) = true -> s_gors s !! g = Some r ->
  g_name r = n -> g_pc r = PGone.
Proof.
  intros V Hs Hr Hn. assert (g_pc r = PGone \/ g_pc r <> PGone) as [Hg|Hg] by (destruct (g_pc r); auto); [done|].
  destruct (v_active s V _ _ Hr Hg) as (i & Hi & []). rewrite Hn in Hi. rewrite (info_of_eq _ _ _ Hi) in Hs. congruence.
Qed.
Lemma uninstalled_info s n : inv s -> s_manifolds s !! n = None -> info_of s n = info0.
Proof. intros V Hn. unfold info_of. by rewrite not_installed_info. Qed.

Lemma step_killed E s D s' D' : inv s -> linv E s -> kinv s -> micro E s D s' D' ->
  forall g n w, EvKill g n w ∈ s_log s' -> exists r, s_gors s' !! g = Some r /\ g_name r = n /\
    pre_handover (g_pc r) = false /\
    (g_pc r <> PGone -> i_worker (info_of s' n) = None \/ i_stopping (info_of s' n) = true).
Proof.
  intros V L K H. pose proof (k_killed s K) as K1.
  assert (forall n, s_manifolds s !! n = None -> i_stopped (info_of s n) = true) as Hun.
  { intros n Hn. by rewrite uninstalled_info. }
  mnorm V; try exact K1; intros g' n' w' Hev; repeat (apply elem_of_cons in Hev as [Hev|Hev]); try done;
    try (by eapply K1); try (destruct (K1 _ _ _ Hev) as (q & Hr & Hn & Hp & Hi));
    try (match goal with Hg : s_gors s !! ?x = Some _ |- _ =>
      destruct (decide (x = g')) as [->|Hne];
      [rewrite Hg in Hr; injection Hr as <-; simpl in *; try done
      |try (by exists q; rewrite lookup_insert_ne by done)] end).
  - (* record *) exists q. split_and!; try done. intros Hpg.
    destruct (decide (n = n')) as [<-|Hne]; [|unfold info_of in *; simpl; lk; by apply Hi].
    destruct Hpg. eapply stopped_inactive; eauto.
  - (* launch *) exists q. rewrite lookup_insert_ne by (pose proof (v_next s V _ _ Hr); lia). split_and!; try done. intros Hpg.
    destruct (decide (n = n')) as [<-|Hne]; [|unfold info_of in *; simpl; lk; by apply Hi].
    destruct Hpg. eapply stopped_inactive; eauto.
  - (* stop, new *) injection Hev as -> -> ->.
    destruct (live_progress E s n V L H1 H2) as (g & (q & Hr & Hn & Hp)%(l_prog E s L) & Hc & _); [by destruct H0 as [? ->]|].
    rewrite Hc. simpl. exists q. split_and!; try done.
    + destruct (active_info_stop E s _ _ V L Hr Hp) as (i & Hi & Hii & []). rewrite Hn in *. rewrite Hii in *.
      destruct (g_pc q); simpl; try done; specialize (go_starting go_pc); congruence.
    + intros _. right. unfold info_of. simpl. by lk.
  - exists q. split_and!; try done. intros Hpg. specialize (Hi Hpg).
    destruct (decide (n = n')) as [<-|Hne]; unfold info_of in *; simpl; lk; [by right|done].
  - exists q. split_and!; try done. intros Hpg. specialize (Hi Hpg).
    destruct (decide (n = n')) as [<-|Hne]; unfold info_of in *; simpl; lk; [by right|done].
  - exists q. split_and!; try done. intros Hpg. 
    destruct (decide (n = n')) as [<-|Hne]; [|unfold info_of in *; simpl; lk; by apply Hi].
    destruct Hpg. eapply stopped_inactive; eauto.
  - (* get *) eexists. rewrite lookup_insert. done.
  - (* register *) exists q. rewrite lookup_insert_ne by done. split_and!; try done. intros Hpg.
    destruct (decide (n = n')) as [<-|Hnn]; [|unfold info_of in *; simpl; lk; by apply Hi].
    destruct Hne. by eapply (v_uniq s V g g').
  - (* refuse, new *) injection Hev as -> -> ->. eexists. rewrite lookup_insert. split; [done|]. simpl. split_and!; [done|by destruct w|].
    intros _. by left.
  - (* exit *) eexists. rewrite lookup_insert. split; [done|]. simpl. split_and!; [done|done|]. intros _. by apply Hi.
  - eexists. rewrite lookup_insert. split; [done|]. simpl. split_and!; [done|done|]. intros _. by apply Hi.
  - eexists. rewrite lookup_insert. done.
  - exists q. rewrite lookup_insert_ne by done. split_and!; try done. intros Hpg.
    destruct (decide (n = n')) as [<-|Hnn]; [|unfold info_of in *; simpl; lk; by apply Hi].
    destruct Hne. by eapply (v_uniq s V g g').
  - eexists. rewrite lookup_insert. done.
  - exists q. rewrite lookup_insert_ne by done. split_and!; try done. intros Hpg.
    destruct (decide (n = n')) as [<-|Hnn]; [|unfold info_of in *; simpl; lk; by apply Hi].
    destruct Hne. by eapply (v_uniq s V g g').
Qed.

Lemma step_kill E s D s' D' : inv s -> linv E s -> kinv s -> micro E s D s' D' ->
  forall g r w, s_gors s' !! g = Some r -> g_pc r = waiting_pc w ->
    i_worker (info_of s' (g_name r)) = None \/ i_stopping (info_of s' (g_name r)) = true ->
    EvKill g (g_name r) w ∈ s_log s'.
Proof.
  intros V L K H. pose proof (k_kill s K) as K2.
  assert (forall n, s_manifolds s !! n = None -> i_stopped (info_of s n) = true) as Hun.
  { intros n Hn. by rewrite uninstalled_info. }
  assert (forall n g r w, i_stopped (info_of s n) = true -> s_gors s !! g = Some r -> g_pc r = waiting_pc w -> n <> g_name r) as Hwait.
  { intros n g r w Hs Hr Hp ->. pose proof (stopped_inactive s _ g r V Hs Hr eq_refl). rewrite Hp in *. by destruct w. }
  mnorm V; try exact K2; intros g' r' w' Hr' Hp' Hw'; rewrite ?elem_of_cons; try (right; by apply K2); try (by apply K2);
    try (apply lookup_insert_Some in Hr' as [[<- <-]|[Hne Hr']]; simpl in *;
      [try (by destruct w')|try (by apply K2); try (right; by apply K2)]).
  - (* record *) assert (n <> g_name r') as Hne by (by eapply Hwait; eauto).
    right. apply K2; [done..|]. unfold info_of in *; simpl in *. by rewrite lookup_insert_ne in Hw' by done.
  - (* launch *) right. apply K2; [done..|].
    assert (n <> g_name r') as Hnn by (by eapply Hwait; eauto).
    unfold info_of in *; simpl in *. by rewrite lookup_insert_ne in Hw' by done.
  - (* stop *) destruct (decide (n = g_name r')) as [->|Hne].
    + destruct (live_progress E s _ V L H1 H2) as (g & Hg & Hc & _); [by destruct H0 as [? ->]|].
      assert (g_pc r' <> PGone) as Hpg by (rewrite Hp'; apply waiting_not_gone).
      assert (active s g' (g_name r')) as Ha by (by exists r').
      apply (l_prog E s L) in Ha. rewrite Hg in Ha. injection Ha as ->.
      rewrite Hc. simpl. left. f_equal.
      destruct (active_info_stop E s _ _ V L Hr' Hpg) as (i & Hi & Hii & []). rewrite Hii in *. rewrite Hp' in go_pc.
      destruct w'; simpl in go_pc.
      * destruct go_pc as [?|[Hx _]]; [congruence|]. specialize (go_starting Hx). congruence.
      * destruct go_pc as [_ [?|[Hx _]]]; [congruence|]. specialize (go_starting Hx). congruence.
    + right. right. apply K2; [done..|]. unfold info_of in *; simpl in *. by rewrite lookup_insert_ne in Hw' by done.
  - right. apply K2; [done..|]. destruct (decide (n = g_name r')) as [->|Hne]; [by left|].
    unfold info_of in *; simpl in *. by rewrite lookup_insert_ne in Hw' by done.
  - assert (n <> g_name r') as Hne by (by eapply Hwait; eauto).
    right. apply K2; [done..|]. unfold info_of in *; simpl in *. by rewrite lookup_delete_ne in Hw' by done.
  - (* get *) right. by apply (K2 _ _ _ H).
  - (* register *) exfalso. unfold info_of in Hw'; simpl in Hw'. rewrite lookup_insert in Hw'. simpl in Hw'.
    fold (info_of s n) in Hw'. destruct Hw'; congruence.
  - right. right. apply K2; [done..|]. destruct (decide (n = g_name r')) as [->|Hnn].
    + destruct Hne. eapply (v_uniq s V g g'); eauto; try done; rewrite Hp'; apply waiting_not_gone.
    + unfold info_of in *; simpl in *. by rewrite lookup_insert_ne in Hw' by done.
  - left. f_equal. symmetry. by apply waiting_pc_inj.
  - right. apply K2; [done..|]. destruct (decide (n = g_name r')) as [->|Hnn].
    + destruct Hne. eapply (v_uniq s V g g'); eauto; try done; rewrite Hp'; apply waiting_not_gone.
    + unfold info_of in *; simpl in *. by rewrite lookup_insert_ne in Hw' by done.
  - right. apply K2; [done..|]. destruct (decide (n = g_name r')) as [->|Hnn].
    + destruct Hne. eapply (v_uniq s V g g'); eauto; try done; rewrite Hp'; apply waiting_not_gone.
    + unfold info_of in *; simpl in *. by rewrite lookup_insert_ne in Hw' by done.
Qed.

Lemma step_reg E s D s' D' : inv s -> linv E s -> kinv s -> micro E s D s' D' ->
  forall n g w, registered (s_log s') n = Some (g, w) -> EvStartRet g n (inl w) ∈ s_log s'.
Proof.
  intros V L K H. pose proof (k_reg s K) as R.
  mnorm V; try exact R; intros xx gg ww; rewrite ?elem_of_cons; try (intros Hx%R; tauto).
  - destruct (decide (n = xx)) as [<-|Hne]; lk.
    + intros [= <- <-]. pose proof (l_phase E s L _ _ H) as [Hp _]. simpl in Hp. auto.
    + intros Hx%R. auto.
  - destruct (decide (n = xx)) as [<-|Hne]; lk; [done|]. intros Hx%R. auto.
  - destruct (decide (n = xx)) as [<-|Hne]; lk; [done|]. intros Hx%R. auto.
Qed.

Lemma step_done E s D s' D' : inv s -> linv E s -> kinv s -> micro E s D s' D' ->
  forall g, start_done (s_log s') g -> exists r, s_gors s' !! g = Some r /\ pre_handover (g_pc r) = false.
Proof.
  intros V L K H. pose proof (k_done s K) as R.
  mnorm V; try exact R; intros g' Hd; repeat (apply start_done_cons in Hd as [Hd|Hd]); simpl in Hd; try done;
    try (by apply R); try (destruct (R _ Hd) as (q & Hq & Hp));
    try (match goal with Hg : s_gors s !! ?x = Some _ |- _ =>
      destruct (decide (x = g')) as [->|Hne];
      [rewrite Hg in Hq; injection Hq as <-; simpl in *; first [done | eexists; rewrite lookup_insert; by split]
      |exists q; by rewrite lookup_insert_ne by done] end).
  all: try (subst g'; eexists; rewrite lookup_insert; split; [done|]; by try destruct w).
  - exists q. rewrite lookup_insert_ne by (pose proof (v_next s V _ _ Hq); lia). done.
  - (* kill in stop *)
    destruct (live_progress E s _ V L H1 H2) as (g & Hg & Hc & _); [by destruct H0 as [? ->]|].
    rewrite Hc in Hd. simpl in Hd. subst g'. apply (l_prog E s L) in Hg as (r & Hr & Hn & Hp). exists r. split; [done|].
    destruct (active_info_stop E s _ _ V L Hr Hp) as (i & Hi & Hii & []). rewrite Hn in *. rewrite Hii in *.
    destruct (g_pc r); simpl; try done; specialize (go_starting go_pc); congruence.
Qed.

Lemma kinv_micro E s D s' D' : inv s -> linv E s -> kinv s -> micro E s D s' D' -> kinv s'.
Proof.
  intros V L K H. split; [by eapply step_killed|by eapply step_kill|by eapply step_reg|by eapply step_done].
Qed.

Lemma reachable_kinv E s : reachable E s -> kinv s.
Proof.
  intros Hr. apply (reach_ind2 E (fun s D => kinv s)); [| |done].
  - split; simpl; try done; [intros g n w Hx; by apply elem_of_nil in Hx|].
    intros g (ev & Hx & _). by apply elem_of_nil in Hx.
  - intros s1 D1 s2 D2 V1 L1 V2 L2 HP Hm. by apply (kinv_micro E s1 D1 s2 D2).
Qed.
