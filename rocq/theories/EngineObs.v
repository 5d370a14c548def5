(** Kill discipline, cancellation, uninstall, getters, delays, reports: proofs of C13, C16-C21, C23. *)
From stdpp Require Import gmap strings list relations.
From Coq Require Import ZArith.
From RecordUpdate Require Import RecordSet.
From Verif Require Import Err Tomb Order Validate ValidateSpec ValidateProofs Snapshot Engine EngineSpec EngineMicro EngineSteps EngineLog EngineSafety EngineFresh EngineKill.
Import RecordSetNotations.

(** A history property proved with all invariants at hand. *)
Lemma hist_reach3 (E : env) (Q : event -> list event -> Prop) :
  (forall s D s' D', inv s -> linv E s -> kinv s -> prog_ok (s_log s) -> hist Q (s_log s) -> micro E s D s' D' -> hist Q (s_log s')) ->
  forall s pre ev post, reachable E s -> s_log s = pre ++ ev :: post -> Q ev post.
Proof.
  intros H s pre ev post Hr Heq. apply (hist_split Q pre). rewrite <- Heq. clear Heq pre ev post.
  enough (kinv s /\ prog_ok (s_log s) /\ hist Q (s_log s)) by tauto.
  apply (reach_ind2 E (fun s D => kinv s /\ prog_ok (s_log s) /\ hist Q (s_log s))); [| |done].
  - split; [|done]. split; simpl; try done; [intros g n w Hx; by apply elem_of_nil in Hx|].
    intros g (ev & Hx & _). by apply elem_of_nil in Hx.
  - intros s1 D1 s2 D2 V1 L1 V2 L2 (K & P & HP) Hm. split_and!.
    + by apply (kinv_micro E s1 D1 s2 D2).
    + by apply (prog_micro E s1 D1 s2 D2).
    + by apply (H s1 D1 s2 D2).
Qed.

(** ** C13 *)
Lemma kill_once E s pre g n w post : reachable E s -> s_log s = pre ++ EvKill g n w :: post ->
  (forall n' w', EvKill g n' w' ∉ post) /\ EvStartRet g n (inl w) ∈ post /\ (asked_to_stop post g \/ is_dying post).
Proof.
  intros Hr Heq.
  set (Q := fun ev post => match ev with EvKill g n w =>
    (forall n' w', EvKill g n' w' ∉ post) /\ EvStartRet g n (inl w) ∈ post /\ (asked_to_stop post g \/ is_dying post) | _ => True end).
  enough (Q (EvKill g n w) post) by done. revert Heq. apply (hist_reach3 E Q); [|done].
  subst Q. clear. intros s D s' D' V L K P Hh Hm. mnorm V; try done; split_and?; try done.
  - (* stop *)
    destruct (live_progress E s n V L H1 H2) as (g & Hg & Hc & _); [by destruct H0 as [? ->]|]. rewrite Hc. simpl.
    intros n' w' [?|Hx]%elem_of_cons; [done|].
    destruct (k_killed s K _ _ _ Hx) as (r & Hr & Hn & Hp & Hw).
    apply (l_prog E s L) in Hg as (r' & Hr' & Hn' & Hp'). assert (r' = r) as -> by congruence.
    destruct (Hw Hp') as [?|?]; congruence.
  - destruct (live_progress E s n V L H1 H2) as (g & Hg & Hc & _); [by destruct H0 as [? ->]|]. rewrite Hc. simpl.
    right. pose proof (l_regw E s L n) as Hreg. rewrite Heqo in Hreg.
    destruct (registered (s_log s) n) as [[g' w']|] eqn:Hr; [|done]. simpl in Hreg. injection Hreg as ->.
    pose proof (l_regg E s L _ _ _ Hr) as Hact. apply (l_prog E s L) in Hact. assert (g' = g) as -> by congruence.
    by apply (k_reg s K).
  - left. exists n. left.
  - (* refuse *) intros n' w' Hx. destruct (k_killed s K _ _ _ Hx) as (r & Hr & Hn & Hp & Hw).
    rewrite H in Hr. injection Hr as <-. done.
  - apply (l_phase E s L _ _ H).
  - destruct H1 as [Hx|Hx].
    + left. destruct (stopping_asked E s n V L Hx) as (g' & Hg' & Ha).
      apply (l_prog E s L) in Hg' as (r' & Hr' & Hn' & Hp'). 
      assert (g' = g) as -> by (by eapply (v_uniq s V g' g)). done.
    + right. by apply (l_dying E s L).
Qed.

(** Start returns at most once. *)
Lemma ret_once E s pre g n r post : reachable E s -> s_log s = pre ++ EvStartRet g n r :: post ->
  forall n' r', EvStartRet g n' r' ∉ post.
Proof.
  intros Hr Heq.
  set (Q := fun ev (post : list event) => match ev with EvStartRet g n r => forall n' r', EvStartRet g n' r' ∉ post | _ => True end).
  enough (Q (EvStartRet g n r) post) by done. revert Heq. apply (hist_reach E Q); [|done].
  subst Q. clear. intros s D s' D' V L V' L' Hh Hm. clear V' L'. mnorm V; try done; split_and?; try done.
  apply (l_phase E s L _ _ H).
Qed.

Lemma ret_unique E s g n r n' r' : reachable E s -> EvStartRet g n r ∈ s_log s -> EvStartRet g n' r' ∈ s_log s ->
  n = n' /\ r = r'.
Proof.
  intros Hr (pre & post & Heq)%elem_of_list_split Hx. pose proof (ret_once E s _ _ _ _ _ Hr Heq) as Hu.
  rewrite Heq in Hx. apply elem_of_app in Hx as [Hx|[Hx|Hx]%elem_of_cons].
  - apply elem_of_list_split in Hx as (l1 & l2 & ->). rewrite <- app_assoc in Heq. simpl in Heq.
    exfalso. eapply (ret_once E s _ _ _ _ _ Hr Heq n r). rewrite elem_of_app, elem_of_cons. auto.
  - by injection Hx as <- <-.
  - by apply Hu in Hx.
Qed.

(** Once the loop has seen that it is dying, everything is stopped or asked to stop. *)
Definition shot_inv (s : state) (D : gset string) : Prop :=
  s_oneShot s = false -> forall n i, s_current s !! n = Some i ->
    n ∈ D \/ i_stopped i = true \/ i_stopping i = true.

Lemma shot_micro E s D s' D' : inv s -> shot_inv s D -> micro E s D s' D' -> shot_inv s' D'.
Proof.
  unfold shot_inv. intros V H Hm. pose proof (v_shot s V) as Hd. mnorm V; try done; intros Ho k i;
    try (specialize (Hd Ho)); try congruence.
  - rewrite lookup_insert_Some. intros [[<- <-]|[? Hi]]; [auto|].
    destruct (H Ho _ _ Hi) as [Hx|Hx]; [by apply elem_of_empty in Hx|auto].
  - rewrite lookup_insert_Some. intros [[<- <-]|[? Hi]]; [auto|]. destruct (H Ho _ _ Hi); [left; set_solver|auto].
  - rewrite lookup_insert_Some. intros [[<- <-]|[? Hi]]; [auto|]. destruct (H Ho _ _ Hi); [left; set_solver|auto].
  - intros Hi. destruct (H Ho _ _ Hi) as [Hx|Hx]; [|auto]. destruct (decide (k = n)) as [->|]; [|left; set_solver].
    right. rewrite (info_of_eq _ _ _ Hi) in H0. destruct H0 as [?|[_ ?]]; auto.
  - rewrite lookup_insert_Some; intros [[<- <-]|[? Hi]]; [auto|];
    destruct (H Ho _ _ Hi) as [Hx|Hx]; [by apply elem_of_empty in Hx|auto].
  - rewrite lookup_insert_Some; intros [[<- <-]|[? Hi]]; [auto|];
    destruct (H Ho _ _ Hi) as [Hx|Hx]; [by apply elem_of_empty in Hx|auto].
  - rewrite lookup_insert_Some; intros [[<- <-]|[? Hi]]; [auto|];
    destruct (H Ho _ _ Hi) as [Hx|Hx]; [by apply elem_of_empty in Hx|auto].
  - rewrite lookup_insert_Some; intros [[<- <-]|[? Hi]]; [auto|];
    destruct (H Ho _ _ Hi) as [Hx|Hx]; [by apply elem_of_empty in Hx|auto].
  - intros Hi. left. apply elem_of_dom. eauto.
Qed.

Lemma shot_reach E s : reachable E s -> shot_inv s ∅.
Proof.
  intros Hr. apply (reach_ind2 E (fun s D => shot_inv s D)); [done| |done].
  intros s1 D1 s2 D2 V1 L1 V2 L2 HP Hm. by apply (shot_micro E s1 D1 s2 D2).
Qed.
Lemma wanted_stop_killed E s g n w : reachable E s ->
  step E s LDying = None -> (forall h, step E s (LExpire h) = None) -> (forall h, step E s (LStarted h) = None) ->
  (forall h, step E s (LStartedDying h) = None) ->
  EvStartRet g n (inl w) ∈ s_log s -> ~ worker_exited (s_log s) g ->
  asked_to_stop (s_log s) g \/ is_dying (s_log s) ->
  EvKill g n w ∈ s_log s \/ (w = WSelf /\ EvDead ∈ s_log s).
Proof.
  intros Hr Q1 Q2 Q3 Q4 Hret Hnx Hwant.
  destruct (reachable_linv E s Hr) as [V L]. pose proof (reachable_kinv E s Hr) as K.
  destruct (l_ret E s L _ _ _ Hret) as (r & Hg & Hn & Hp1 & Hp2 & Hsc).
  pose proof (l_phase E s L _ _ Hg) as Hph.
  destruct r as [n0 f sn x al p]. simpl in *. subst n0.
  assert (forall w', EvStartRet g n (inl w') ∈ s_log s -> w' = w) as Huni.
  { intros w' Hw'. by destruct (ret_unique E s _ _ _ _ _ Hr Hret Hw') as [_ [= ->]]. }
  assert (p = PGone \/ p <> PGone) as [->|Hpg] by (destruct p; auto).
  { exfalso. destruct Hph as [?|[(n' & e' & Hf)|?]]; try done. by destruct (ret_unique E s _ _ _ _ _ Hr Hret Hf). }
  destruct (v_active s V _ _ Hg Hpg) as (i & Hi & []). simpl in *.
  assert (i_worker i = None \/ i_stopping i = true -> forall w', p = waiting_pc w' -> EvKill g n w ∈ s_log s) as Hk.
  { intros Hor w' ->. assert (w' = w) as ->. { apply Huni. destruct w'; simpl in Hph; tauto. }
    apply (k_kill s K _ _ w Hg); simpl; [done|]. by rewrite (info_of_eq _ _ _ Hi). }
  assert (i_worker i <> None -> i_stopping i = false -> s_running s = false) as Hrun0.
  { intros Hw Hst. destruct Hwant as [Ha|Hd]; [apply (l_canc E s L) in Ha; rewrite Hst in go_cancel; tauto|].
    apply (l_dying E s L) in Hd. simpl in Q1. destruct (s_running s) eqn:Hrun; [|done]. rewrite Hd in Q1.
    destruct (s_oneShot s) eqn:Hos; [done|]. destruct (shot_reach E s Hr Hos _ _ Hi) as [Hx|[Hx|Hx]]; [by apply elem_of_empty in Hx| |]; congruence. }
  destruct p; simpl in *; try done.
  - by destruct (Hp2 ready).
  - specialize (Q2 g). simpl in Q2. rewrite Hg in Q2. done.
  - exfalso. specialize (Q3 g). specialize (Q4 g). simpl in Q3, Q4. rewrite Hg in Q3, Q4.
    pose proof (v_run s V) as Hrun. destruct (s_running s); [done|]. destruct Hrun as (_ & _ & Hd). by rewrite Hd in Q4.
  - destruct go_pc as [Hws Hor]. left.
    assert (PWait w0 = waiting_pc w0) as Hpc by (by destruct w0).
    destruct (i_worker i) eqn:Hw; [|eauto]. destruct (i_stopping i) eqn:Hst; [eauto|]. exfalso.
    specialize (Hrun0 ltac:(done) eq_refl). destruct (v_dead s V Hrun0 _ _ Hi) as [?|?]; [congruence|].
    destruct Hor as [?|[Hs _]]; [congruence|]. specialize (go_starting Hs). congruence.
  - assert (WSelf = w) as <- by (apply Huni; tauto).
    destruct (i_worker i) eqn:Hw; [|left; by apply (Hk (or_introl eq_refl) WSelf)].
    destruct (i_stopping i) eqn:Hst; [left; by apply (Hk (or_intror eq_refl) WSelf)|].
    right. split; [done|]. apply (dead_running E s Hr). by apply Hrun0.
  - exfalso. destruct Hph as [?|[(n' & e' & Hf)|?]]; try done. by destruct (ret_unique E s _ _ _ _ _ Hr Hret Hf).
Qed.

(** ** C23: why an attempt is cancelled *)
Definition cause_inv (s : state) (D : gset string) : Prop :=
  dying s = false -> forall n g, n ∈ D -> in_progress (s_log s) n = Some g ->
    exists x l1 ev l2, last_change (s_log s) = Some x /\ s_log s = l1 ++ ev :: l2 /\ came_or_went ev l2 x /\ in_progress l2 n = Some g.

Lemma cause_frame (lc : option string) log log' n g : (exists new, log' = new ++ log) ->
  (exists x l1 ev l2, lc = Some x /\ log = l1 ++ ev :: l2 /\ came_or_went ev l2 x /\ in_progress l2 n = Some g) ->
  exists x l1 ev l2, lc = Some x /\ log' = l1 ++ ev :: l2 /\ came_or_went ev l2 x /\ in_progress l2 n = Some g.
Proof.
  intros [new ->] (x & l1 & ev & l2 & Hx & -> & Hc & Hp). exists x, (new ++ l1), ev, l2.
  by rewrite <- app_assoc.
Qed.

Lemma cause_micro E s D s' D' : inv s -> linv E s -> cause_inv s D -> micro E s D s' D' -> cause_inv s' D'.
Proof.
  unfold cause_inv. intros V L H Hm.
  assert (forall n, i_stopped (info_of s n) = true -> in_progress (s_log s) n = None) as Hst.
  { intros n Hs. destruct (in_progress (s_log s) n) as [g|] eqn:Hg; [|done].
    apply (l_prog E s L) in Hg as (r & Hr & Hn & Hp). destruct Hp. by eapply stopped_inactive. }
  destruct (micro_log E s D s' D' V Hm) as [new Hnew].
  destruct (micro_dying E s D s' D' V Hm) as [Hde|[_ Hde]]; [|congruence].
  rewrite Hde. intros Hd k g' Hk Hg'. specialize (H Hd).
  revert Hnew Hk Hg'. clear Hde. mnorm V; try done; intros Hnew Hk Hg'; try congruence;
    try (by apply elem_of_empty in Hk);
    try (eapply (cause_frame _ (s_log s)); [by exists new|apply H; [first [done|set_solver]|done]]).
  - (* record *) rewrite Hd in Hk. apply elem_of_singleton in Hk as ->. rewrite Hst in Hg'; [done|]. by rewrite uninstalled_info.
  - (* launch *) rewrite bool_decide_eq_false_2 in Hg' by set_solver. eapply (cause_frame _ (s_log s)); [by exists new|apply H; [set_solver|done]].
  - (* register *) exists n, [EvMetric n], (EvRegister g n w (s_now s)), (s_log s). done.
  - case_bool_decide as Hnk; [done|]. rewrite Hd in Hk. pose proof (l_regw E s L n) as Hrw.
    destruct (registered (s_log s) n) as [[g0 w0]|] eqn:Hreg.
    + eexists n, [], _, (s_log s). split_and!; [done|reflexivity|split; [done|by rewrite Hreg]|done].
    + exfalso. simpl in Hrw. rewrite <- Hrw in *. first [done|destruct (_ || _) in Hk; set_solver].
  - case_bool_decide as Hnk; [done|]. rewrite Hd in Hk. pose proof (l_regw E s L n) as Hrw.
    destruct (registered (s_log s) n) as [[g0 w0]|] eqn:Hreg.
    + eexists n, [], _, (s_log s). split_and!; [done|reflexivity|split; [done|by rewrite Hreg]|done].
    + exfalso. simpl in Hrw. rewrite <- Hrw in *. first [done|destruct (_ || _) in Hk; set_solver].
  - case_bool_decide as Hnk; [done|]. rewrite Hd in Hk. pose proof (l_regw E s L n) as Hrw.
    destruct (registered (s_log s) n) as [[g0 w0]|] eqn:Hreg.
    + eexists n, [], _, (s_log s). split_and!; [done|reflexivity|split; [done|by rewrite Hreg]|done].
    + exfalso. simpl in Hrw. rewrite <- Hrw in *. first [done|destruct (_ || _) in Hk; set_solver].
  - case_bool_decide as Hnk; [done|]. rewrite Hd in Hk. pose proof (l_regw E s L n) as Hrw.
    destruct (registered (s_log s) n) as [[g0 w0]|] eqn:Hreg.
    + eexists n, [], _, (s_log s). split_and!; [done|reflexivity|split; [done|by rewrite Hreg]|done].
    + exfalso. simpl in Hrw. rewrite <- Hrw in *. first [done|destruct (_ || _) in Hk; set_solver].
Qed.

Lemma cancel_cause E s pre g n post : reachable E s -> s_log s = pre ++ EvCancel g n :: post ->
  in_progress post n = Some g /\
  (is_dying post \/
   exists x m, last_change post = Some x /\ installed post n = Some m /\ x ∈ m_inputs m /\
     (NoDup (m_inputs m) -> exists l1 ev l2, post = l1 ++ ev :: l2 /\ came_or_went ev l2 x /\ in_progress l2 n = Some g)).
Proof.
  intros Hr Heq.
  set (Q := fun ev (post : list event) => match ev with EvCancel g n =>
    in_progress post n = Some g /\
    (is_dying post \/
   exists x m, last_change post = Some x /\ installed post n = Some m /\ x ∈ m_inputs m /\
     (NoDup (m_inputs m) -> exists l1 ev l2, post = l1 ++ ev :: l2 /\ came_or_went ev l2 x /\ in_progress l2 n = Some g)) | _ => True end).
  enough (Q (EvCancel g n) post) by done. apply (hist_split Q pre). rewrite <- Heq. clear Heq pre g n post.
  enough (cause_inv s ∅ /\ hist Q (s_log s)) by tauto.
  apply (reach_ind2 E (fun s D => cause_inv s D /\ hist Q (s_log s))); [| |done].
  { split; [|done]. intros ? n g Hn. by apply elem_of_empty in Hn. }
  clear s Hr. intros s D s' D' V L V' L' [C Hh] Hm. split; [by apply (cause_micro E s D s' D')|].
  clear V' L'. subst Q.
  assert (forall n, is_Some (s_manifolds s !! n) -> i_stopped (info_of s n) = false -> i_stopping (info_of s n) = false ->
    stop_cause s D n -> 
    in_progress (s_log s) n = Some (default 0 (i_cancel (info_of s n))) /\
    (is_dying (s_log s) \/
   exists x m, last_change (s_log s) = Some x /\ installed (s_log s) n = Some m /\ x ∈ m_inputs m /\
     (NoDup (m_inputs m) -> exists l1 ev l2, s_log s = l1 ++ ev :: l2 /\ came_or_went ev l2 x /\ in_progress l2 n = Some (default 0 (i_cancel (info_of s n)))))) as Hmain.
  { intros n Hm1 Hs Hp Hc.
    destruct (live_progress E s n V L Hs Hp) as (g & Hg & Hcc & _); [by destruct Hm1 as [? ->]|].
    rewrite Hcc. simpl. split; [done|].
    destruct (dying s) eqn:Hd; [left; by apply (l_dying E s L)|]. right.
    destruct Hc as [[_ ?]|(x & m & Hl & Hmm & Hx & Hnd)]; [congruence|].
    exists x, m. rewrite (l_inst E s L). split_and!; try done. intros Hno.
    destruct (Hnd Hno) as [Hin|?]; [|congruence].
    destruct (C Hd n g Hin Hg) as (x' & l1 & ev & l2 & Hl' & Hsp & Hch & Hpr).
    assert (x' = x) as -> by congruence. eauto 10. }
  mnorm V; try done; split_and?; try done; apply Hmain; try done.
Qed.

Lemma ctx_done_iff E s g : reachable E s ->
  (ctx_done s g = true <-> is_dying (s_log s) \/ asked_to_stop (s_log s) g).
Proof.
  intros [V L]%reachable_linv. unfold ctx_done.
  rewrite orb_true_iff, bool_decide_eq_true, (l_dying E s L), (l_canc E s L). done.
Qed.

(** ** C16 *)
Lemma installed_when_busy E s pre ev n post : reachable E s -> s_log s = pre ++ ev :: post ->
  ev_name ev = Some n -> is_Some (installed post n).
Proof.
  intros Hr Heq.
  set (Q := fun ev (post : list event) => forall n, ev_name ev = Some n -> is_Some (installed post n)).
  enough (Q ev post) by (intros; by eauto). revert Heq. apply (hist_reach E Q); [|done].
  subst Q. clear. intros s D s' D' V L V' L' Hh Hm. clear V' L'.
  assert (forall g n f sn x al p, s_gors s !! g = Some (mkGor n f sn x al p) -> p <> PGone -> is_Some (installed (s_log s) n)) as Hg.
  { intros g n f sn x al p Hg Hp. rewrite (l_inst E s L). apply (v_dom s V).
    destruct (v_active s V _ _ Hg Hp) as (i & Hi & _). eauto. }
  assert (forall n, is_Some (s_manifolds s !! n) -> is_Some (installed (s_log s) n)) as Hi.
  { intros n. by rewrite (l_inst E s L). }
  mnorm V; try done; split_and?; try done; intros k [= <-]; try (by apply Hi); try (by eapply Hg).
  all: eapply Hg; [done|]; by destruct w.
Qed.

Lemma uninstalled_until pre n post : (forall m, EvInstalled n m ∉ pre) -> installed (pre ++ EvUninstall n :: post) n = None.
Proof.
  induction pre as [|ev pre IH]; intros Hn; simpl; [by rewrite bool_decide_eq_true_2|].
  assert (forall m, EvInstalled n m ∉ pre) as Hn'. { intros m Hm. apply (Hn m). by right. }
  specialize (IH Hn'). destruct ev; try done.
  - case_bool_decide; [|done]. subst. destruct (Hn m). by left.
  - by case_bool_decide.
Qed.

Lemma uninstall_quiet E s l2 ev l1 n l0 : reachable E s -> s_log s = l2 ++ ev :: l1 ++ EvUninstall n :: l0 ->
  (forall m, EvInstalled n m ∉ l1) -> ev_name ev <> Some n.
Proof.
  intros Hr Heq Hn Hx. destruct (installed_when_busy E s _ _ _ _ Hr Heq Hx) as [m Hm].
  by rewrite uninstalled_until in Hm.
Qed.

Lemma uninstall_cause E s pre n post : reachable E s -> s_log s = pre ++ EvUninstall n :: post ->
  exists g raw e t l, post = EvStopped g n raw e t :: l /\ ~ asked_to_stop post g /\ ~ is_dying post /\
    is_const e KUninstall = true /\ is_Some (installed post n).
Proof.
  intros Hr Heq.
  set (Q := fun ev (post : list event) => match ev with EvUninstall n =>
  exists g raw e t l, post = EvStopped g n raw e t :: l /\ ~ asked_to_stop post g /\ ~ is_dying post /\
    is_const e KUninstall = true /\ is_Some (installed post n) | _ => True end).
  enough (Q (EvUninstall n) post) by done. revert Heq. apply (hist_reach E Q); [|done].
  subst Q. clear. intros s D s' D' V L V' L' Hh Hm. clear V' L'.
  mnorm V; try done; split_and?; try done.
  destruct (s_log s) as [|ev l] eqn:Hl; [done|]. simpl in H4. injection H4 as ->.
  exists g, raw, e, t, l. rewrite <- Hl. split_and!; try done.
  - by rewrite <- (l_canc E s L).
  - rewrite <- (l_dying E s L). by rewrite H2.
  - by rewrite (l_inst E s L).
Qed.

Lemma uninstalled_gone E s n : reachable E s -> installed (s_log s) n = None ->
  in_progress (s_log s) n = None /\ registered (s_log s) n = None /\ s_current s !! n = None /\
  (forall x, n ∉ dependents_of s x) /\
  (forall g r, s_gors s !! g = Some r -> g_name r = n -> g_pc r = PGone).
Proof.
  intros Hr Hi. destruct (reachable_linv E s Hr) as [V L]. rewrite (l_inst E s L) in Hi.
  assert (forall g r, s_gors s !! g = Some r -> g_name r = n -> g_pc r = PGone) as Hg.
  { intros g r Hg Hn. eapply stopped_inactive; [done| |done|done]. by rewrite uninstalled_info. }
  split_and!; try done.
  - destruct (in_progress (s_log s) n) eqn:Hp; [|done]. apply (l_prog E s L) in Hp as (r & Hr' & Hn & Hp).
    destruct Hp. by eapply Hg.
  - destruct (registered (s_log s) n) as [[g w]|] eqn:Hp; [|done]. apply (l_regg E s L) in Hp as (r & Hr' & Hn & Hp).
    destruct Hp. by eapply Hg.
  - by apply not_installed_info.
  - intros x. rewrite (v_deps s V). intros (m & Hm & _). congruence.
Qed.

(** ** C08: where errors come from *)
Lemma end_cause_cons ev log g n raw : (forall n' f t, ev <> EvStartCall g n' f t) ->
  end_cause log g n raw -> end_cause (ev :: log) g n raw.
Proof.
  intros Hev [H|[(e & H & ->)|(-> & Hs & H)]].
  - left. by right.
  - right. left. exists e. split; [by right|done].
  - right. right. split; [done|]. split.
    + intros (n' & f & t & [Hx|Hx]%elem_of_cons); [by eapply Hev|]. apply Hs. by eexists _, _, _.
    + destruct H as [H|[n' H]]; [left; by right|right; exists n'; by right].
Qed.

Lemma end_cause_micro E s D s' D' : inv s -> linv E s -> micro E s D s' D' ->
  (forall g n f sn x al e, s_gors s !! g = Some (mkGor n f sn x al (PSendStopped e)) -> end_cause (s_log s) g n e) ->
  (forall g n f sn x al e, s_gors s' !! g = Some (mkGor n f sn x al (PSendStopped e)) -> end_cause (s_log s') g n e).
Proof.
  intros V L Hm H.
  mnorm V; try exact H; intros q n' f' sn' x' al1 e1;
    try (rewrite lookup_insert_Some; intros [[Hqq Hqe]|[Hqq Hqe]]); try intros Hqe;
    try discriminate; try (repeat (apply end_cause_cons; [done|]); by eapply H).
  all: try done.
  - apply end_cause_cons; [|by eapply H]. intros ??? [= ->]. done.
  - injection Hqe as <- <- <- <- <- <-. subst q. right. right. split; [done|].
    destruct (l_phase E s L _ _ H0) as [Hp _]. split; [done|].
    by rewrite <- (l_dying E s L), <- (l_canc E s L).
  - injection Hqe as <- <- <- <- <- ->. subst q. apply end_cause_cons; [done|]. by eapply H.
  - injection Hqe as <- <- <- <- <- <-. subst q. right. left. destruct (l_phase E s L _ _ H0) as [Hp _]. simpl in Hp.
    exists e. split; [done|]. by subst.
  - injection Hqe. by destruct w.
  - injection Hqe. by destruct w.
  - injection Hqe as <- <- <- <- <- <-. subst q. left. apply elem_of_cons. by left.
  - injection Hqe as <- <- <- <- <- <-. subst q. left. apply elem_of_cons. by left.
Qed.

Lemma stopped_cause E s pre g n raw e t post : reachable E s -> s_log s = pre ++ EvStopped g n raw e t :: post ->
  end_cause post g n raw /\ e = after_filter post n raw /\ in_progress post n = Some g.
Proof.
  intros Hr Heq.
  set (Q := fun ev (post : list event) => match ev with EvStopped g n raw e t =>
    end_cause post g n raw /\ e = after_filter post n raw /\ in_progress post n = Some g | _ => True end).
  enough (Q (EvStopped g n raw e t) post) by done. apply (hist_split Q pre). rewrite <- Heq. clear Heq pre g n raw e t post.
  enough ((forall g n f sn x al e, s_gors s !! g = Some (mkGor n f sn x al (PSendStopped e)) -> end_cause (s_log s) g n e)
     /\ hist Q (s_log s)) by tauto.
  apply (reach_ind2 E (fun s D => (forall g n f sn x al e, s_gors s !! g = Some (mkGor n f sn x al (PSendStopped e)) -> end_cause (s_log s) g n e)
     /\ hist Q (s_log s))); [| |done].
  { split; [|done]. intros g n f sn x al e Hx. done. }
  clear s Hr. intros s D s' D' V L V' L' [C Hh] Hm. split; [by apply (end_cause_micro E s D s' D')|].
  clear V' L'. subst Q. mnorm V; try done; split_and?; try done; try (by eapply C);
    try (apply (l_prog E s L); by eexists).
  all: unfold after_filter, filtered, manifold_of; rewrite (l_inst E s L); simpl; by destruct (s_manifolds s !! n).
Qed.

(** ** C17, C18 *)
Lemma attempt_of_in log g n sn l : attempt_of log g = Some (n, sn, l) -> exists l1 t d, log = l1 ++ EvAttempt g n sn t d :: l.
Proof.
  induction log as [|ev log IH]; [done|]. simpl.
  assert (attempt_of log g = Some (n, sn, l) -> exists l1 t d, ev :: log = l1 ++ EvAttempt g n sn t d :: l) as Hx.
  { intros (l1 & t & d & ->)%IH. by exists (ev :: l1), t, d. }
  destruct ev; try done. case_bool_decide; [|done]. intros [= <- <- <-]. subst. by exists [], t, d.
Qed.

Definition att_inv (s : state) : Prop :=
  forall g r, s_gors s !! g = Some r -> exists l, attempt_of (s_log s) g = Some (g_name r, g_snap r, l) /\
    exists m, installed l (g_name r) = Some m /\ m_start m = g_start r.
Lemma att_micro E s D s' D' : inv s -> linv E s -> att_inv s -> micro E s D s' D' -> att_inv s'.
Proof.
  unfold att_inv. intros V L H Hm. destruct Hm; try (mcomp V; first [exact H|intros q rr;
    rewrite lookup_insert_Some; intros [[<- <-]|[? Hq]]; [|by eapply H]; simpl;
    match goal with Hg : s_gors s !! _ = Some _ |- _ => exact (H _ _ Hg) end]).
  - intros q rr. unfold launch. simpl. rewrite lookup_insert_Some. intros [[<- <-]|[? Hq]].
    + rewrite bool_decide_eq_true_2 by done. eexists. cbn [g_name g_snap]. split; [reflexivity|].
      rewrite (l_inst E s L). destruct H1 as [m Hm]. exists m. split; [done|]. simpl. unfold manifold_of. simpl. by rewrite Hm.
    + rewrite bool_decide_eq_false_2 by (pose proof (v_next s V _ _ Hq); lia). by apply H.
Qed.

Lemma get_contract E s pre g k out r call post : reachable E s -> s_log s = pre ++ EvGet g k out r call :: post ->
  exists n sn l, attempt_of post g = Some (n, sn, l) /\
    ((forall n' r', EvStartRet g n' r' ∉ post) -> start_called post g -> get_spec (e_outf E) sn k out r call) /\
    (start_done post g -> r = Some (EMsg MsgExpired) /\ call = None).
Proof.
  intros Hr Heq.
  set (Q := fun ev (post : list event) => match ev with EvGet g k out r call =>
    exists n sn l, attempt_of post g = Some (n, sn, l) /\
    ((forall n' r', EvStartRet g n' r' ∉ post) -> start_called post g -> get_spec (e_outf E) sn k out r call) /\
    (start_done post g -> r = Some (EMsg MsgExpired) /\ call = None) | _ => True end).
  enough (Q (EvGet g k out r call) post) by done. apply (hist_split Q pre). rewrite <- Heq. clear Heq pre g k out r call post.
  pose proof (reachable_kinv E s Hr) as _.
  enough (kinv s /\ att_inv s /\ hist Q (s_log s)) by tauto.
  apply (reach_ind2 E (fun s D => kinv s /\ att_inv s /\ hist Q (s_log s))); [| |done].
  { split_and!; [|done|done]. split; simpl; try done; [intros g n w Hx; by apply elem_of_nil in Hx|].
    intros g (ev & Hx & _). by apply elem_of_nil in Hx. }
  clear s Hr. intros s D s' D' V L V' L' (K & A & Hh) Hm. split; [by eapply (kinv_micro E s D s' D')|].
  split; [by eapply (att_micro E s D s' D')|].
  clear V' L'. subst Q. mnorm V; try done; split_and?; try done.
  destruct (A _ _ H) as (l & Hl & _). simpl in Hl. exists n, sn, l. split; [done|].
  pose proof (v_exp s V _ _ H) as Hx. simpl in Hx. split.
  - intros Hnr Hsc.
    assert (expired_at p = false) as Hxp.
    { pose proof (l_phase E s L _ _ H) as Hph. simpl in Hph.
      assert (finished (s_log s) g -> False) as Hf.
      { intros [(n' & e' & Hf)|(n' & e' & Hf)]; [by eapply Hnr|].
        destruct (l_exit E s L _ _ _ Hf) as [w Hw]. by eapply Hnr. }
      destruct p; simpl in *; try done; exfalso.
      - by eapply Hnr, Hph.
      - by eapply Hnr, Hph.
      - by eapply Hnr, Hph.
      - by destruct Hph as [?|?]; auto.
      - by destruct Hph as [?|?]; auto. }
    rewrite Hxp in Hx. subst x. unfold snapshot_get, raw_access in H0. unfold get_spec.
    destruct (sn_workers sn !! k) as [[w|]|]; [|by injection H0 as <- <- _|by injection H0 as <- <- _].
    destruct out as [t|]; [|by injection H0 as <- <- _].
    destruct (sn_outputs sn !! k) as [[ff|]|]; simpl in H0; by injection H0 as <- <- _.
  - intros Hd. destruct (k_done s K g Hd) as (q & Hq & Hp). assert (q = mkGor n f sn x al p) as -> by congruence.
    simpl in Hp. assert (x = true) as ->. { rewrite Hx. by destruct p. }
    unfold snapshot_get in H0. by injection H0 as <- <- _.
Qed.

Lemma get_inside_start E s pre g k out r call post : reachable E s -> s_log s = pre ++ EvGet g k out r call :: post ->
  start_called post g -> (forall n' r', EvStartRet g n' r' ∉ post) ->
  exists n sn l m, attempt_of post g = Some (n, sn, l) /\ installed l n = Some m /\
    (k ∉ m_inputs m \/ registered l k = None -> is_const r KMissing = true /\ call = None) /\
    (forall gk w, k ∈ m_inputs m -> registered l k = Some (gk, w) ->
      exists mk, attempt_manifold l gk = Some mk /\
      match out, m_output mk with
      | None, _ => r = None /\ call = None
      | Some t, None => is_const r KMissing = true /\ call = None
      | Some t, Some f => r = e_outf E f w t /\ call = Some (f, w, t)
      end).
Proof.
  intros Hr Heq Hsc Hnr. destruct (get_contract E s _ _ _ _ _ _ _ Hr Heq) as (n & sn & l & Hat & Hg & _).
  specialize (Hg Hnr Hsc). destruct (attempt_of_in _ _ _ _ _ Hat) as (l1 & t & d & Hl). rewrite Hl in Heq.
  assert (s_log s = (pre ++ EvGet g k out r call :: l1) ++ EvAttempt g n sn t d :: l) as Heq'.
  { rewrite Heq. by rewrite <- app_assoc. }
  destruct (snapshot_inputs E s _ _ _ _ _ _ _ Hr Heq') as (m & Hm & Hin & Hout).
  pose proof (outputs_paired E s _ _ _ _ _ _ _ Hr Heq') as Hpair.
  exists n, sn, l, m. split_and!; try done.
  - intros Hk. unfold get_spec in Hg. destruct (decide (k ∈ m_inputs m)) as [Hi|Hi].
    + rewrite (Hin _ Hi) in Hg. destruct Hk as [?|Hk]; [done|]. by rewrite Hk in Hg.
    + by rewrite (Hout _ Hi) in Hg.
  - intros gk w Hk Hreg. unfold get_spec in Hg. rewrite (Hin _ Hk), Hreg in Hg. simpl in Hg.
    destruct (Hpair k w) as (gx & mx & Hgx & _ & Hmx & Ho). { rewrite (Hin _ Hk), Hreg. done. }
    assert (gx = gk) as -> by congruence. exists mx. split; [done|]. rewrite Ho in Hg.
    by destruct out, (m_output mx).
Qed.

Lemma gors_id f s : f (s_gors s) = s_gors s -> s <| s_gors ::= f |> = s.
Proof. destruct s. unfold set. simpl. by intros ->. Qed.

Lemma get_after_start E s g k out s' : reachable E s -> step E s (LGet g k out) = Some s' -> start_done (s_log s) g ->
  s' = emit (EvGet g k out (Some (EMsg MsgExpired)) None) s.
Proof.
  intros Hr Hs Hd. pose proof (reachable_kinv E s Hr) as K. pose proof (reachable_inv E s Hr) as V.
  destruct (k_done s K g Hd) as (r & Hg & Hp). simpl in Hs. rewrite Hg in Hs.
  pose proof (v_exp s V _ _ Hg) as Hx. assert (g_expired r = true) as He. { rewrite Hx. by destruct (g_pc r). }
  unfold snapshot_get in Hs. rewrite He in Hs. injection Hs as <-.
  assert (<[g := r <| g_access := g_access r |>]> (s_gors s) = s_gors s) as Hid.
  { apply insert_id. rewrite Hg. by destruct r. }
  unfold emit. rewrite gors_id; [done|]. exact Hid.
Qed.

(** ** C19 *)
Definition err_inv (s : state) : Prop :=
  forall n i, s_current s !! n = Some i -> i_err i = shown_error (s_log s) n.
Lemma err_micro E s D s' D' : inv s -> linv E s -> err_inv s -> micro E s D s' D' -> err_inv s'.
Proof.
  unfold err_inv. intros V L H Hm. pose proof (micro_linv E s D s' D' V L Hm) as L'.
  mnorm V; try exact H; intros k i; unfold shown_error in *; simpl.
  - rewrite lookup_insert_Some. intros [[<- <-]|[? Hi]]; lk; [|by apply H].
    assert (in_progress (s_log s) n = None) as ->; [|done].
    destruct (in_progress (s_log s) n) eqn:Hp; [|done]. apply (l_prog E s L) in Hp as (r & Hr & Hn & Hp).
    destruct Hp. eapply stopped_inactive; eauto. by rewrite uninstalled_info.
  - rewrite lookup_insert_Some. intros [[<- <-]|[? Hi]]; lk; [done|by apply H].
  - rewrite lookup_insert_Some. intros [[<- <-]|[? Hi]]; lk; [|by apply H]. simpl.
    apply H. unfold info_of. destruct (v_dom s V n) as [_ [i Hi]]; [eauto|]. by rewrite Hi.
  - rewrite lookup_insert_Some. intros [[<- <-]|[? Hi]]; lk; [|by apply H]. simpl.
    apply H. unfold info_of. destruct (v_dom s V n) as [_ [i Hi]]; [eauto|]. by rewrite Hi.
  - rewrite lookup_delete_Some. intros [? Hi]. by apply H.
  - rewrite lookup_insert_Some. intros [[<- <-]|[? Hi]]; lk; [|by apply H]. simpl.
    apply H. unfold info_of. simpl. destruct (v_active s V _ _ H0) as (i & Hi & _); [done|]. simpl in Hi. by rewrite Hi.
  - rewrite lookup_insert_Some. intros [[<- <-]|[? Hi]]; lk; [done|by apply H].
  - rewrite lookup_insert_Some. intros [[<- <-]|[? Hi]]; lk; [done|by apply H].
Qed.

Lemma manifolds_report_spec E s : inv s -> linv E s -> err_inv s -> forall n,
  match installed (s_log s) n, manifolds_report E s !! n with
  | Some m, Some mr => mreport_spec E (s_log s) n m mr
  | None, None => True
  | _, _ => False
  end.
Proof.
  intros V L Er n. unfold manifolds_report. rewrite map_lookup_imap, (l_inst E s L).
  destruct (s_manifolds s !! n) as [m|] eqn:Hm.
  2: { by rewrite not_installed_info. }
  destruct (v_dom s V n) as [_ [i Hi]]; [eauto|]. rewrite Hi. simpl.
  pose proof (info_of_eq _ _ _ Hi) as Hif.
  assert (manifold_of s n = m) as Hmm. { unfold manifold_of. by rewrite Hm. }
  split_and!; simpl.
  - unfold observed_state. pose proof (l_regw E s L n) as Hw. rewrite Hif in Hw.
    unfold i_state. destruct (registered (s_log s) n) as [[g w]|] eqn:Hreg; simpl in Hw.
    + pose proof (l_regg E s L _ _ _ Hreg) as (r & Hr & Hn & Hp).
      destruct (v_active s V _ _ Hr Hp) as (i' & Hi' & []). rewrite Hn in Hi'. assert (i' = i) as -> by congruence.
      destruct (i_starting i) eqn:Hst; [specialize (go_starting eq_refl); congruence|].
      rewrite <- Hw, <- (l_canc E s L). destruct (i_stopping i); [left; tauto|right; tauto].
    + destruct (in_progress (s_log s) n) as [g|] eqn:Hp.
      * apply (l_prog E s L) in Hp as (r & Hr & Hn & Hp).
        destruct (v_active s V _ _ Hr Hp) as (i' & Hi' & []). rewrite Hn in Hi'. assert (i' = i) as -> by congruence.
        unfold i_stopped in go_live. rewrite <- Hw in go_live. by destruct (i_starting i).
      * pose proof (no_progress_stopped E s n V L Hp) as Hs. rewrite Hif in Hs.
        destruct (v_stop s V _ _ Hi Hs) as (-> & _ & _). unfold i_stopped in Hs. rewrite <- Hw in Hs.
        rewrite <- Hw. by destruct (i_starting i).
  - by rewrite Hmm.
  - by destruct (l_count E s L _ _ Hi) as [-> _].
  - rewrite (l_time E s L). by rewrite Hif.
  - by apply Er.
  - unfold own_report, worker_report. pose proof (l_regw E s L n) as Hw. rewrite Hif in Hw.
    rewrite <- Hw. by destruct (registered (s_log s) n) as [[g [|w]]|].
Qed.

Lemma report_true E s pre r post : reachable E s -> s_log s = pre ++ EvReport r :: post -> report_spec E post r.
Proof.
  intros Hr Heq.
  set (Q := fun ev (post : list event) => match ev with EvReport r => report_spec E post r | _ => True end).
  enough (Q (EvReport r) post) by done. apply (hist_split Q pre). rewrite <- Heq. clear Heq pre r post.
  enough (err_inv s /\ (EvDead ∈ s_log s <-> s_running s = false) /\ hist Q (s_log s)) by tauto.
  apply (reach_ind2 E (fun s D => err_inv s /\ (EvDead ∈ s_log s <-> s_running s = false) /\ hist Q (s_log s))); [| |done].
  { split_and!; [done| |done]. simpl. split; [|done]. intros H. by apply elem_of_nil in H. }
  clear s Hr. intros s D s' D' V L V' L' (C & Hd & Hh) Hm. split; [by apply (err_micro E s D s' D')|]. clear V' L'.
  split. { mnorm V; try done; rewrite ?elem_of_cons; intuition congruence. }
  subst Q. mnorm V; try done; split_and?; try done.
  pose proof (manifolds_report_spec E s V L C) as Hrep.
  assert (dying s = true -> tomb_err (s_tomb s) = None) as Hte.
  { intros Hdy. unfold tomb_err. unfold dying, t_dying in Hdy. by destruct (v_reason s V) as [Hx|Hx]; rewrite Hx in *. }
  pose proof (v_run s V) as Hrun.
  destruct H as [[Hr ->]|[Hr ->]].
  - rewrite Hr in *. unfold live_report. destruct (dying s) eqn:Hdy.
    + split; [done|]. simpl. rewrite (Hte eq_refl). split_and!; [by apply (l_dying E s L)|by rewrite Hd|apply (l_worst E s L)].
    + split; [done|]. simpl. split; [|done]. by apply (not_dying_log E).
  - destruct (s_running s); [destruct Hrun; congruence|]. split; [done|]. simpl. split; [by apply Hd|].
    unfold wait_result. rewrite Hte by apply Hrun. rewrite (l_worst E s L). done.
Qed.

(** ** C21 *)
Lemma delay_elapsed E s pre g n f t post : reachable E s -> s_log s = pre ++ EvStartCall g n f t :: post ->
  exists sn t0 d m l, EvAttempt g n sn t0 d ∈ post /\ (t0 + d <= t)%Z /\
    attempt_of post g = Some (n, sn, l) /\ installed l n = Some m /\ m_start m = f.
Proof.
  intros Hr Heq.
  set (Q := fun ev (post : list event) => match ev with EvStartCall g n f t =>
    exists sn t0 d m l, EvAttempt g n sn t0 d ∈ post /\ (t0 + d <= t)%Z /\
    attempt_of post g = Some (n, sn, l) /\ installed l n = Some m /\ m_start m = f | _ => True end).
  enough (Q (EvStartCall g n f t) post) by done. apply (hist_split Q pre). rewrite <- Heq. clear Heq pre g n f t post.
  enough (att_inv s /\ (forall g n f sn x al z, s_gors s !! g = Some (mkGor n f sn x al (PDelay z)) ->
      exists t d, EvAttempt g n sn t d ∈ s_log s /\ z = (t + d)%Z) /\ hist Q (s_log s)) by tauto.
  apply (reach_ind2 E (fun s D => att_inv s /\ (forall g n f sn x al z, s_gors s !! g = Some (mkGor n f sn x al (PDelay z)) ->
      exists t d, EvAttempt g n sn t d ∈ s_log s /\ z = (t + d)%Z) /\ hist Q (s_log s))); [| |done].
  { split_and!; done. }
  clear s Hr. intros s D s' D' V L V' L' (A & B & Hh) Hm. split; [by apply (att_micro E s D s' D')|]. clear V' L'.
  split.
  - clear Q Hh A.
    assert (forall new, (forall g n f sn x al z, s_gors s !! g = Some (mkGor n f sn x al (PDelay z)) ->
      exists t d, EvAttempt g n sn t d ∈ new ++ s_log s /\ z = (t + d)%Z)) as B'.
    { intros new g n f sn x al z Hg. destruct (B _ _ _ _ _ _ _ Hg) as (t & d & ? & ?). exists t, d.
      rewrite elem_of_app. auto. }
    mnorm V; first [exact B|exact (B' [_])|exact (B' [_;_])|idtac];
      intros q n1 f1 sn1 x1 al1 z1; rewrite lookup_insert_Some; intros [[<- Hq]|[? Hq]];
      first [discriminate Hq|exact (B _ _ _ _ _ _ _ Hq)|exact (B' [_] _ _ _ _ _ _ _ Hq)|exact (B' [_;_] _ _ _ _ _ _ _ Hq)|idtac].
    + injection Hq as <- <- <- <- <- <-. eexists _, _. split; [by left|done].
    + injection Hq as -> -> -> -> -> ->. exact (B' [_] _ _ _ _ _ _ _ H).
    + by destruct w.
    + by destruct w.
  - subst Q. mnorm V; try done; split_and?; try done.
    destruct (A _ _ H) as (l & Hl & m & Hm & Hs). simpl in *. destruct (B _ _ _ _ _ _ _ H) as (t & d & Ha & ->).
    exists sn, t, d, m, l. split_and!; try done.
Qed.

(** ** C08, C20: why and with which delay attempts are launched *)
Lemma attempt_why E s pre g n sn t d post : reachable E s -> s_log s = pre ++ EvAttempt g n sn t d :: post ->
  ~ is_dying post /\ in_progress post n = None /\
  exists base, d = attempt_delay E g base (error_count (e_cfg E) post n) /\ launch_why (e_cfg E) post n base.
Proof.
  intros Hr Heq.
  set (Q := fun ev (post : list event) => match ev with EvAttempt g n sn t d =>
    ~ is_dying post /\ in_progress post n = None /\
    exists base, d = attempt_delay E g base (error_count (e_cfg E) post n) /\ launch_why (e_cfg E) post n base | _ => True end).
  enough (Q (EvAttempt g n sn t d) post) by done. revert Heq. apply (hist_reach E Q); [|done].
  subst Q. clear. intros s D s' D' V L V' L' Hh Hm. clear V' L'.
  destruct Hm; try (mcomp V; split_and?; done).
  unfold launch, emit, set_info. simpl. split; [|done]. split_and!.
  - by apply (not_dying_log E).
  - destruct (in_progress (s_log s) n) eqn:Hp; [|done]. apply (l_prog E s L) in Hp as (r & Hr & Hn & Hp).
    destruct Hp. by eapply stopped_inactive.
  - exists base. split.
    + unfold attempt_delay. destruct (v_dom s V n) as [_ [i Hi]]; [done|].
      rewrite (info_of_eq _ _ _ Hi). by rewrite (l_recent E s L _ _ Hi).
    + unfold launch_cause in H3. unfold launch_why, depends_on. destruct H3 as [[Hb [m Hm]]|[[Hb (x & m & Hx)]|(g & raw & e & t & Hx & Hc)]].
      * left. split; [done|]. destruct (s_log s); [done|]. simpl in Hm. injection Hm as ->. eauto.
      * right. left. split; [done|]. exists x. split; [tauto|]. exists m. rewrite (l_inst E s L). tauto.
      * right. right. destruct (s_log s) as [|ev l] eqn:Hl; [done|]. simpl in Hx. injection Hx as ->.
        exists g, raw, e, t, l. split; [done|]. rewrite <- Hl, <- (l_canc E s L). done.
Qed.
