(** No stale dependencies: proofs of C05, C06 and C09. *)
From stdpp Require Import gmap strings list relations.
From Coq Require Import ZArith.
From RecordUpdate Require Import RecordSet.
From Verif Require Import Err Tomb Order Validate ValidateSpec ValidateProofs Snapshot Engine EngineSpec EngineMicro EngineSteps EngineLog EngineSafety.
Import RecordSetNotations.

(** ** Attempts and the manifold they belong to *)
Definition prog_ok (log : list event) : Prop :=
  forall n g, in_progress log n = Some g ->
    exists sn post, last_attempt log n = Some (g, sn, post) /\ installed post n = installed log n /\
      attempt_manifold log g = installed log n.

Lemma prog_micro E s D s' D' : inv s -> linv E s -> prog_ok (s_log s) -> micro E s D s' D' -> prog_ok (s_log s').
Proof.
  intros V L Hi H.
  assert (forall n g, in_progress (s_log s) n = Some g -> s_next s <> g) as Hlt.
  { intros n g (r & Hr & _)%(l_prog E s L). pose proof (v_next s V _ _ Hr). lia. }
  assert (forall n, i_stopped (info_of s n) = true -> in_progress (s_log s) n = None) as Hst.
  { intros n Hn. destruct (in_progress (s_log s) n) as [g|] eqn:Hx; [|done].
    apply (l_prog E s L) in Hx as (r & Hr & <- & Hp). destruct (v_active s V _ _ Hr Hp) as (i & Hix & []).
    rewrite (info_of_eq _ _ _ Hix) in Hn. congruence. }
  mnorm V; try done; intros k h; simpl; try (apply Hi).
  - (* record *)
    intros Hk. destruct (decide (n = k)) as [<-|Hne].
    + rewrite Hst in Hk; [done|]. unfold info_of. by rewrite not_installed_info.
    + lk. by apply Hi.
  - (* launch *)
    destruct (decide (n = k)) as [<-|Hne].
    + lk. intros [= <-]. lk. by eexists _, _.
    + lk. intros Hk. rewrite bool_decide_eq_false_2 by (by apply (Hlt k)). by apply Hi.
  - (* uninstall *)
    intros Hk. destruct (decide (n = k)) as [<-|Hne]; [by rewrite Hst in Hk|]. lk. by apply Hi.
  - destruct (bool_decide (n = k)); [done|]. apply Hi.
  - destruct (bool_decide (n = k)); [done|]. apply Hi.
Qed.

Lemma reachable_prog E s : reachable E s -> prog_ok (s_log s).
Proof.
  intros Hr. apply (reach_ind2 E (fun s D => prog_ok (s_log s))); [done| |done].
  intros s1 D1 s2 D2 V1 L1 V2 L2 HP Hm. by apply (prog_micro E s1 D1 s2 D2).
Qed.

(** ** C05 *)
Definition same_inputs (log post : list event) (sn : snap) (m : manifold) : Prop :=
  forall x, x ∈ m_inputs m ->
    sn_workers sn !! x = Some (snd <$> registered log x) /\
    registered post x = registered log x /\ registrations post x = registrations log x.

Definition up_to_date (log : list event) (n : string) (m : manifold) : Prop :=
  exists g sn post, last_attempt log n = Some (g, sn, post) /\ installed post n = Some m /\
    (~ asked_to_stop log g -> same_inputs log post sn m).

Lemma up_frame log log' n m :
  last_attempt log' n = last_attempt log n ->
  (forall x, x ∈ m_inputs m -> registered log' x = registered log x /\ registrations log' x = registrations log x) ->
  (forall g, asked_to_stop log g -> asked_to_stop log' g) ->
  up_to_date log n m -> up_to_date log' n m.
Proof.
  intros H1 H2 H3 (g & sn & post & Ha & Hb & Hc). exists g, sn, post. rewrite H1. split_and!; try done.
  intros Hn x Hx. destruct (H2 x Hx) as [-> ->]. apply Hc; [|done]. naive_solver.
Qed.

Lemma asked_cons ev log g : asked_to_stop log g -> asked_to_stop (ev :: log) g.
Proof. intros [n H]. exists n. by right. Qed.

Lemma stopping_asked E s n : inv s -> linv E s -> i_stopping (info_of s n) = true ->
  exists g, in_progress (s_log s) n = Some g /\ asked_to_stop (s_log s) g.
Proof.
  intros V L Hn. destruct (s_current s !! n) as [i|] eqn:Hi; [|unfold info_of in Hn; by rewrite Hi in Hn].
  rewrite (info_of_eq _ _ _ Hi) in Hn.
  destruct (i_stopped i) eqn:Hs.
  { destruct (v_stop s V _ _ Hi Hs). congruence. }
  destruct (v_has s V _ _ Hi Hs) as (g & r & Hg & Hnn & Hp).
  destruct (v_active s V _ _ Hg Hp) as (i' & Hi' & []). rewrite Hnn, Hi in Hi'. injection Hi' as <-.
  rewrite Hn in go_cancel. exists g. split.
  - apply (l_prog E s L). exists r. done.
  - apply (l_canc E s L), go_cancel.
Qed.

Lemma live_progress E s n : inv s -> linv E s -> i_stopped (info_of s n) = false -> i_stopping (info_of s n) = false ->
  s_manifolds s !! n <> None ->
  exists g, in_progress (s_log s) n = Some g /\ i_cancel (info_of s n) = Some g /\ ~ asked_to_stop (s_log s) g.
Proof.
  intros V L Hs Hn Hm. destruct (v_dom s V n) as [_ [i Hi]]; [by apply not_eq_None_Some|].
  rewrite (info_of_eq _ _ _ Hi) in *.
  destruct (v_has s V _ _ Hi Hs) as (g & r & Hg & Hnn & Hp).
  destruct (v_active s V _ _ Hg Hp) as (i' & Hi' & []). rewrite Hnn, Hi in Hi'. injection Hi' as <-.
  rewrite Hn in go_cancel. exists g. split_and!.
  - apply (l_prog E s L). exists r. done.
  - apply go_cancel.
  - rewrite <- (l_canc E s L). apply go_cancel.
Qed.

Definition fresh_inv (s : state) (D : gset string) : Prop :=
  dying s = false -> forall n m, s_manifolds s !! n = Some m -> n ∉ D -> up_to_date (s_log s) n m.

Lemma take_snapshot_worker s l x : x ∈ l -> sn_workers (take_snapshot s l) !! x = Some (i_worker (info_of s x)).
Proof.
  intros Hx. unfold take_snapshot. simpl. induction l as [|y l IH]; [by apply elem_of_nil in Hx|].
  simpl. destruct (decide (y = x)) as [->|Hne]; [by rewrite lookup_insert|]. rewrite lookup_insert_ne by done.
  apply IH. by apply elem_of_cons in Hx as [->|?].
Qed.
Lemma take_snapshot_output s l x : x ∈ l -> sn_outputs (take_snapshot s l) !! x = Some (m_output (manifold_of s x)).
Proof.
  intros Hx. unfold take_snapshot. simpl. induction l as [|y l IH]; [by apply elem_of_nil in Hx|].
  simpl. destruct (decide (y = x)) as [->|Hne]; [by rewrite lookup_insert|]. rewrite lookup_insert_ne by done.
  apply IH. by apply elem_of_cons in Hx as [->|?].
Qed.
Lemma take_snapshot_dom s l x : x ∉ l -> sn_workers (take_snapshot s l) !! x = None /\ sn_outputs (take_snapshot s l) !! x = None.
Proof.
  intros Hx. unfold take_snapshot. simpl. induction l as [|y l IH]; [done|].
  simpl. apply not_elem_of_cons in Hx as [Hne Hx]. rewrite !lookup_insert_ne by done. by apply IH.
Qed.

Lemma take_snapshot_ext s s' l : (forall x, x ∈ l -> i_worker (info_of s' x) = i_worker (info_of s x)) ->
  s_manifolds s' = s_manifolds s -> take_snapshot s' l = take_snapshot s l.
Proof.
  intros H1 H2. unfold take_snapshot, manifold_of. rewrite H2. f_equal. f_equal.
  apply list_fmap_ext. intros i x Hx. f_equal. apply H1. by eapply elem_of_list_lookup_2.
Qed.

Lemma launch_log E n base s : s_log (launch E n base s) =
  EvAttempt (s_next s) n (take_snapshot s (m_inputs (manifold_of s n))) (s_now s)
    (attempt_delay E (s_next s) base (i_recent (info_of s n))) :: s_log s.
Proof.
  unfold launch, emit, attempt_delay. cbn [s_log set]. unfold set at 1. cbn [s_log]. f_equal. f_equal.
  apply take_snapshot_ext; [|done]. intros x _. unfold info_of. simpl.
  destruct (decide (n = x)) as [<-|Hne]; by lk.
Qed.

Lemma fresh_micro E s D s' D' : inv s -> linv E s -> inv s' -> prog_ok (s_log s) -> fresh_inv s D ->
  micro E s D s' D' -> fresh_inv s' D'.
Proof.
  intros V L V' K Hi H.
  assert (dying s' = false -> dying s = false) as Hmono.
  { intros Hd. destruct (micro_dying E s D s' D' V H) as [<-|[_ Hx]]; congruence. }
  pose proof (l_inst E s L) as Hinst.
  intros Hd. specialize (Hmono Hd). specialize (Hi Hmono). revert Hd.
  destruct H.
  - rewrite kill_tomb_dying; [done|]. apply V.
  - intros _. exact Hi.
  - intros _. exact Hi.
  - intros _ q mk Hk HD. apply (up_frame (s_log s)); [done|done|apply asked_cons|by apply Hi].
  - intros _ q mk Hk HD. apply (up_frame (s_log s)); [done|done|apply asked_cons|by apply Hi].
  - intros _ q mk Hk HD. apply (up_frame (s_log s)); [done|done|apply asked_cons|by apply Hi].
  - (* record *) intros _ k mk. rewrite Hmono. unfold record_manifold. simpl.
    intros [[<- <-]|[Hne Hk]]%lookup_insert_Some HD; [set_solver|].
    apply (up_frame (s_log s)); [done|done|apply asked_cons|]. apply Hi; [done|set_solver].
  - (* launch *) intros _ k mk Hk HD. rewrite launch_log. change (s_manifolds s !! k = Some mk) in Hk.
    destruct (decide (n = k)) as [<-|Hne].
    + clear HD. eexists _, _, _. cbn [last_attempt]. lk. split; [done|]. split; [by rewrite Hinst|].
      intros _ x Hx. split; [|done]. unfold manifold_of. rewrite Hk. cbn [default from_option id registered].
      rewrite take_snapshot_worker by done. by rewrite (l_regw E s L).
    + apply (up_frame (s_log s)); [simpl; by lk|done|apply asked_cons|]. apply Hi; [done|set_solver].
  - (* stop *) intros _ k mk Hk HD.
    assert (s_manifolds (stop_base n s) = s_manifolds s) as Hms by (unfold stop_base; by destruct (i_worker _)).
    rewrite Hms in Hk.
    assert (forall g, asked_to_stop (s_log s) g -> asked_to_stop (s_log (stop_base n s)) g) as Ha.
    { intros g Hx. unfold stop_base. destruct (i_worker _); simpl; repeat apply asked_cons; done. }
    assert (last_attempt (s_log (stop_base n s)) k = last_attempt (s_log s) k) as Hla by (unfold stop_base; by destruct (i_worker _)).
    destruct (decide (n = k)) as [<-|Hne].
    + destruct (live_progress E s n V L H1 H2) as (g & Hg & Hc & _); [congruence|].
      destruct (K _ _ Hg) as (sn & post & Hp1 & Hp2 & _). exists g, sn, post. rewrite Hla.
      rewrite Hp2, Hinst. split_and!; try done. intros Hna. destruct Hna. exists n. unfold stop_base. rewrite Hc.
      destruct (i_worker _); simpl; [right|]; by left.
    + apply (up_frame (s_log s)); [done| |done|apply Hi; [done|set_solver]].
      intros x _. unfold stop_base. by destruct (i_worker _).
  - (* skip *) intros _ k mk Hk HD. destruct (decide (n = k)) as [<-|Hne]; [|apply Hi; [done|set_solver]].
    destruct H as [Hs|[? _]]; [|congruence].
    destruct (stopping_asked E s n V L Hs) as (g & Hg & Hga).
    destruct (K _ _ Hg) as (sn & post & Hp1 & Hp2 & _). exists g, sn, post. rewrite Hp2, Hinst. split_and!; try done.
  - congruence.
  - (* uninstall *) intros _ k mk Hk HD. unfold uninstall in *. simpl in *.
    apply lookup_delete_Some in Hk as [Hne Hk].
    apply (up_frame (s_log s)); [done|done|apply asked_cons|]. apply Hi; [done|set_solver].
  - intros _ q mk Hk HD. apply (up_frame (s_log s)); [done|done|apply asked_cons|by apply Hi].
  - intros _. exact Hi.
  - intros _ q mk Hk HD. apply (up_frame (s_log s)); [done|done|apply asked_cons|by apply Hi].
  - intros _ q mk Hk HD. apply (up_frame (s_log s)); [done|done|apply asked_cons|by apply Hi].
  - intros _. exact Hi.
  - intros _. exact Hi.
  - (* register *) intros _ k mk Hk HD. unfold register in *. simpl in *.
    apply (up_frame (s_log s)); [done| |intros; by do 2 apply asked_cons|apply Hi; [done|set_solver]].
    intros y Hy. simpl.
    assert (n <> y) as Hne. { intros ->. apply HD. apply elem_of_list_to_set. apply (v_deps s V). eauto. }
    by lk.
  - intros _ q mk Hk HD. apply (up_frame (s_log s)); [done|done|apply asked_cons|by apply Hi].
  - intros _ q mk Hk HD. apply (up_frame (s_log s)); [done|done|apply asked_cons|by apply Hi].
  - congruence.
  - (* end *) rewrite Hmono. intros _ k mk Hk HD.
    assert (s_log (end_base E g n e al (s <| s_gors ::= <[g:=mkGor n f sn x al PGone]> |>)) =
      EvStopped g n e (filtered s n e) (s_now s) :: s_log s) as Heq by (unfold end_base; by destruct (c_isFatal _ _)).
    assert (s_manifolds s !! k = Some mk) as Hk' by (revert Hk; unfold end_base; by destruct (c_isFatal _ _)).
    rewrite Heq. apply (up_frame (s_log s)); [done| |apply asked_cons|apply Hi; [done|set_solver]].
    intros y Hy. simpl. split; [|done]. destruct (decide (n = y)) as [<-|Hne]; [|by lk]. lk.
    destruct (i_worker (info_of s n)) eqn:Hw.
    + destruct HD. apply elem_of_union_r, elem_of_list_to_set, (v_deps s V). eauto.
    + pose proof (l_regw E s L n) as Hr. rewrite Hw in Hr. by destruct (registered (s_log s) n).
  - congruence.
  - congruence.
Qed.

Lemma fresh_reach E s : reachable E s -> fresh_inv s ∅.
Proof.
  intros Hr. enough (prog_ok (s_log s) /\ fresh_inv s ∅) by tauto.
  apply (reach_ind2 E (fun s D => prog_ok (s_log s) /\ fresh_inv s D)); [| |done].
  { split; [done|]. intros _ n m Hx. done. }
  intros s1 D1 s2 D2 V1 L1 V2 L2 [K HP] Hm. split; [by apply (prog_micro E s1 D1 s2 D2)|].
  by apply (fresh_micro E s1 D1 s2 D2).
Qed.

Lemma no_stale_inputs E s n m : reachable E s -> ~ is_dying (s_log s) -> installed (s_log s) n = Some m ->
  exists g sn post, last_attempt (s_log s) n = Some (g, sn, post) /\ installed post n = Some m /\
    (~ asked_to_stop (s_log s) g -> forall x, x ∈ m_inputs m ->
      sn_workers sn !! x = Some (snd <$> registered (s_log s) x) /\
      registered post x = registered (s_log s) x /\ registrations post x = registrations (s_log s) x).
Proof.
  intros Hr Hd Hm. destruct (reachable_linv E s Hr) as [V L].
  apply (fresh_reach E s Hr).
  - destruct (dying s) eqn:Hx; [|done]. by apply (l_dying E s L) in Hx.
  - by rewrite <- (l_inst E s L).
  - set_solver.
Qed.

(** ** C06 *)
Lemma outputs_paired E s pre g n sn t d post : reachable E s -> s_log s = pre ++ EvAttempt g n sn t d :: post ->
  forall x w, sn_workers sn !! x = Some (Some w) ->
    exists gx mx, registered post x = Some (gx, w) /\ EvStartRet gx x (inl w) ∈ post /\
      attempt_manifold post gx = Some mx /\ sn_outputs sn !! x = Some (m_output mx).
Proof.
  intros Hr Heq.
  set (Q := fun ev post => match ev with EvAttempt g n sn t d =>
    forall x w, sn_workers sn !! x = Some (Some w) ->
    exists gx mx, registered post x = Some (gx, w) /\ EvStartRet gx x (inl w) ∈ post /\
      attempt_manifold post gx = Some mx /\ sn_outputs sn !! x = Some (m_output mx) | _ => True end).
  assert (forall s, reachable E s -> prog_ok (s_log s) /\
     (forall x gx w, registered (s_log s) x = Some (gx, w) -> EvStartRet gx x (inl w) ∈ s_log s) /\ hist Q (s_log s)) as Hx.
  { clear.
    apply (reach_ind2 E (fun s D => prog_ok (s_log s) /\
     (forall x gx w, registered (s_log s) x = Some (gx, w) -> EvStartRet gx x (inl w) ∈ s_log s) /\ hist Q (s_log s))).
    { split_and!; [done|done|done]. }
    intros s D s' D' V L V' L' (K & R & Hh) Hm.
    split; [by apply (prog_micro E s D s' D')|]. clear V' L'.
    split.
    { mnorm V; try exact R; intros xx gg ww; rewrite ?elem_of_cons; try (intros Hx%R; tauto).
      - destruct (decide (n = xx)) as [<-|Hne]; lk.
        + intros [= <- <-]. pose proof (l_phase E s L _ _ H) as [Hp _]. simpl in Hp. auto.
        + intros Hx%R. auto.
      - destruct (decide (n = xx)) as [<-|Hne]; lk; [done|]. intros Hx%R. auto.
      - destruct (decide (n = xx)) as [<-|Hne]; lk; [done|]. intros Hx%R. auto. }
    subst Q. destruct Hm; try (mcomp V; split_and?; done).
    rewrite launch_log. split; [|done]. simpl. intros x w Hw.
    destruct (decide (x ∈ m_inputs (manifold_of s n))) as [Hin|Hin].
    2: { destruct (take_snapshot_dom s _ _ Hin) as [Hx _]. unfold take_snapshot in Hx; simpl in Hx. congruence. }
    pose proof (take_snapshot_worker s _ _ Hin) as Hx. unfold take_snapshot in Hx; simpl in Hx. rewrite Hx in Hw. injection Hw as Hw.
    pose proof (take_snapshot_output s _ _ Hin) as Ho. unfold take_snapshot in Ho; simpl in Ho. rewrite Ho.
    pose proof (l_regw E s L x) as Hreg. rewrite Hw in Hreg.
    destruct (registered (s_log s) x) as [[gx w']|] eqn:Hrg; [|done]. simpl in Hreg. injection Hreg as ->.
    exists gx, (manifold_of s x). split; [done|]. split; [by apply R|]. split; [|done].
    pose proof (l_regg E s L _ _ _ Hrg) as Hact.
    pose proof Hact as Hpr. apply (l_prog E s L) in Hpr. destruct (K _ _ Hpr) as (_ & _ & _ & _ & ->).
    rewrite (l_inst E s L). unfold manifold_of.
    destruct Hact as (r & Hgr & <- & Hp). destruct (v_active s V _ _ Hgr Hp) as (i & Hi & _).
    destruct (v_dom s V (g_name r)) as [[mm ->] _]; [eauto|]. done. }
  destruct (Hx s Hr) as (_ & _ & Hh). rewrite Heq in Hh. by apply (hist_split Q) in Hh.
Qed.

Lemma snapshot_inputs E s pre g n sn t d post : reachable E s -> s_log s = pre ++ EvAttempt g n sn t d :: post ->
  exists m, installed post n = Some m /\
    (forall x, x ∈ m_inputs m -> sn_workers sn !! x = Some (snd <$> registered post x)) /\
    (forall x, x ∉ m_inputs m -> sn_workers sn !! x = None).
Proof.
  intros Hr Heq.
  set (Q := fun ev post => match ev with EvAttempt g n sn t d =>
    exists m, installed post n = Some m /\
    (forall x, x ∈ m_inputs m -> sn_workers sn !! x = Some (snd <$> registered post x)) /\
    (forall x, x ∉ m_inputs m -> sn_workers sn !! x = None) | _ => True end).
  enough (Q (EvAttempt g n sn t d) post) by done. revert Heq. apply (hist_reach E Q); [|done].
  clear. subst Q. intros s D s' D' V L V' L' Hh Hm. clear V' L'.
  destruct Hm; try (mcomp V; split_and?; done).
  rewrite launch_log. split; [|done]. rewrite (l_inst E s L). destruct H0 as [m Hm]. exists m.
  unfold manifold_of. rewrite Hm. cbn [default from_option id]. split; [done|]. split.
  - intros x Hx. rewrite take_snapshot_worker by done. by rewrite (l_regw E s L).
  - intros x Hx. by apply take_snapshot_dom.
Qed.

(** ** C09 *)
Definition parked_inv (s : state) (D : gset string) : Prop :=
  dying s = false -> forall n m, s_manifolds s !! n = Some m -> n ∉ D -> in_progress (s_log s) n = None ->
    exists g raw e, last_end (s_log s) n = Some (g, raw, e) /\ terminal e = true /\ g ∉ s_cancelled s.

Lemma last_end_gone E s n g raw e : inv s -> linv E s -> last_end (s_log s) n = Some (g, raw, e) ->
  forall k, ~ active s g k.
Proof.
  intros V L Hl k (r & Hr & Hn & Hp). apply Hp. apply (l_end E s L _ _ Hr).
  assert (exists t, EvStopped g n raw e t ∈ s_log s) as [t Ht]; [|by eauto].
  clear -Hl. induction (s_log s) as [|ev log IH]; [done|].
  destruct ev; simpl in Hl; try (destruct (IH Hl) as [tt Htt]; exists tt; by right).
  - case_bool_decide; [done|]. destruct (IH Hl) as [tt Htt]; exists tt; by right.
  - case_bool_decide; [|destruct (IH Hl) as [tt Htt]; exists tt; by right].
    injection Hl as -> -> ->. subst. eexists. by left.
Qed.

Lemma no_progress_stopped E s n : inv s -> linv E s -> in_progress (s_log s) n = None -> i_stopped (info_of s n) = true.
Proof.
  intros V L Hn. unfold info_of. destruct (s_current s !! n) as [i|] eqn:Hi; [|done]. simpl.
  destruct (i_stopped i) eqn:Hs; [done|].
  destruct (v_has s V _ _ Hi Hs) as (g & r & Hg & Hnn & Hp).
  assert (in_progress (s_log s) n = Some g) by (apply (l_prog E s L); exists r; done). congruence.
Qed.

Lemma parked_micro E s D s' D' : inv s -> linv E s -> parked_inv s D -> micro E s D s' D' -> parked_inv s' D'.
Proof.
  intros V L Hi H.
  assert (dying s' = false -> dying s = false) as Hmono.
  { intros Hd. destruct (micro_dying E s D s' D' V H) as [<-|[_ Hx]]; congruence. }
  intros Hd. specialize (Hmono Hd). specialize (Hi Hmono). revert Hd.
  destruct H; try (intros _; exact Hi); try congruence.
  - rewrite kill_tomb_dying; [done|]. apply V.
  - (* record *) intros _ k mk. rewrite Hmono. unfold record_manifold. simpl.
    intros [[<- <-]|[Hne Hk]]%lookup_insert_Some HD; [set_solver|]. lk. apply (Hi k mk); [done|set_solver].
  - (* launch *) intros _ k mk Hk HD. rewrite launch_log. change (s_manifolds s !! k = Some mk) in Hk. cbn [in_progress last_end].
    destruct (decide (n = k)) as [<-|Hne]; [by lk|]. lk. apply (Hi k mk); [done|set_solver].
  - (* stop *) intros _ k mk Hk HD. 
    assert (in_progress (s_log (stop_base n s)) k = in_progress (s_log s) k /\ last_end (s_log (stop_base n s)) k = last_end (s_log s) k /\
      s_manifolds (stop_base n s) = s_manifolds s) as (-> & -> & Hms)
      by (unfold stop_base; by destruct (i_worker _)). rewrite Hms in Hk.
    destruct (decide (n = k)) as [<-|Hne].
    2: { intros Hp. destruct (Hi k mk) as (g & raw & e & Hl & Ht & Hc); [done|set_solver|done|].
         exists g, raw, e. split_and!; [done|done|].
         assert (s_cancelled (stop_base n s) = {[default 0 (i_cancel (info_of s n))]} ∪ s_cancelled s) as ->
           by (unfold stop_base; by destruct (i_worker _)).
         destruct (live_progress E s n V L H1 H2) as (g' & Hg' & -> & _).
         { destruct H0. congruence. }
         apply (l_prog E s L) in Hg'. intros [Hx|Hx]%elem_of_union; [|done]. apply elem_of_singleton in Hx as ->.
         by eapply (last_end_gone E s). }
    intros Hp. apply (no_progress_stopped E s) in Hp; [congruence|done|done].
  - (* skip *) intros _ k mk Hk HD. destruct (decide (n = k)) as [<-|Hne]; [|apply (Hi k mk); [done|set_solver]].
    destruct H as [Hs|[? _]]; [|congruence].
    destruct (stopping_asked E s n V L Hs) as (g & Hg & Hga). congruence.
  - (* uninstall *) intros _ k mk Hk HD. unfold uninstall in *. simpl in *.
    apply lookup_delete_Some in Hk as [Hne Hk]. apply (Hi k mk); [done|set_solver].
  - (* register *) intros _ k mk Hk HD Hp. by apply (Hi k mk).
  - (* end *) rewrite Hmono. intros _ k mk Hk HD.
    assert (s_log (end_base E g n e al (s <| s_gors ::= <[g:=mkGor n f sn x al PGone]> |>)) =
      EvStopped g n e (filtered s n e) (s_now s) :: s_log s) as Heq by (unfold end_base; by destruct (c_isFatal _ _)).
    assert (s_manifolds s !! k = Some mk) as Hk' by (revert Hk; unfold end_base; by destruct (c_isFatal _ _)).
    rewrite Heq. cbn [in_progress last_end]. destruct (decide (n = k)) as [<-|Hne]; lk.
    + intros _. exists g, e, (filtered s n e). split; [done|].
      destruct (v_active s V _ _ H) as (i & Hii & []); [done|]. simpl in Hii. rewrite (info_of_eq _ _ _ Hii) in HD.
      assert (s_cancelled (end_base E g n e al (s <| s_gors ::= <[g:=mkGor n f sn x al PGone]> |>)) = s_cancelled s) as ->
        by (unfold end_base; by destruct (c_isFatal _ _)).
      destruct (terminal (filtered s n e)); [|destruct HD; rewrite orb_true_r; set_solver].
      destruct (i_stopping i); [destruct HD; set_solver|]. naive_solver.
    + assert (s_cancelled (end_base E g n e al (s <| s_gors ::= <[g:=mkGor n f sn x al PGone]> |>)) = s_cancelled s) as ->
        by (unfold end_base; by destruct (c_isFatal _ _)).
      by apply (Hi k mk).
Qed.

Lemma no_manifold_forgotten E s n m : reachable E s -> ~ is_dying (s_log s) -> installed (s_log s) n = Some m ->
  in_progress (s_log s) n = None ->
  exists g raw e, last_end (s_log s) n = Some (g, raw, e) /\ ~ asked_to_stop (s_log s) g /\ (e = None \/ is_const e KMissing = true \/ is_const e KStartAborted = true).
Proof.
  intros Hr Hd Hm Hp. destruct (reachable_linv E s Hr) as [V L].
  assert (parked_inv s ∅) as HP.
  { apply (reach_ind2 E parked_inv); [|clear|done].
    - intros _ k mk Hx. done.
    - intros s1 D1 s2 D2 V1 L1 V2 L2 HP Hm. by apply (parked_micro E s1 D1 s2 D2). }
  destruct (HP) with (n := n) (m := m) as (g & raw & e & He & Ht & Hc).
  - destruct (dying s) eqn:Hx; [|done]. by apply (l_dying E s L) in Hx.
  - by rewrite <- (l_inst E s L).
  - set_solver.
  - done.
  - exists g, raw, e. split; [done|]. split; [by rewrite <- (l_canc E s L)|]. destruct e as [e|]; [|auto]. simpl in *. apply orb_true_iff in Ht. tauto.
Qed.
