(** How often the engine calls Start funcs (C86). *)
From stdpp Require Import gmap strings list.
From Coq Require Import ZArith.
From Verif Require Import Err Tomb Snapshot Engine EngineSpec EngineMicro EngineSteps EngineLog EngineSafety EngineFresh EngineKill
  EngineObs EngineHandlers EngineMore EngineMore2 PaceSpec.

(** Times in the log do not run backwards. *)
Definition call_time (ev : event) : option Z := match ev with EvStartCall _ _ _ t => Some t | _ => None end.
Definition now_of (ev : event) : option Z := match ev with EvStartCall _ _ _ t | EvAttempt _ _ _ t _ => Some t | _ => None end.
Lemma times_ordered E s pre ev post t : reachable E s -> s_log s = pre ++ ev :: post -> now_of ev = Some t ->
  forall ev' t', ev' ∈ post -> call_time ev' = Some t' -> (t' <= t)%Z.
Proof.
  intros Hr Heq. set (Q := fun ev (post : list event) => forall t, now_of ev = Some t -> forall ev' t', ev' ∈ post -> call_time ev' = Some t' -> (t' <= t)%Z).
  enough (Q ev post) as H by (intros Ht; by apply H). apply (hist_split Q pre). rewrite <- Heq. clear Heq pre ev post t.
  enough ((forall ev' t', ev' ∈ s_log s -> call_time ev' = Some t' -> (t' <= s_now s)%Z) /\ hist Q (s_log s)) by tauto.
  apply (reach_ind2 E (fun s D => (forall ev' t', ev' ∈ s_log s -> call_time ev' = Some t' -> (t' <= s_now s)%Z) /\ hist Q (s_log s))); [| |done].
  { split; [|done]. intros ev' t' H. by apply elem_of_nil in H. }
  clear s Hr. intros s D s' D' V L V' L' [B Hh] Hm. clear V' L'. subst Q. split.
  - mnorm V; intros ev' t'; rewrite ?elem_of_cons; intros Hin Ht;
      repeat match goal with H : _ \/ _ |- _ => destruct H as [H|H] end; subst; try done;
      try (injection Ht as <-; lia); try (by eapply B); try (pose proof (B _ _ Hin Ht); lia).
  - mnorm V; try done; split_and?; try done; try (intros ? [= <-]; exact B); intros ? [= <-] ev' t'; rewrite ?elem_of_cons;
      intros Hin Ht; repeat match goal with H : _ \/ _ |- _ => destruct H as [H|H] end; subst; try done; by eapply B.
Qed.

Lemma call_prog E s pre g n f t post : reachable E s -> s_log s = pre ++ EvStartCall g n f t :: post -> in_progress post n = Some g.
Proof.
  intros Hr. set (Q := fun ev (post : list event) => match ev with EvStartCall g n f t => in_progress post n = Some g | _ => True end).
  intros Heq. enough (Q (EvStartCall g n f t) post) by done. revert Heq. apply (hist_reach E Q); [|done].
  subst Q. clear. intros s D s' D' V L V' L' Hh Hm. clear V' L'. mnorm V; try done; split_and?; try done.
  apply (l_prog E s L). by eexists.
Qed.
Lemma prog_app l1 l0 n g : in_progress (l1 ++ l0) n = Some g -> (exists sn t d, EvAttempt g n sn t d ∈ l1) \/ in_progress l0 n = Some g.
Proof.
  induction l1 as [|ev l1 IH]; cbn [app]; [by right|].
  assert (in_progress (l1 ++ l0) n = Some g -> (exists sn t d, EvAttempt g n sn t d ∈ ev :: l1) \/ in_progress l0 n = Some g) as Hx.
  { intros H. destruct (IH H) as [(sn & t & d & Hin)|H']; [left; exists sn, t, d; by right|by right]. }
  destruct ev; cbn [in_progress]; try done; case_bool_decide; try done. intros [= ->]. subst. left. eexists _, _, _. left.
Qed.

(** Between two Start calls for a name the later attempt was launched, and its delay has passed. *)
Lemma spacing E s l2 g2 n f2 t2 l1 g1 f1 t1 l0 : reachable E s ->
  s_log s = l2 ++ EvStartCall g2 n f2 t2 :: l1 ++ EvStartCall g1 n f1 t1 :: l0 ->
  exists l1a l1b sn t d, l1 = l1a ++ EvAttempt g2 n sn t d :: l1b /\ (t1 <= t)%Z /\ (t + d <= t2)%Z.
Proof.
  intros Hr Heq. pose proof (call_prog E s _ _ _ _ _ _ Hr Heq) as Hp2.
  assert (Heq1 : s_log s = (l2 ++ EvStartCall g2 n f2 t2 :: l1) ++ EvStartCall g1 n f1 t1 :: l0) by (rewrite Heq, <- app_assoc; done).
  pose proof (call_prog E s _ _ _ _ _ _ Hr Heq1) as Hp1.
  destruct (no_overlap E s _ _ _ _ _ _ Hr Heq g1 f1 t1) as [Hne _]; [apply elem_of_app; right; left|].
  destruct (prog_app _ _ _ _ Hp2) as [(sn & t & d & Hin)|H]; [|cbn in H; congruence].
  apply elem_of_list_split in Hin as (l1a & l1b & ->). exists l1a, l1b, sn, t, d. split; [done|].
  assert (Heq3 : s_log s = (l2 ++ EvStartCall g2 n f2 t2 :: l1a) ++ EvAttempt g2 n sn t d :: l1b ++ EvStartCall g1 n f1 t1 :: l0).
  { rewrite Heq, <- app_assoc. cbn. by rewrite <- app_assoc. }
  split. { apply (times_ordered E s _ _ _ t Hr Heq3 eq_refl (EvStartCall g1 n f1 t1)); [|done]. apply elem_of_app. right. left. }
  destruct (delay_elapsed E s _ _ _ _ _ _ Hr Heq) as (sn' & t' & d' & _ & _ & Hin' & Hle & _).
  enough (EvAttempt g2 n sn' t' d' = EvAttempt g2 n sn t d) as [= -> -> ->] by done.
  apply elem_of_list_split in Hin' as (a & b & Hab).
  assert (Heq4 : s_log s = (l2 ++ EvStartCall g2 n f2 t2 :: a) ++ EvAttempt g2 n sn' t' d' :: b) by (rewrite Heq, Hab, <- app_assoc; done).
  rewrite Heq3 in Heq4. symmetry in Heq4.
  apply (split_uniq (fun ev => exists n' sn' t' d', ev = EvAttempt g2 n' sn' t' d')) in Heq4; [by destruct Heq4| | | |]; try (by eexists _, _, _, _).
  - intros x Hx (n' & sn1 & ? & ? & ->). rewrite <- Heq4 in Heq3. by eapply (attempt_once E s _ _ _ _ _ _ _ Hr Heq3).
  - intros x Hx (n' & sn1 & ? & ? & ->). by eapply (attempt_once E s _ _ _ _ _ _ _ Hr Heq3).
Qed.

(** Things that happen at times at least [delta] apart: how many there are between [a] and [b]. *)
Lemma omap_head {A} (tm : A -> option Z) l t : head (omap tm l) = Some t -> exists y v z, l = y ++ v :: z /\ tm v = Some t /\ (forall w, w ∈ y -> tm w = None).
Proof.
  induction l as [|u l IH]; [done|]. cbn. destruct (tm u) as [t'|] eqn:Hu.
  - intros [= ->]. exists [], u, l. split; [done|]. split; [done|]. intros w H. by apply elem_of_nil in H.
  - intros (y & v & z & -> & Hv & Hy)%IH. exists (u :: y), v, z. split; [done|]. split; [done|]. intros w [->|Hw]%elem_of_cons; [done|by apply Hy].
Qed.
Lemma gaps {A} (tm : A -> option Z) (delta a b : Z) mid :
  (forall x u y v z t2 t1, mid = x ++ u :: y ++ v :: z -> tm u = Some t2 -> tm v = Some t1 -> (t1 + delta <= t2)%Z) ->
  (forall u t, u ∈ mid -> tm u = Some t -> (a <= t <= b)%Z) ->
  0 < length (omap tm mid) -> ((Z.of_nat (length (omap tm mid)) - 1) * delta <= b - a)%Z.
Proof.
  intros Hgap Hab.
  enough (omap tm mid = [] \/ exists t, head (omap tm mid) = Some t /\ ((Z.of_nat (length (omap tm mid)) - 1) * delta <= t - a)%Z) as [->|(t & Ht & Hle)].
  { cbn. lia. }
  { intros _. destruct (omap_head tm mid t Ht) as (y & v & z & Heq & Hv & _). destruct (Hab v t) as [_ H]; [rewrite Heq; apply elem_of_app; right; left|done|lia]. }
  revert Hgap Hab. induction mid as [|u mid IH]; intros Hgap Hab; [by left|]. cbn.
  assert (IH' : omap tm mid = [] \/ exists t, head (omap tm mid) = Some t /\ ((Z.of_nat (length (omap tm mid)) - 1) * delta <= t - a)%Z).
  { apply IH; [|intros v t Hv; apply Hab; by right]. intros x u' y v z t2 t1 ->. by apply (Hgap (u :: x) u' y v z). }
  destruct (tm u) as [t|] eqn:Hu; [|done]. right. exists t. split; [done|].
  destruct (Hab u t) as [Ha _]; [left|done|]. destruct IH' as [->|(t' & Ht' & Hle)]; [cbn; lia|].
  destruct (omap_head tm mid t' Ht') as (y & v & z & Heq & Hv & _). pose proof (Hgap [] u y v z t t' ltac:(by rewrite Heq) Hu Hv). cbn [length].
  rewrite Nat2Z.inj_succ. lia.
Qed.

Definition start_of (n : string) (ev : event) : option Z := match ev with EvStartCall _ n' _ t => if bool_decide (n' = n) then Some t else None | _ => None end.
Lemma start_of_inv n ev t : start_of n ev = Some t -> exists g f, ev = EvStartCall g n f t.
Proof. destruct ev; cbn; try done. case_bool_decide; [|done]. intros [= ->]. subst. by eexists _, _. Qed.
Lemma engine_starts_omap log n : engine_starts log n = length (omap (start_of n) log).
Proof. induction log as [|ev log IH]; [done|]. destruct ev; try exact IH. cbn [engine_starts]. rewrite IH. cbn. by case_bool_decide. Qed.

Lemma engine_rate E s l2 mid l0 n delta a b : reachable E s -> s_log s = l2 ++ mid ++ l0 -> (forall m, EvInstalled n m ∉ mid) ->
  (forall g base c, base = c_errorDelay (e_cfg E) \/ base = c_bounceDelay (e_cfg E) -> (delta <= attempt_delay E g base c)%Z) ->
  (forall g f t, EvStartCall g n f t ∈ mid -> (a <= t <= b)%Z) ->
  0 < engine_starts mid n -> ((Z.of_nat (engine_starts mid n) - 1) * delta <= b - a)%Z.
Proof.
  intros Hr Heq Hni Hd Hab. rewrite engine_starts_omap. apply gaps.
  - intros x u y v z t2 t1 Hmid (g2 & f2 & ->)%start_of_inv (g1 & f1 & ->)%start_of_inv.
    assert (Heq' : s_log s = (l2 ++ x) ++ EvStartCall g2 n f2 t2 :: y ++ EvStartCall g1 n f1 t1 :: z ++ l0).
    { rewrite Heq, Hmid, <- !app_assoc. cbn. by rewrite <- app_assoc. }
    destruct (spacing E s _ _ _ _ _ _ _ _ _ _ Hr Heq') as (ya & yb & sn & t & d & -> & H1 & H2).
    enough (delta <= d)%Z by lia.
    assert (Heq3 : s_log s = ((l2 ++ x) ++ EvStartCall g2 n f2 t2 :: ya) ++ EvAttempt g2 n sn t d :: yb ++ EvStartCall g1 n f1 t1 :: z ++ l0).
    { rewrite Heq', <- (app_assoc (l2 ++ x)). cbn. by rewrite <- (app_assoc ya). }
    destruct (attempt_why E s _ _ _ _ _ _ _ Hr Heq3) as (_ & _ & base & -> & Hwhy). apply Hd.
    destruct Hwhy as [(_ & m & l & Hx)|[(-> & _)|(g' & raw & e & t' & l & _ & [[_ ->]|[_ Hx]])]]; [exfalso|by right|by right|].
    + destruct yb as [|ev yb]; [done|]. injection Hx as -> _. apply (Hni m). rewrite Hmid. apply elem_of_app. right. right. apply elem_of_app. left. apply elem_of_app. right. right. left.
    + unfold restart_delay in Hx. destruct (terminal e); [done|]. destruct (is_const e KBounce); [injection Hx as <-; by right|].
      destruct (is_const e KUninstall); [done|]. injection Hx as <-. by left.
  - intros u t Hin (g & f & ->)%start_of_inv. by eapply Hab.
Qed.
Lemma engine_rate_positive E s l2 mid l0 n delta a b : reachable E s -> s_log s = l2 ++ mid ++ l0 -> (forall m, EvInstalled n m ∉ mid) ->
  (0 < c_errorDelay (e_cfg E))%Z -> (0 < c_bounceDelay (e_cfg E))%Z -> (forall g base count, (0 < base)%Z -> (delta <= e_delay E g base count)%Z) ->
  (forall g f t, EvStartCall g n f t ∈ mid -> (a <= t <= b)%Z) ->
  0 < engine_starts mid n -> ((Z.of_nat (engine_starts mid n) - 1) * delta <= b - a)%Z.
Proof.
  intros Hr Heq Hni He Hb Hd. apply (engine_rate E s l2 mid l0 n delta a b Hr Heq Hni). intros g base c Hbase. unfold attempt_delay.
  destruct (Z.ltb_spec 0 base) as [H|H]; [by apply Hd|]. destruct Hbase; subst; lia.
Qed.
