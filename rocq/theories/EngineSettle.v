(** The engine settles: proof of C24. *)
From stdpp Require Import gmap strings list relations.
From Coq Require Import ZArith.
From RecordUpdate Require Import RecordSet.
From Verif Require Import Err Tomb Sum Order Validate ValidateSpec ValidateProofs Snapshot Engine EngineSpec EngineProgressSpec EngineMicro EngineSteps EngineLog EngineSafety EngineFresh EngineKill EngineObs EngineHandlers EngineProgress.
Import RecordSetNotations.

Section settle.
Context (W : string -> nat).

Definition has_worker (s : state) (n : string) : bool := match i_worker (info_of s n) with Some _ => true | None => false end.
Definition asked (s : state) (g : nat) : bool := bool_decide (g ∈ s_cancelled s).
Definition norm_err (e : err) : err := if err_is e (EConst KStartAborted) then EConst KStartAborted else e.

Definition phi (s : state) (g : nat) (r : gor) : nat :=
  match g_pc r with
  | PGone => 0
  | p =>
    let w := W (g_name r) in
    rank p +
    (if asked s g then (if has_worker s (g_name r) then w else 0) + 6 + w
     else match p with
     | PDelay _ | PStart | PSendStarted _ | PReturned (inl _) => w
     | PReturned (inr e) => if terminal (filtered s (g_name r) (Some (norm_err e))) then 0 else 6 + w
     | PSendStopped e => (if has_worker s (g_name r) then w else 0) +
                         (if terminal (filtered s (g_name r) e) then 0 else 6 + w)
     | _ => 0
     end)
  end.
Definition Phi (s : state) : nat := msum (phi s) (s_gors s) + shot s.

Lemma rank_phi s g r : rank (g_pc r) <= phi s g r.
Proof. unfold phi. destruct (g_pc r); simpl; lia. Qed.
Lemma psi_Phi s : psi s <= Phi s.
Proof. unfold psi, Phi. assert (msum (fun _ r => rank (g_pc r)) (s_gors s) <= msum (phi s) (s_gors s)); [|lia]. apply msum_mono. intros. apply rank_phi. Qed.

Lemma phi_same s s' g r : (g_pc r <> PGone -> has_worker s' (g_name r) = has_worker s (g_name r)) -> (g ∈ s_cancelled s' <-> g ∈ s_cancelled s) ->
  (g_pc r <> PGone -> manifold_of s' (g_name r) = manifold_of s (g_name r)) -> phi s' g r = phi s g r.
Proof.
  intros H1 H2 H3. unfold phi, filtered. assert (asked s' g = asked s g) as -> by (unfold asked; by apply bool_decide_ext).
  destruct (g_pc r); try done; rewrite ?H1, ?H3 by done; done.
Qed.
Lemma Phi_work s s' : same_work s s' -> Phi s' = Phi s.
Proof.
  intros []. unfold Phi, shot. rewrite sw_gors, sw_oneShot. f_equal. apply msum_ext. intros g r Hg.
  apply phi_same; unfold has_worker, info_of, manifold_of; rewrite ?sw_current, ?sw_cancelled, ?sw_manifolds; done.
Qed.

(** What the accounting needs to know about a state *)
Record pinv (s : state) : Prop := {
  p_gids : forall g r, s_gors s !! g = Some r -> g < s_next s;
  p_canc : forall g, g ∈ s_cancelled s -> g < s_next s;
  p_cancel : forall n i c, s_current s !! n = Some i -> i_cancel i = Some c -> exists r, s_gors s !! c = Some r /\ g_name r = n;
  p_heavy : forall n, lsum (fun d => 6 + 2 * W d) (dependents_of s n) <= W n
}.
Lemma pinv_work s s' : same_work s s' -> pinv s -> pinv s'.
Proof.
  intros [] []. split; rewrite ?sw_gors0, ?sw_gors, ?sw_next, ?sw_cancelled, ?sw_current; try done.
  intros n. unfold dependents_of. rewrite sw_dependents. apply p_heavy0.
Qed.

Lemma launch_phi E n d s : pinv s -> pinv (launch E n d s) /\ Phi (launch E n d s) = Phi s + 6 + W n.
Proof.
  intros [Hg Hc Hcc Hh]. unfold launch. split.
  - split; simpl.
    + intros g r. rewrite lookup_insert_Some. intros [[<- _]|[_ Hx]]; [lia|]. specialize (Hg _ _ Hx). lia.
    + intros g Hx. specialize (Hc _ Hx). lia.
    + intros k i c. rewrite lookup_insert_Some. intros [[<- <-]|[Hne Hk]]; simpl.
      * intros [= <-]. rewrite lookup_insert. by eexists.
      * intros Hi. destruct (Hcc _ _ _ Hk Hi) as (r & Hr & Hn). exists r. split; [|done].
        rewrite lookup_insert_ne; [done|]. specialize (Hg _ _ Hr). lia.
    + apply Hh.
  - unfold Phi, shot. simpl. rewrite msum_new.
    2:{ apply eq_None_not_Some. intros [r Hr]. specialize (Hg _ _ Hr). lia. }
    match goal with |- context [msum ?f (s_gors s)] => rewrite (msum_ext f (phi s) (s_gors s)) end.
    + unfold phi at 1. simpl. unfold asked. simpl. rewrite bool_decide_eq_false_2; [lia|]. intros Hx. specialize (Hc _ Hx). lia.
    + intros g r Hr. apply phi_same; [|done|done]. intros _. unfold has_worker, info_of. simpl.
      destruct (decide (n = g_name r)) as [<-|Hne]; [rewrite lookup_insert; simpl; by destruct (s_current s !! n)|].
      by rewrite lookup_insert_ne.
Qed.

Lemma request_start_phi E n d s : pinv s -> pinv (request_start E n d s) /\ Phi (request_start E n d s) <= Phi s + 6 + W n.
Proof.
  intros P. unfold request_start.
  set (s1 := match s_manifolds s !! n with Some _ => s | None => _ end).
  assert (same_work s s1) as H1 by (unfold s1; destruct (s_manifolds s !! n); [apply same_work_refl|apply kill_work]). clearbody s1.
  set (s2 := if i_stopped (info_of s1 n) then s1 else _).
  assert (same_work s1 s2) as H2 by (unfold s2; destruct (i_stopped _); [apply same_work_refl|apply kill_work]). clearbody s2.
  pose proof (poll_work E s2) as H3. set (s3 := poll E s2) in *. clearbody s3.
  assert (same_work s s3) as H by eauto using same_work_trans.
  apply (pinv_work _ _ H) in P. rewrite <- (Phi_work _ _ H). destruct (dying s3); [split; [done|lia]|].
  destruct (launch_phi E n d s3 P) as [? ->]. split; [done|lia].
Qed.

Lemma request_stop_phi n s : pinv s -> pinv (request_stop n s) /\ Phi (request_stop n s) <= Phi s + 6 + 2 * W n.
Proof.
  intros P. unfold request_stop. destruct (i_stopping (info_of s n) || i_stopped (info_of s n)) eqn:Hc; [split; [done|lia]|].
  apply orb_false_iff in Hc as [Hsp Hst].
  assert (exists i, s_current s !! n = Some i) as [i Hi].
  { destruct (s_current s !! n) as [i|] eqn:Hi; [eauto|]. unfold info_of in Hst. by rewrite Hi in Hst. }
  unfold do_stop. cbv zeta. rewrite (info_of_eq _ _ _ Hi). 
  change (i_cancel (i <| i_stopping := true |>)) with (i_cancel i). change (i_worker (i <| i_stopping := true |>)) with (i_worker i).
  set (s1 := match i_cancel i with Some _ => _ | None => _ end).
  assert (s_gors s1 = s_gors s /\ s_current s1 = s_current s /\ s_next s1 = s_next s /\ s_manifolds s1 = s_manifolds s /\
    s_dependents s1 = s_dependents s /\ s_oneShot s1 = s_oneShot s /\
    s_cancelled s1 = match i_cancel i with Some c => {[c]} ∪ s_cancelled s | None => s_cancelled s end) as (A1 & A2 & A3 & A4 & A5 & A6 & A7).
  { unfold s1. by destruct (i_cancel i). }
  clearbody s1.
  set (s2 := match i_worker i with Some _ => _ | None => _ end).
  assert (same_work s1 s2) as [B1 B2 B3 B4 B5 B6 B7] by (unfold s2; destruct (i_worker i); [apply kill_worker_work|apply same_work_refl]). clearbody s2.
  destruct P as [Hg Hcc Hca Hh].
  split.
  - split; simpl; rewrite ?B4, ?B5, ?B6, ?A1, ?A3, ?A7.
    + done.
    + intros g. destruct (i_cancel i) as [c|] eqn:Hic; [|apply Hcc].
      intros [->%elem_of_singleton|?]%elem_of_union; [|by apply Hcc].
      destruct (Hca _ _ _ Hi Hic) as (r & Hr & _). by eapply Hg.
    + intros k j c. rewrite lookup_insert_Some, B1, A2. intros [[<- <-]|[Hne Hk]]; [done|]. by eapply Hca.
    + intros k. unfold dependents_of. simpl. rewrite B3, A5. apply Hh.
  - set (s' := set_info n _ s2).
    assert (forall (g : nat) r, has_worker s' (g_name r) = has_worker s (g_name r) /\ manifold_of s' (g_name r) = manifold_of s (g_name r)) as Hsame.
    { intros g r. unfold has_worker, info_of, manifold_of. simpl. rewrite B1, A2, B2, A4. split; [|done].
      destruct (decide (n = g_name r)) as [<-|Hne]; [by rewrite lookup_insert, Hi|by rewrite lookup_insert_ne]. }
    destruct (i_cancel i) as [c|] eqn:Hic.
    2:{ unfold Phi, shot. simpl. rewrite B4, A1, B7, A6. rewrite (msum_ext (phi s') (phi s)); [lia|].
        intros g r Hr. apply phi_same; [intros _; apply (Hsame g)| |intros _; apply (Hsame g)]. simpl. by rewrite B6, A7. }
    destruct (Hca _ _ _ Hi Hic) as (r & Hr & Hn).
    unfold Phi, shot. simpl. rewrite B4, A1, B7, A6.
    rewrite (msum_delete (phi s') (s_gors s) c r Hr), (msum_delete (phi s) (s_gors s) c r Hr).
    rewrite (msum_ext (phi s') (phi s) (delete c (s_gors s))).
    + enough (phi s' c r <= phi s c r + 6 + 2 * W n) by lia.
      unfold phi. destruct (Hsame c r) as [-> Hm]. unfold filtered. rewrite Hm, Hn.
      assert (asked s' c = true) as -> by (unfold asked; apply bool_decide_eq_true_2; simpl; rewrite B6, A7; set_solver).
      destruct (g_pc r); destruct (asked s c); destruct (has_worker s n); lia.
    + intros g r' [Hne Hr']%lookup_delete_Some. apply phi_same; [intros _; apply (Hsame g)| |intros _; apply (Hsame g)].
      simpl. rewrite B6, A7. set_solver.
Qed.

Lemma bounce_one_phi E d s : pinv s -> pinv (bounce_one E d s) /\ Phi (bounce_one E d s) <= Phi s + (6 + 2 * W d).
Proof.
  intros P. unfold bounce_one. destruct (i_stopped _).
  - destruct (request_start_phi E d (c_bounceDelay (e_cfg E)) s P). split; [done|lia].
  - destruct (request_stop_phi d s P). split; [done|lia].
Qed.
Lemma lsum_cons {A} (f : A -> nat) x l : lsum f (x :: l) = f x + lsum f l.
Proof. done. Qed.
Lemma bounce_phi E l : forall s, pinv s -> pinv (fold_left (fun s d => bounce_one E d s) l s) /\
  Phi (fold_left (fun s d => bounce_one E d s) l s) <= Phi s + lsum (fun d => 6 + 2 * W d) l.
Proof.
  induction l as [|d l IH]; intros s P; cbn [fold_left]; [split; [done|lia]|].
  destruct (bounce_one_phi E d s P) as [P1 H1]. destruct (IH _ P1) as [P2 H2]. split; [done|]. rewrite lsum_cons. lia.
Qed.
Lemma bounce_dependents_phi E n s : pinv s -> pinv (bounce_dependents E n s) /\ Phi (bounce_dependents E n s) <= Phi s + W n.
Proof.
  intros P. unfold bounce_dependents. destruct (bounce_phi E (dependents_of s n) s P) as [P1 H1]. split; [done|].
  pose proof (p_heavy s P n). lia.
Qed.

Lemma lsum_remove_dups (f : string -> nat) l : lsum f (remove_dups l) <= lsum f l.
Proof. induction l as [|x l IH]; [done|]. cbn [remove_dups]. case_decide; rewrite ?lsum_cons; lia. Qed.
Lemma lsum_filter (f : string -> nat) (P : string -> Prop) `{forall x, Decision (P x)} l : lsum f (filter P l) <= lsum f l.
Proof. induction l as [|x l IH]; [done|]. rewrite filter_cons. case_decide; rewrite ?lsum_cons; lia. Qed.

Lemma uninstall_pinv E n s : pinv s -> (forall r g, s_gors s !! g = Some r -> g_name r = n -> g_pc r = PGone) ->
  pinv (uninstall E n s) /\ Phi (uninstall E n s) = Phi s.
Proof.
  intros [Hg Hc Hca Hh] Hgone. split.
  - split; try done; simpl.
    + intros k i c [_ Hk]%lookup_delete_Some. by apply Hca.
    + intros k. unfold dependents_of. simpl. rewrite lookup_fmap. specialize (Hh k). unfold dependents_of in Hh.
      destruct (s_dependents s !! k) as [l|]; simpl in *; [|lia].
      unfold uninstall_list. rewrite (lsum_perm _ _ _ (iter_order_perm _ _)).
      pose proof (lsum_filter (fun d => 6 + 2 * W d) (fun d => d <> n) (remove_dups l)).
      pose proof (lsum_remove_dups (fun d => 6 + 2 * W d) l). simpl in *. lia.
  - unfold Phi, shot. simpl. f_equal. apply msum_ext. intros g r Hr.
    apply phi_same; [|done|]; intros Hp; unfold has_worker, info_of, manifold_of; simpl; (rewrite lookup_delete_ne; [done|]);
      intros Heq; destruct Hp; by apply (Hgone r g).
Qed.

Lemma Phi_upd s s' g r r' : s_gors s !! g = Some r -> s_gors s' = <[g := r']> (s_gors s) -> s_oneShot s' = s_oneShot s ->
  (forall h rh, h <> g -> s_gors s !! h = Some rh -> phi s' h rh = phi s h rh) -> Phi s' + phi s g r = Phi s + phi s' g r'.
Proof.
  intros Hg Hs Ho Hx. unfold Phi, shot. rewrite Hs, Ho, (msum_delete (phi s) _ _ _ Hg).
  rewrite (msum_delete (phi s') _ g r') by apply lookup_insert. rewrite delete_insert_delete.
  rewrite (msum_ext (phi s') (phi s) (delete g (s_gors s))); [lia|].
  intros h rh [Hne Hh]%lookup_delete_Some. by apply Hx.
Qed.
Lemma Phi_same s s' : s_gors s' = s_gors s -> s_oneShot s' = s_oneShot s ->
  (forall h rh, s_gors s !! h = Some rh -> phi s' h rh = phi s h rh) -> Phi s' = Phi s.
Proof. intros Hs Ho Hx. unfold Phi, shot. rewrite Hs, Ho. f_equal. by apply msum_ext. Qed.

Lemma pinv_gor s s' g r r' : s_gors s !! g = Some r -> s_gors s' = <[g := r']> (s_gors s) -> g_name r' = g_name r ->
  s_next s' = s_next s -> s_cancelled s' = s_cancelled s -> s_current s' = s_current s -> s_dependents s' = s_dependents s ->
  pinv s -> pinv s'.
Proof.
  intros Hg Hs Hn H1 H2 H3 H4 [Ha Hb Hc Hd]. split; rewrite ?Hs, ?H1, ?H2, ?H3.
  - intros h rh. rewrite lookup_insert_Some. intros [[<- <-]|[_ Hx]]; eauto.
  - done.
  - intros n i c Hi Hic. destruct (Hc n i c Hi Hic) as (rc & Hrc & Hrn).
    destruct (decide (c = g)) as [->|Hne]; [|exists rc; by rewrite lookup_insert_ne].
    exists r'. rewrite lookup_insert. split; [done|]. congruence.
  - intros n. unfold dependents_of. rewrite H4. apply Hd.
Qed.

Lemma got_started_phi E g n f sp x al w s : inv s -> pinv s -> s_gors s !! g = Some (mkGor n f sp x al (PSendStarted w)) ->
  pinv (got_started E g n w al (set_pc g (waiting_pc w) s)) /\
  Phi (got_started E g n w al (set_pc g (waiting_pc w) s)) < Phi s.
Proof.
  intros V P Hg. destruct (v_active s V g _ Hg) as (i & Hi & Hok); [done|]. simpl in Hi, Hok.
  set (s1 := set_pc g (waiting_pc w) s).
  assert (s_gors s1 = <[g := mkGor n f sp x al (waiting_pc w)]> (s_gors s)) as Hgs by (simpl; by rewrite (alter_insert_eq _ _ _ _ Hg)).
  assert (pinv s1) as P1 by (by eapply (pinv_gor s s1)).
  assert (info_of s1 n = i) as Hi1 by (by apply info_of_eq).
  assert (i_worker i = None) as Hw by (destruct Hok; auto).
  assert (has_worker s n = false) as Hh by (unfold has_worker; by rewrite (info_of_eq _ _ _ Hi), Hw).
  assert (Phi s1 + phi s g (mkGor n f sp x al (PSendStarted w)) = Phi s + phi s1 g (mkGor n f sp x al (waiting_pc w))) as HP.
  { apply Phi_upd; [done|done|done|]. intros. by apply phi_same. }
  unfold got_started. rewrite Hi1, Hw.
  destruct Hok as [_ _ _ Hc _].
  destruct (i_stopping i).
  - destruct (kill_worker_work g n w s1) as []. split; [eapply pinv_work; [apply kill_worker_work|done]|].
    rewrite (Phi_work _ _ (kill_worker_work g n w s1)).
    enough (phi s1 g (mkGor n f sp x al (waiting_pc w)) < phi s g (mkGor n f sp x al (PSendStarted w))) by lia.
    unfold phi. simpl. change (asked s1 g) with (asked s g). change (has_worker s1 n) with (has_worker s n). rewrite Hh.
    destruct w; simpl; destruct (asked s g); lia.
  - destruct Hc as [_ Hc]. assert (asked s g = false) as Ha by (by apply bool_decide_eq_false_2).
    assert (Phi s1 + 1 + W n = Phi s) as HP1.
    { enough (phi s1 g (mkGor n f sp x al (waiting_pc w)) + 1 + W n = phi s g (mkGor n f sp x al (PSendStarted w))) by lia.
      unfold phi. simpl. change (asked s1 g) with (asked s g). rewrite Ha. destruct w; simpl; lia. }
    pose proof (poll_work E s1) as Hw2. set (s2 := poll E s1) in *. clearbody s2.
    pose proof (pinv_work _ _ Hw2 P1) as P2. pose proof (Phi_work _ _ Hw2) as HP2.
    cbv zeta. destruct (dying s2).
    + split; [eapply pinv_work; [apply kill_worker_work|done]|]. rewrite (Phi_work _ _ (kill_worker_work g n w s2)). lia.
    + destruct Hw2 as [B1 B2 B3 B4 B5 B6 B7].
      assert (pinv (register g n w al s2)) as P3.
      { destruct P2 as [Ga Gb Gc Gd]. split; try done. simpl. intros k j c. rewrite lookup_insert_Some. intros [[<- <-]|[_ Hk]]; [|by apply Gc].
        simpl. assert (s_current s2 !! n = Some i) as Hi2 by (by rewrite B1). rewrite (info_of_eq _ _ _ Hi2). by apply Gc. }
      assert (Phi (register g n w al s2) = Phi s2) as HP3.
      { apply Phi_same; [done|done|]. intros h rh Hrh. rewrite B4, Hgs in Hrh.
        destruct (decide (h = g)) as [->|Hne].
        - rewrite lookup_insert in Hrh. injection Hrh as <-. unfold phi. simpl.
          assert (asked (register g n w al s2) g = false) as -> by (apply bool_decide_eq_false_2; simpl; by rewrite B6).
          assert (asked s2 g = false) as -> by (apply bool_decide_eq_false_2; by rewrite B6). by destruct w.
        - rewrite lookup_insert_ne in Hrh by done. apply phi_same; [|done|done].
          intros Hp. unfold has_worker, info_of. simpl. rewrite lookup_insert_ne; [done|].
          intros Heq. apply Hne. by apply (v_uniq s V h g rh _ Hrh Hg). }
      destruct (bounce_dependents_phi E n _ P3) as [P4 HP4]. split; [done|]. lia.
Qed.

Lemma got_stopped_phi E g n f sp x al e s : inv s -> pinv s -> s_gors s !! g = Some (mkGor n f sp x al (PSendStopped e)) ->
  pinv (got_stopped E g n e al (set_pc g PGone s)) /\
  Phi (got_stopped E g n e al (set_pc g PGone s)) < Phi s.
Proof.
  intros V P Hg. destruct (v_active s V g _ Hg) as (i & Hi & Hok); [done|]. simpl in Hi, Hok.
  set (s1 := set_pc g PGone s).
  assert (s_gors s1 = <[g := mkGor n f sp x al PGone]> (s_gors s)) as Hgs by (simpl; by rewrite (alter_insert_eq _ _ _ _ Hg)).
  assert (pinv s1) as P1 by (by eapply (pinv_gor s s1)).
  assert (info_of s1 n = i) as Hi1 by (by apply info_of_eq).
  assert (Phi s1 + phi s g (mkGor n f sp x al (PSendStopped e)) = Phi s + 0) as HP.
  { refine (Phi_upd s s1 g _ (mkGor n f sp x al PGone) Hg Hgs eq_refl _). intros. by apply phi_same. }
  assert (forall h rh, s_gors s1 !! h = Some rh -> g_name rh = n -> g_pc rh = PGone) as Hgone.
  { intros h rh. rewrite Hgs. rewrite lookup_insert_Some. intros [[<- <-]|[Hne Hh]] Hn; [done|].
    assert (g_pc rh = PGone \/ g_pc rh <> PGone) as [Hx|Hx] by (destruct (g_pc rh); auto); [done|].
    destruct Hne. by apply (v_uniq s V g h _ rh Hg Hh). }
  unfold got_stopped. rewrite Hi1. change (filtered s1 n e) with (filtered s n e).
  assert (pinv (end_attempt E g n e al s1) /\ Phi (end_attempt E g n e al s1) = Phi s1 /\
    s_gors (end_attempt E g n e al s1) = s_gors s1) as (P2 & HP2 & Hg2).
  { unfold end_attempt. cbv zeta.
    set (s2 := if i_stopped _ then _ else _).
    assert (same_work s1 s2) as B.
    { unfold s2. destruct (i_stopped _); [|destruct (c_isFatal _ _)].
      - eapply same_work_trans; [|apply kill_work]. by split.
      - eapply same_work_trans; [|apply kill_work]. by split.
      - by split. }
    clearbody s2. pose proof (pinv_work _ _ B P1) as P2. pose proof (Phi_work _ _ B) as HP2. destruct B as [B1 B2 B3 B4 B5 B6 B7].
    rewrite <- HP2. split; [|split; [|by simpl; rewrite B4]].
    - destruct P2 as [Ga Gb Gc Gd]. split; try done. simpl. intros k j c. rewrite lookup_insert_Some. intros [[<- <-]|[_ Hk]]; [done|by apply Gc].
    - apply Phi_same; [done|done|]. intros h rh Hrh. apply phi_same; [|done|done]. intros Hp.
      unfold has_worker, info_of. simpl. rewrite lookup_insert_ne; [done|]. intros Heq. destruct Hp. rewrite B4 in Hrh. by eapply Hgone. }
  pose proof (poll_work E (end_attempt E g n e al s1)) as B.
  set (s3 := poll E (end_attempt E g n e al s1)) in *.
  pose proof (pinv_work _ _ B P2) as P3. pose proof (Phi_work _ _ B) as HP3. destruct B as [_ _ _ B4 _ _ _]. rewrite Hg2 in B4.
  clearbody s3. clear P2 Hg2. cbv zeta.
  assert (has_worker s n = match i_worker i with Some _ => true | None => false end) as Hh by (unfold has_worker; by rewrite (info_of_eq _ _ _ Hi)).
  unfold phi in HP. simpl in HP. rewrite Hh in HP.
  destruct (dying s3); [split; [done|lia]|].
  set (s4 := if i_stopping i then _ else _).
  assert (pinv s4 /\ Phi s4 <= Phi s3 + (if asked s g then 6 + W n else if terminal (filtered s n e) then 0 else 6 + W n)) as [P4 HP4].
  { unfold s4. destruct Hok as [_ _ _ Hc _]. destruct (i_stopping i).
    - destruct Hc as [_ Hc]. assert (asked s g = true) as -> by (by apply bool_decide_eq_true_2).
      destruct (request_start_phi E n (c_bounceDelay (e_cfg E)) s3 P3). split; [done|lia].
    - destruct Hc as [_ Hc]. assert (asked s g = false) as -> by (by apply bool_decide_eq_false_2).
      unfold after_stop. destruct (filtered s n e) as [e'|]; simpl; [|split; [done|lia]].
      destruct (err_is e' (EConst KStartAborted)); simpl; [split; [done|lia]|].
      destruct (err_is e' (EConst KMissing)); [split; [done|lia]|].
      destruct (err_is e' (EConst KBounce)); [destruct (request_start_phi E n (c_bounceDelay (e_cfg E)) s3 P3); split; [done|lia]|].
      destruct (err_is e' (EConst KUninstall)); [|destruct (request_start_phi E n (c_errorDelay (e_cfg E)) s3 P3); split; [done|lia]].
      destruct (uninstall_pinv E n s3 P3) as [? ->]; [|split; [done|lia]].
      intros r h. rewrite B4. apply Hgone. }
  clearbody s4.
  assert (pinv (match i_worker i with Some _ => bounce_dependents E n s4 | None => s4 end) /\
    Phi (match i_worker i with Some _ => bounce_dependents E n s4 | None => s4 end) <= Phi s4 + match i_worker i with Some _ => W n | None => 0 end) as [P5 HP5].
  { destruct (i_worker i); [by apply bounce_dependents_phi|split; [done|lia]]. }
  split; [done|]. destruct (i_worker i), (asked s g), (terminal (filtered s n e)); lia.
Qed.

Lemma phi_step E s l s' : inv s -> linv E s -> kinv s -> att_inv s -> pinv s -> dying s = false -> calm (s_log s) l -> step E s l = Some s' ->
  pinv s' /\ Phi s' + (if internal l then 1 else 0) <= Phi s.
Proof.
  intros V L K A P Hd Hcalm Hs.
  assert (forall x s' k, pinv x /\ Phi x + k <= Phi s -> Some (end_iteration E x) = Some s' -> pinv s' /\ Phi s' + k <= Phi s) as Hei.
  { intros x y k [Px HPx] [= <-]. rewrite (Phi_work _ _ (end_iteration_work E x)). split; [|done]. eapply pinv_work; [apply end_iteration_work|done]. }
  assert (forall s', same_work s s' -> pinv s' /\ Phi s' + 0 <= Phi s) as Hsame.
  { intros y Hy. rewrite (Phi_work _ _ Hy). split; [by eapply pinv_work|lia]. }
  assert (forall s' g r r', s_gors s !! g = Some r -> s_gors s' = <[g := r']> (s_gors s) -> g_name r' = g_name r -> s_current s' = s_current s ->
    s_cancelled s' = s_cancelled s -> s_manifolds s' = s_manifolds s -> s_next s' = s_next s -> s_dependents s' = s_dependents s -> s_oneShot s' = s_oneShot s ->
    pinv s' /\ Phi s' + phi s g r = Phi s + phi s g r') as Hone.
  { intros y g r r' Hg Hg' Hn H1 H2 H3 H4 H5 H6. split; [by eapply (pinv_gor s y)|].
    assert (forall h rh, phi y h rh = phi s h rh) as Hphi.
    { intros h rh. apply phi_same; unfold has_worker, info_of, manifold_of; by rewrite ?H1, ?H2, ?H3. }
    rewrite <- (Hphi g r'). apply Phi_upd; try done. }
  destruct l; simpl in Hs |- *; simpl in Hcalm.
  - injection Hs as <-. apply Hsame, kill_work.
  - destruct (0 <=? d)%Z; [|done]. injection Hs as <-. apply Hsame. by split.
  - done.
  - rewrite Hd in Hs. done.
  - destruct (s_running s); [|done]. revert Hs. apply Hei. apply Hsame. eapply same_work_trans; [apply poll_work|]. by split.
  - destruct (t_dead (s_tomb s)); [|done]. injection Hs as <-. apply Hsame. by split.
  - destruct (t_dead (s_tomb s)); [|done]. injection Hs as <-. apply Hsame. by split.
  - rewrite Hd, andb_false_r in Hs. done.
  - destruct (s_gors s !! g) as [[n f sp x al p]|] eqn:Hg; [|done]. destruct p; try done.
    destruct (ready <=? s_now s)%Z; [|done]. injection Hs as <-.
    destruct (Hone (emit (EvStartCall g n f (s_now s)) (set_pc g PStart s)) g _ (mkGor n f sp x al PStart) Hg) as [H1 H2];
      try done; [simpl; by rewrite (alter_insert_eq _ _ _ _ Hg)|]. split; [done|].
    unfold phi at 1 2 in H2. simpl in H2. destruct (asked s g), (has_worker s n); simpl in *; lia.
  - destruct (s_gors s !! g) as [[n f sp x al p]|] eqn:Hg; [|done]. destruct p; try done.
    destruct (dying s || ctx_done s g) eqn:Hc; [|done]. injection Hs as <-. erewrite set_pc_expire_eq by done.
    unfold ctx_done in Hc. rewrite Hd in Hc. simpl in Hc.
    match goal with |- pinv ?y /\ _ => destruct (Hone y g _ (mkGor n f sp true al (PSendStopped (Some (EConst KStartAborted)))) Hg) as [H1 H2]; try done end.
    split; [done|]. unfold phi at 1 2 in H2. unfold asked in H2. rewrite Hc in H2. simpl in H2. destruct (has_worker s n); simpl in *; lia.
  - destruct (s_gors s !! g) as [r|] eqn:Hg; [|done]. destruct (snapshot_get _ _ _ _ _ _) as [[e c] al]. injection Hs as <-.
    match goal with |- pinv ?y /\ _ => destruct (Hone y g _ (r <| g_access := al |>) Hg) as [H1 H2]; try done end.
    split; [done|]. change (phi s g (r <| g_access := al |>)) with (phi s g r) in H2. lia.
  - destruct (s_gors s !! g) as [[n f sp x al p]|] eqn:Hg; [|done]. destruct p; try done. injection Hs as <-.
    destruct (Hone (emit (EvStartRet g n r) (set_pc g (PReturned r) s)) g _ (mkGor n f sp x al (PReturned r)) Hg) as [H1 H2];
      try done; [simpl; by rewrite (alter_insert_eq _ _ _ _ Hg)|]. split; [done|].
    unfold phi at 1 2 in H2. simpl in H2. destruct (asked s g); [simpl in *; lia|]. destruct r as [w|e]; [simpl in *; lia|].
    assert (terminal (filtered s n (Some (norm_err e))) = true) as Ht.
    { destruct (A _ _ Hg) as (l & Hl & _). simpl in Hl. specialize (Hcalm n). unfold attempt_name in Hcalm. rewrite Hl in Hcalm.
      specialize (Hcalm eq_refl). unfold after_filter in Hcalm. rewrite (l_inst E s L) in Hcalm.
      unfold filtered, manifold_of. fold (norm_err e) in Hcalm. by destruct (s_manifolds s !! n). }
    rewrite Ht in H2. simpl in H2. lia.
  - destruct (s_gors s !! g) as [[n f sp x al p]|] eqn:Hg; [|done]. destruct p; try done. injection Hs as <-.
    destruct (v_active s V g _ Hg) as (i & Hi & [_ Hst _ _ Hpc]); [done|]. simpl in Hi, Hpc.
    assert (has_worker s n = false) as Hh by (unfold has_worker; by rewrite (info_of_eq _ _ _ Hi), (Hst Hpc)).
    erewrite set_pc_expire_eq by done.
    match goal with |- pinv ?y /\ _ => match y with context [insert g ?r'] => destruct (Hone y g _ r' Hg) as [H1 H2]; try done end end.
    split; [done|]. unfold phi at 1 2 in H2. simpl in H2. rewrite Hh in H2. unfold norm_err in H2.
    destruct r as [w|e]; [destruct (asked s g); simpl in *; lia|].
    destruct (err_is e (EConst KStartAborted)); simpl in H2 |- *; destruct (asked s g);
      repeat match type of H2 with context [terminal ?t] => destruct (terminal t) end; lia.
  - destruct (s_gors s !! g) as [[n f sp x al p]|] eqn:Hg; [|done]. destruct p; try done. destruct (s_running s); [|done].
    revert Hs. apply Hei. destruct (got_started_phi E g n f sp x al w s V P Hg) as [H1 H2]. unfold waiting_pc in H1, H2. split; [done|lia].
  - destruct (s_gors s !! g) as [[n f sp x al p]|] eqn:Hg; [|done]. destruct p; try done. by rewrite Hd in Hs.
  - destruct (s_gors s !! g) as [[n f sp x al p]|] eqn:Hg; [|done]. destruct p; try done. injection Hs as <-.
    destruct (v_active s V g _ Hg) as (i & Hi & [_ Hst _ Hc Hpc]); [done|]. simpl in Hi, Hpc.
    assert (asked s g = true) as Ha.
    { apply bool_decide_eq_true_2. destruct Hcalm as (n' & w' & Hk). destruct (k_killed s K _ _ _ Hk) as (r & Hr & Hn & _ & Hx).
      rewrite Hg in Hr. injection Hr as <-. simpl in Hn, Hx. subst n'. destruct Hx as [Hx|Hx]; [done| |];
        rewrite (info_of_eq _ _ _ Hi) in Hx.
      - destruct Hpc as [_ [Hpc|[_ [Hpc|Hpc]]]]; [congruence| |congruence]. rewrite Hpc in Hc. by destruct Hc.
      - rewrite Hx in Hc. by destruct Hc. }
    destruct (Hone (emit (EvExit g n e) (set_pc g (PSendStopped e) s)) g _ (mkGor n f sp x al (PSendStopped e)) Hg) as [H1 H2];
      try done; [simpl; by rewrite (alter_insert_eq _ _ _ _ Hg)|]. split; [done|].
    unfold phi at 1 2 in H2. simpl in H2. rewrite Ha in H2. simpl in H2. lia.
  - destruct (s_gors s !! g) as [[n f sp x al p]|] eqn:Hg; [|done]. destruct p; try done. by rewrite Hd in Hs.
  - destruct (s_gors s !! g) as [[n f sp x al p]|] eqn:Hg; [|done]. destruct p; try done. destruct (s_running s); [|done].
    revert Hs. apply Hei. destruct (got_stopped_phi E g n f sp x al e s V P Hg) as [H1 H2]. split; [done|lia].
Qed.
End settle.

Lemma reachable_att E s : reachable E s -> att_inv s.
Proof.
  intros Hr. apply (reach_ind2 E (fun s D => att_inv s)); [| |done].
  - done.
  - intros s1 D1 s2 D2 V1 L1 V2 L2 HP Hm. by apply (att_micro E s1 D1 s2 D2).
Qed.

Lemma tc_converse {A} (R R' : A -> A -> Prop) : (forall a b, R a b -> R' b a) -> forall a b, tc R a b -> tc R' b a.
Proof. intros H a b Hc. induction Hc; [by apply tc_once, H|]. eapply tc_r; [done|by apply H]. Qed.

Lemma pinv_exists s : inv s -> exists W, pinv W s.
Proof.
  intros V.
  destruct (weights_exist (dependents_of s) (fun v => 6 + 2 * v) (mjoin (m_inputs <$> (map_to_list (s_manifolds s)).*2))) as [W HW].
  { intros x y (m & Hm & Hin)%(v_deps s V). apply elem_of_list_join. exists (m_inputs m). split; [done|].
    apply elem_of_list_fmap. exists m. split; [done|]. apply elem_of_list_fmap. exists (y, m). split; [done|]. by apply elem_of_map_to_list. }
  { intros x Hx. apply (v_acyc s V x). unfold on_cycle. revert Hx. apply tc_converse.
    intros a b (m & Hm & Hin)%(v_deps s V). exists (m_inputs m). split; [|done]. unfold inputs_graph. by rewrite lookup_fmap, Hm. }
  exists W. split; [apply (v_next s V)|apply (v_canc s V)| |done].
  intros n i c Hi Hc. destruct (i_stopped i) eqn:Hst; [destruct (v_stop s V n i Hi Hst) as (_ & Hx & _); congruence|].
  destruct (v_has s V n i Hi Hst) as (g & r & Hg & Hn & Hp). destruct (v_active s V g r Hg Hp) as (i' & Hi' & [_ _ _ Hgc _]).
  rewrite Hn, Hi in Hi'. injection Hi' as <-. destruct (i_stopping i); [destruct Hgc; congruence|]. destruct Hgc as [Hgc _].
  exists r. split; [congruence|done].
Qed.

(** C24: once the world is calm, the engine and its goroutines take only finitely many steps. *)
Lemma settles E s : reachable E s -> exists N, forall ls s', run E s ls = Some s' -> obeys E calm s ls -> internal_steps ls <= N.
Proof.
  intros Hr. destruct (pinv_exists s (reachable_inv E s Hr)) as [W P]. exists (Phi W s). intros ls s'.
  enough (forall s, reachable E s -> run E s ls = Some s' -> obeys E calm s ls -> (dying s = true -> internal_steps ls <= psi s) /\
    (pinv W s -> internal_steps ls <= Phi W s)) as Hx.
  { intros Hrun Hob. by apply (Hx s Hr Hrun Hob). }
  clear s Hr P. induction ls as [|l ls IH]; intros s Hr; cbn [run internal_steps obeys]; [intros _ _; lia|].
  destruct (step E s l) as [s1|] eqn:Hs; [|done]. intros Hrun [Hc Hob].
  destruct (IH s1) as [IH1 IH2]; [by eapply reachable_step|done|done|].
  assert (dying s = true -> (if internal l then 1 else 0) + internal_steps ls <= psi s) as Hdy.
  { intros Hd. pose proof (psi_step E s l s1 Hd Hs). pose proof (IH1 (step_dying_mono E s l s1 Hr Hs Hd)). lia. }
  split; [done|]. intros P. destruct (dying s) eqn:Hd; [pose proof (psi_Phi W s); specialize (Hdy eq_refl); lia|].
  destruct (reachable_linv E s Hr) as [V L].
  destruct (phi_step W E s l s1 V L (reachable_kinv E s Hr) (reachable_att E s Hr) P Hd Hc Hs) as [P1 H1]. specialize (IH2 P1). lia.
Qed.
