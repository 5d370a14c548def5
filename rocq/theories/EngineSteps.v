(** Every step of the engine is a sequence of [micro] updates; induction principle for reachable states. *)
From stdpp Require Import gmap strings list relations.
From Coq Require Import ZArith.
From RecordUpdate Require Import RecordSet.
From Verif Require Import Err Tomb Order Validate ValidateSpec ValidateProofs Snapshot Engine EngineSpec EngineMicro.
Import RecordSetNotations.

Lemma alter_insert_eq {A} (f : A -> A) (m : gmap nat A) g r : m !! g = Some r -> alter f g m = <[g := f r]> m.
Proof.
  intros H. apply map_eq. intros k. destruct (decide (g = k)) as [<-|Hne].
  - by rewrite lookup_alter, lookup_insert, H.
  - by rewrite lookup_alter_ne, lookup_insert_ne.
Qed.

Lemma set_pc_eq s g n f sn x al p p' : s_gors s !! g = Some (mkGor n f sn x al p) ->
  set_pc g p' s = s <| s_gors ::= <[g := mkGor n f sn x al p']> |>.
Proof.
  intros H. unfold set_pc, set. simpl. by erewrite (alter_insert_eq _ (s_gors s)) by done.
Qed.

Lemma set_pc_expire_eq s g n f sn x al p p' : s_gors s !! g = Some (mkGor n f sn x al p) ->
  set_pc g p' (s <| s_gors ::= alter (fun r => r <| g_expired := true |>) g |>) =
  s <| s_gors ::= <[g := mkGor n f sn true al p']> |>.
Proof.
  intros H. unfold set_pc, set. simpl. f_equal. erewrite (alter_insert_eq _ (s_gors s)) by done.
  erewrite alter_insert_eq; [|by rewrite lookup_insert]. simpl. by rewrite insert_insert.
Qed.

Lemma poll_micros E s D : micros E s D (poll E s) D.
Proof.
  unfold poll. destruct (e_preempt E (s_polls s)).
  - eapply micros_step; [apply MKill|]. apply micros_one, MPolls.
  - apply micros_one, MPolls.
Qed.

Lemma kill_same s e : s_current (kill_tomb e s) = s_current s /\ s_manifolds (kill_tomb e s) = s_manifolds s /\
  s_dependents (kill_tomb e s) = s_dependents s /\ s_running (kill_tomb e s) = s_running s /\
  s_oneShot (kill_tomb e s) = s_oneShot s /\ s_gors (kill_tomb e s) = s_gors s /\ s_next (kill_tomb e s) = s_next s /\
  s_cancelled (kill_tomb e s) = s_cancelled s /\ s_now (kill_tomb e s) = s_now s /\ s_worst (kill_tomb e s) = s_worst s.
Proof. unfold kill_tomb. case_match; done. Qed.

Lemma poll_same E s : s_current (poll E s) = s_current s /\ s_manifolds (poll E s) = s_manifolds s /\
  s_dependents (poll E s) = s_dependents s /\ s_running (poll E s) = s_running s /\
  s_oneShot (poll E s) = s_oneShot s /\ s_gors (poll E s) = s_gors s /\ s_next (poll E s) = s_next s /\
  s_cancelled (poll E s) = s_cancelled s /\ s_now (poll E s) = s_now s /\ s_worst (poll E s) = s_worst s.
Proof.
  unfold poll. case_match; [|done]. simpl. apply kill_same.
Qed.

Lemma kill_tomb_dying s : t_reason (s_tomb s) = StillAlive \/ t_reason (s_tomb s) = Reason None ->
  dying (kill_tomb None s) = true.
Proof. intros H. rewrite kill_tomb_eq by auto. done. Qed.

(** A poll that finds the engine alive changed nothing but the counter. *)
Lemma poll_alive E s : inv s -> dying (poll E s) = false -> poll E s = s <| s_polls ::= S |>.
Proof.
  intros V. unfold poll. case_match; [|done]. intros H0. exfalso.
  assert (dying (kill_tomb None s) = true) by (apply kill_tomb_dying; by destruct V).
  unfold dying in *. simpl in *. congruence.
Qed.

Lemma poll_last_change E s : last_change (s_log (poll E s)) = last_change (s_log s).
Proof. unfold poll, kill_tomb, emit. by repeat case_match. Qed.

Lemma poll_dying_mono E s : inv s -> dying s = true -> dying (poll E s) = true.
Proof.
  intros V H. unfold poll. case_match; [|done]. unfold dying. simpl.
  apply kill_tomb_dying. by destruct V.
Qed.

Lemma request_start_micros E s D n base : inv s -> s_running s = true -> is_Some (s_manifolds s !! n) ->
  i_stopped (info_of s n) = true -> launch_cause E s n base ->
  let s' := request_start E n base s in
  (micros E s D s' (D ∖ {[n]}) \/ dying s' = true /\ micros E s D s' D) /\
  s_running s' = true /\ s_oneShot s' = s_oneShot s /\ s_manifolds s' = s_manifolds s /\
  s_dependents s' = s_dependents s /\ last_change (s_log s') = last_change (s_log s).
Proof.
  intros V Hrun [m Hm] Hst Hca. unfold request_start. rewrite Hm, Hst.
  destruct (poll_same E s) as (H1 & H2 & H3 & H4 & H5 & _).
  destruct (dying (poll E s)) eqn:Hdy.
  - split; [right; split; [done|apply poll_micros]|]. rewrite poll_last_change. naive_solver.
  - split.
    + left. eapply micros_trans; [apply poll_micros|]. apply micros_one. apply MLaunch; try done.
      * congruence.
      * rewrite H2. eauto.
      * unfold info_of in *. by rewrite H1.
      * by rewrite (poll_alive E s V Hdy).
    + pose proof (poll_last_change E s) as HL. set (p := poll E s) in *. clearbody p.
      unfold launch. simpl. naive_solver.
Qed.

Lemma do_stop_eq s n i g : s_current s !! n = Some i -> i_cancel i = Some g ->
  do_stop n s = match i_worker i with
                | Some WSelf => kill_tomb None (stop_base n s)
                | _ => stop_base n s end.
Proof.
  intros Hi Hc. unfold do_stop, stop_base. rewrite (info_of_eq _ _ _ Hi).
  destruct i as [a b c w e rl st sc sa re]. simpl in *. subst c. simpl.
  destruct w as [[]|]; simpl; [|done|done].
  unfold kill_tomb, emit, set_info. simpl. by case_match.
Qed.

Lemma request_stop_micros E s D n : inv s -> s_running s = true -> is_Some (s_manifolds s !! n) ->
  stop_cause s D n ->
  (dying s = true \/ i_stopped (info_of s n) = false) ->
  let s' := request_stop n s in
  micros E s D s' (D ∖ {[n]}) /\
  s_running s' = true /\ s_oneShot s' = s_oneShot s /\ s_manifolds s' = s_manifolds s /\
  s_dependents s' = s_dependents s /\ last_change (s_log s') = last_change (s_log s) /\
  (dying s = true -> dying s' = true).
Proof.
  intros V Hrun [m Hm] Hca Hd s'. subst s'. unfold request_stop.
  destruct (i_stopping (info_of s n)) eqn:Hst; cbn [orb].
  { split; [|naive_solver]. apply micros_one. by constructor; left. }
  destruct (i_stopped (info_of s n)) eqn:Hsd.
  { split; [|naive_solver]. apply micros_one. constructor; right. naive_solver. }
  assert (exists i, s_current s !! n = Some i) as [i Hi].
  { apply (v_dom s V). eauto. }
  assert (exists g, i_cancel i = Some g) as [g Hg].
  { rewrite (info_of_eq _ _ _ Hi) in *.
    destruct (v_has s V n i Hi Hsd) as (g & r & H1 & <- & H3).
    destruct (v_active s V g r H1 H3) as (i' & Hi' & []).
    assert (i' = i) as -> by congruence. rewrite Hst in *. naive_solver. }
  rewrite (do_stop_eq _ _ _ _ Hi Hg).
  assert (micro E s D (stop_base n s) (D ∖ {[n]})) as Hmic by (apply MStop; eauto).
  assert (inv (stop_base n s)) as V' by (eapply micro_inv; eauto).
  assert (s_running (stop_base n s) = true /\ s_oneShot (stop_base n s) = s_oneShot s /\
    s_manifolds (stop_base n s) = s_manifolds s /\ s_dependents (stop_base n s) = s_dependents s /\
    last_change (s_log (stop_base n s)) = last_change (s_log s) /\ dying (stop_base n s) = dying s) as Hb.
  { unfold stop_base. rewrite (info_of_eq _ _ _ Hi). simpl. by destruct (i_worker i). }
  destruct Hb as (B1 & B2 & B3 & B4 & B5 & B6).
  destruct (i_worker i) as [[]|].
  - split; [eapply micros_step; [exact Hmic|apply micros_one, MKill]|].
    destruct (kill_same (stop_base n s) None) as (K1 & K2 & K3 & K4 & K5 & _).
    rewrite K2, K3, K4, K5. split_and!; try done.
    + unfold kill_tomb. case_match; done.
    + intros _. apply kill_tomb_dying. by destruct V'.
  - split; [by apply micros_one|]. split_and!; try done. by rewrite B6.
  - split; [by apply micros_one|]. split_and!; try done. by rewrite B6.
Qed.

Lemma micro_dying_keep E s D s' D' : inv s -> micro E s D s' D' -> dying s = true -> dying s' = true.
Proof.
  intros V H Hd. destruct H; try exact Hd.
  - apply kill_tomb_dying. by destruct V.
  - unfold stop_base. by destruct (i_worker _).
  - unfold end_base. by destruct (c_isFatal _ _).
  - unfold dying in *. simpl. unfold tomb_done, tomb_kill, t_dying in *. destruct (t_reason (s_tomb s)) eqn:Hr; [done|].
    repeat case_match; simpl in *; rewrite ?Hr in *; done.
Qed.
Lemma micros_dying E s D s' D' : micros E s D s' D' -> inv s -> dying s = true -> dying s' = true.
Proof.
  induction 1 as [|s1 D1 s2 D2 s3 D3 H _ IH]; [done|]. intros V Hd. apply IH; [by eapply micro_inv|].
  by eapply micro_dying_keep.
Qed.

Lemma bounce_micros E x l : forall s D, inv s -> s_running s = true -> s_oneShot s = true ->
  last_change (s_log s) = Some x ->
  (forall d, d ∈ l -> exists m, s_manifolds s !! d = Some m /\ x ∈ m_inputs m) ->
  D ⊆ list_to_set l ->
  (dying s = true \/ forall d m, s_manifolds s !! d = Some m -> NoDup (m_inputs m) ->
     occ d l <= 1 /\ (d ∈ l -> d ∈ D)) ->
  micros E s D (fold_left (fun s d => bounce_one E d s) l s) ∅.
Proof.
  induction l as [|d l IH]; intros s D V Hrun Hshot Hlc Hl HD Hone; simpl.
  { assert (D = ∅) as -> by set_solver. constructor. }
  destruct (Hl d) as (m & Hm & Hx); [by constructor|].
  unfold bounce_one at 2. destruct (i_stopped (info_of s d)) eqn:Hs.
  - assert (launch_cause E s d (c_bounceDelay (e_cfg E))) as Hlca by (right; left; eauto 10).
    destruct (request_start_micros E s D d (c_bounceDelay (e_cfg E)) V Hrun (ex_intro _ _ Hm) Hs Hlca)
      as (Hmic & R1 & R2 & R3 & R4 & R5).
    assert (exists D', micros E s D (request_start E d (c_bounceDelay (e_cfg E)) s) D' /\ D' ⊆ list_to_set l /\
      (dying (request_start E d (c_bounceDelay (e_cfg E)) s) = true \/ D' = D ∖ {[d]}))
      as (D' & Hm' & HD' & HD'').
    { destruct Hmic as [Hmic|[Hdy Hmic]].
      - eexists. split; [exact Hmic|]. split; [set_solver|]. by right.
      - exists ∅. split; [|split; [set_solver|by left]]. eapply micros_snoc; [exact Hmic|]. apply MDrop; [done|]. congruence. }
    eapply micros_trans; [exact Hm'|]. apply IH; try done; try congruence.
    + by eapply micros_inv.
    + intros k Hk. rewrite R3. apply Hl. by constructor.
    + destruct HD'' as [HD''| ->]; [by left|]. destruct Hone as [Hdy|Hone].
      { left. eapply micros_dying; [exact Hm'|done|done]. }
      right. rewrite R3. intros k mk Hk Hnd. destruct (Hone k mk Hk Hnd) as [Ho Hin].
      rewrite occ_cons in Ho. split; [lia|]. intros Hkl. apply elem_of_difference. split; [apply Hin; by right|].
      intros ->%elem_of_singleton. rewrite decide_True in Ho by done. rewrite occ_elem in Hkl. lia.
  - destruct (request_stop_micros E s D d V Hrun (ex_intro _ _ Hm)) as (Hmic & R1 & R2 & R3 & R4 & R5 & R6).
    { right. exists x, m. split_and!; try done. intros Hnd. destruct Hone as [?|Hone]; [by right|]. left.
      eapply Hone; [done|done|by left]. }
    { by right. }
    eapply micros_trans; [exact Hmic|]. apply IH; try done; try congruence.
    + by eapply micros_inv.
    + intros k Hk. rewrite R3. apply Hl. by constructor.
    + set_solver.
    + destruct Hone as [Hdy|Hone]; [left; by apply R6|].
      right. rewrite R3. intros k mk Hk Hnd. destruct (Hone k mk Hk Hnd) as [Ho Hin].
      rewrite occ_cons in Ho. split; [lia|]. intros Hkl. apply elem_of_difference. split; [apply Hin; by right|].
      intros ->%elem_of_singleton. rewrite decide_True in Ho by done. rewrite occ_elem in Hkl. lia.
Qed.

Lemma bounce_dependents_micros E x s D : inv s -> s_running s = true -> s_oneShot s = true ->
  last_change (s_log s) = Some x -> D ⊆ list_to_set (dependents_of s x) ->
  dying s = true \/ list_to_set (dependents_of s x) ⊆ D ->
  micros E s D (bounce_dependents E x s) ∅.
Proof.
  intros V Hr Ho Hl HD HD'. unfold bounce_dependents. eapply bounce_micros; eauto.
  - intros d Hd. by apply (v_deps s V).
  - destruct HD' as [?|HD']; [by left|]. right. intros d m Hm Hnd. split; [by eapply v_once|]. set_solver.
Qed.

Lemma stop_all_micros E l : forall s D, inv s -> s_running s = true -> s_oneShot s = false ->
  (forall d, d ∈ l -> is_Some (s_manifolds s !! d)) -> D ⊆ list_to_set l ->
  micros E s D (fold_left (fun s n => request_stop n s) l s) ∅.
Proof.
  induction l as [|d l IH]; intros s D V Hrun Hshot Hl HD; simpl.
  { assert (D = ∅) as -> by set_solver. constructor. }
  pose proof (v_shot s V Hshot) as Hdy.
  destruct (request_stop_micros E s D d V Hrun) as (Hmic & R1 & R2 & R3 & R4 & R5 & _).
  { apply Hl. by constructor. }
  { by left. }
  { by left. }
  eapply micros_trans; [exact Hmic|]. apply IH; try done; try congruence.
  - by eapply micros_inv.
  - intros k Hk. rewrite R3. apply Hl. by constructor.
  - set_solver.
Qed.

Lemma end_iteration_micros E s : inv s -> s_running s = true -> micros E s ∅ (end_iteration E s) ∅.
Proof.
  intros V Hrun. unfold end_iteration.
  destruct (dying (poll E s) && all_others_stopped (poll E s)) eqn:Hb; [|apply poll_micros].
  apply andb_true_iff in Hb as [? ?].
  eapply micros_snoc; [apply poll_micros|]. apply MDead; try done.
  by destruct (poll_same E s) as (_ & _ & _ & -> & _).
Qed.

(** [s'] is reached by the handler, and then the iteration ends *)
Lemma handler_micros E s s' : inv s -> micros E s ∅ s' ∅ -> s_running s' = true ->
  micros E s ∅ (end_iteration E s') ∅.
Proof.
  intros V H Hr. eapply micros_trans; [exact H|]. apply end_iteration_micros; [|done]. by eapply micros_inv.
Qed.

Lemma micro_running E s D s' D' : micro E s D s' D' ->
  s_running s' = s_running s \/
  (s_running s = true /\ dying s = true /\ all_others_stopped s = true /\
   s_running s' = false /\ D = ∅).
Proof.
  destruct 1; try (left; reflexivity); [left..|].
  - unfold kill_tomb. by case_match.
  - unfold stop_base. simpl. by destruct (i_worker _).
  - unfold end_base. simpl. by destruct (c_isFatal _ _).
  - right. done.
Qed.

Lemma check_acyclic_none E n m s : s_manifolds s !! n = None ->
  check_acyclic E n m s = None <-> acyclic (inputs_graph (<[n := m]> (s_manifolds s))).
Proof.
  intros Hn. unfold check_acyclic.
  assert (s_manifolds s ∪ {[n := m]} = <[n := m]> (s_manifolds s)) as ->.
  { rewrite map_union_comm; [by rewrite insert_union_singleton_l|].
    apply map_disjoint_singleton_r. done. }
  apply validate_err_none. unfold map_order. apply iter_order_perm.
Qed.

Lemma got_install_micros E n m s : inv s -> s_running s = true ->
  micros E s ∅ (got_install E n m s).2 ∅ /\ s_running (got_install E n m s).2 = true.
Proof.
  intros V Hrun. unfold got_install.
  destruct (s_manifolds s !! n) eqn:Hn; simpl; [split; [constructor|done]|].
  destruct (check_acyclic E n m s) as [e|] eqn:Hc; simpl.
  { split; [|done]. apply micros_one, MPolls. }
  apply (check_acyclic_none E n m s Hn) in Hc.
  set (s0 := s <| s_polls ::= S |>).
  assert (inv s0) as V0 by (eapply micro_inv; [apply (MPolls E s ∅)|done]).
  assert (micro E s0 ∅ (record_manifold n m s0) (if dying s0 then ∅ else {[n]})) as Hmic by (by apply MRecord).
  assert (inv (record_manifold n m s0)) as V1 by (eapply micro_inv; eauto).
  destruct (request_start_micros E (record_manifold n m s0) (if dying s0 then ∅ else {[n]}) n 0 V1) as (HR & R1 & R2 & _).
  { done. }
  { simpl. rewrite lookup_insert. eauto. }
  { unfold info_of. simpl. by rewrite lookup_insert. }
  { left. split; [done|]. by exists m. }
  split; [|done].
  eapply micros_step; [apply MPolls|]. eapply micros_step; [exact Hmic|].
  destruct (dying s0) eqn:Hd0.
  - replace (∅ ∖ {[n]}) with (∅ : gset string) in HR by set_solver. by destruct HR as [|[_ ?]].
  - destruct HR as [HR|[Hdy HR]].
    + by replace ({[n]} ∖ {[n]}) with (∅ : gset string) in HR by set_solver.
    + eapply micros_snoc; [exact HR|]. apply MDrop; [done|]. rewrite R2. simpl.
      destruct (s_oneShot s) eqn:Ho; [done|]. pose proof (v_shot s V Ho) as Hx.
      change (dying s0) with (dying s) in Hd0. congruence.
Qed.

Lemma kill_worker_micros E g n f sn x al w s :
  s_gors s !! g = Some (mkGor n f sn x al (PSendStarted w)) -> i_worker (info_of s n) = None ->
  i_stopping (info_of s n) = true \/ dying s = true ->
  micros E s ∅ (kill_worker g n w (s <| s_gors ::= <[g := mkGor n f sn x al (waiting_pc w)]> |>)) ∅.
Proof.
  intros Hg Hw Hd. eapply micros_step; [by eapply MRefuse|].
  unfold kill_worker. destruct w; [apply micros_one, MKill|constructor].
Qed.

Lemma kill_worker_running g n w s : s_running (kill_worker g n w s) = s_running s.
Proof. unfold kill_worker. destruct w; [|done]. by destruct (kill_same (emit (EvKill g n WSelf) s) None) as (_ & _ & _ & -> & _). Qed.

Lemma launch_running E n d s : s_running (launch E n d s) = s_running s.
Proof. done. Qed.

Lemma request_start_running E n d s : s_running (request_start E n d s) = s_running s.
Proof.
  unfold request_start.
  assert (forall s, s_running (poll E s) = s_running s) as Hp by (intros; apply poll_same).
  assert (forall e s, s_running (kill_tomb e s) = s_running s) as Hk by (intros; apply kill_same).
  destruct (s_manifolds s !! n); destruct (i_stopped _); destruct (dying _);
    rewrite ?launch_running, ?Hp, ?Hk; done.
Qed.

Lemma request_stop_running n s : s_running (request_stop n s) = s_running s.
Proof.
  unfold request_stop. destruct (_ || _); [done|]. unfold do_stop.
  destruct (i_cancel _), (i_worker _); simpl; rewrite ?kill_worker_running; done.
Qed.

Lemma bounce_running E l : forall s, s_running (fold_left (fun s d => bounce_one E d s) l s) = s_running s.
Proof.
  induction l as [|d l IH]; intros s; simpl; [done|]. rewrite IH. unfold bounce_one.
  destruct (i_stopped _); [apply request_start_running|apply request_stop_running].
Qed.

Lemma end_attempt_eq E g n raw rlog s : i_stopped (info_of s n) = false ->
  end_attempt E g n raw rlog s =
  if c_isFatal (e_cfg E) (filtered s n raw) then kill_tomb None (end_base E g n raw rlog s)
  else end_base E g n raw rlog s.
Proof.
  intros Hs. unfold end_attempt, end_base.
  destruct (recent_errors_keep (e_cfg E) (info_of s n) raw (s_now s)) as (R1 & R2 & R3 & R4).
  assert (i_stopped (recent_errors (e_cfg E) (info_of s n) raw (s_now s)) = false) as ->
    by (unfold i_stopped in *; by rewrite R1, R3).
  destruct (c_isFatal _ _); [|done].
  unfold kill_tomb, emit, set_info. simpl. by case_match.
Qed.

Lemma after_stop_nothing E n e s : terminal e = true -> after_stop E n e s = s.
Proof.
  destruct e as [e|]; [|done]. unfold terminal, after_stop. intros [H|H]%orb_true_iff; rewrite H; [done|].
  by destruct (err_is e (EConst KStartAborted)).
Qed.

Lemma got_stopped_micros E g n f sn x al e s : inv s -> reg_ok s ->
  s_gors s !! g = Some (mkGor n f sn x al (PSendStopped e)) -> s_running s = true ->
  let s' := got_stopped E g n e al (s <| s_gors ::= <[g := mkGor n f sn x al PGone]> |>) in
  micros E s ∅ s' ∅ /\ s_running s' = true.
Proof.
  intros V Hreg Hg Hrun. set (s0 := s <| s_gors ::= <[g := mkGor n f sn x al PGone]> |>). simpl.
  unfold got_stopped. change (info_of s0 n) with (info_of s n).
  destruct (v_active s V g _ Hg) as (i & Hi & Hok); [done|]. simpl in Hi, Hok.
  assert (i_stopped (info_of s n) = false) as Hns by (rewrite (info_of_eq _ _ _ Hi); apply Hok).
  change (filtered s0 n e) with (filtered s n e).
  set (Dn := (if i_stopping (info_of s n) || negb (terminal (filtered s n e)) then {[n]} else ∅) : gset string).
  set (Dd := (match i_worker (info_of s n) with Some _ => list_to_set (dependents_of s n) | None => ∅ end) : gset string).
  set (D0 := if dying s then ∅ else Dn ∪ Dd).
  assert (micro E s ∅ (end_base E g n e al s0) D0) as Hmic by (by eapply MEnd).
  assert (inv (end_base E g n e al s0)) as Ve by (eapply micro_inv; eauto).
  assert (s_running (end_base E g n e al s0) = true /\ s_oneShot (end_base E g n e al s0) = s_oneShot s /\
    s_manifolds (end_base E g n e al s0) = s_manifolds s /\ s_dependents (end_base E g n e al s0) = s_dependents s /\
    s_log (end_base E g n e al s0) = EvStopped g n e (filtered s n e) (s_now s) :: s_log s /\
    dying (end_base E g n e al s0) = dying s) as (B1 & B2 & B3 & B4 & B5 & B6).
  { unfold end_base. simpl. by destruct (c_isFatal _ _). }
  assert (i_stopped (info_of (end_base E g n e al s0) n) = true) as B7.
  { unfold end_base, info_of. simpl. by rewrite lookup_insert. }
  rewrite end_attempt_eq by done. change (filtered s0 n e) with (filtered s n e).
  set (s1 := if c_isFatal (e_cfg E) (filtered s n e) then kill_tomb None (end_base E g n e al s0) else end_base E g n e al s0).
  assert (micros E s ∅ s1 D0) as Hm1.
  { eapply micros_step; [exact Hmic|]. unfold s1. destruct (c_isFatal _ _); [apply micros_one, MKill|constructor]. }
  assert (inv s1) as V1 by (by eapply micros_inv).
  assert (s_running s1 = true /\ s_oneShot s1 = s_oneShot s) as [C1 C2].
  { unfold s1. destruct (c_isFatal _ _); [|done].
    destruct (kill_same (end_base E g n e al s0) None) as (_ & _ & _ & -> & -> & _). done. }
  destruct (poll_same E s1) as (P1 & P2 & P3 & P4 & P5 & _).
  assert (dying s = false -> s_oneShot s = true) as Hshot.
  { intros Hd. destruct (s_oneShot s) eqn:Ho; [done|]. pose proof (v_shot s V Ho). congruence. }
  destruct (dying (poll E s1)) eqn:Hdy.
  { split; [|congruence]. eapply micros_trans; [exact Hm1|]. eapply micros_trans; [apply poll_micros|].
    unfold D0. destruct (dying s) eqn:Hd; [constructor|].
    apply micros_one, MDrop; [done|]. rewrite P5, C2. auto. }
  assert (dying s1 = false) as Hdy1 by (pose proof Hdy as Hx; by rewrite (poll_alive E s1 V1 Hdy) in Hx).
  rewrite (poll_alive E s1 V1 Hdy). clear P1 P2 P3 P4 P5 Hdy.
  set (s2 := s1 <| s_polls ::= S |>) in *.
  assert (c_isFatal (e_cfg E) (filtered s n e) = false) as Hnf.
  { destruct (c_isFatal (e_cfg E) (filtered s n e)) eqn:Hf; [|done].
    assert (dying s1 = true); [|congruence].
    unfold s1. apply kill_tomb_dying. by destruct Ve. }
  assert (s1 = end_base E g n e al s0) as Hs1 by (unfold s1; by rewrite Hnf).
  assert (dying s = false) as Hd.
  { rewrite Hs1, B6 in Hdy1. done. }
  assert (micros E s ∅ s2 (Dn ∪ Dd)) as Hm2.
  { eapply micros_snoc; [|apply MPolls]. unfold D0 in Hm1. by rewrite Hd in Hm1. }
  assert (inv s2) as V2 by (by eapply micros_inv).
  assert (s_log s2 = EvStopped g n e (filtered s n e) (s_now s) :: s_log s) as L2 by (unfold s2; simpl; by rewrite Hs1).
  assert (s_manifolds s2 = s_manifolds s) as M2 by (unfold s2; simpl; by rewrite Hs1).
  assert (s_dependents s2 = s_dependents s) as De2 by (unfold s2; simpl; by rewrite Hs1).
  assert (i_stopped (info_of s2 n) = true) as St2 by (unfold s2; rewrite <- Hs1 in B7; exact B7).
  assert (is_Some (s_manifolds s !! n)) as Hinst by (apply (v_dom s V); eauto).
  set (s3 := if i_stopping (info_of s n) then request_start E n (c_bounceDelay (e_cfg E)) s2
             else after_stop E n (filtered s n e) s2).
  assert (s_cancelled s2 = s_cancelled s) as Ca2
    by (unfold s2; simpl; rewrite Hs1; unfold end_base; by destruct (c_isFatal _ _)).
  assert (if i_stopping (info_of s n) then g ∈ s_cancelled s else g ∉ s_cancelled s) as Hcanc.
  { rewrite (info_of_eq _ _ _ Hi). destruct Hok. destruct (i_stopping i); naive_solver. }
  assert (forall base, launch_cause E s2 n base -> (micros E s2 (Dn ∪ Dd) (request_start E n base s2) ((Dn ∪ Dd) ∖ {[n]}) \/
      dying (request_start E n base s2) = true /\ micros E s2 (Dn ∪ Dd) (request_start E n base s2) (Dn ∪ Dd)) /\
     s_running (request_start E n base s2) = true /\ s_oneShot (request_start E n base s2) = true /\
     s_dependents (request_start E n base s2) = s_dependents s2 /\
     last_change (s_log (request_start E n base s2)) = last_change (s_log s2)) as Hrs.
  { intros base Hlca. destruct (request_start_micros E s2 (Dn ∪ Dd) n base V2) as (R0 & R1 & R2 & R3 & R4 & R5); try done.
    - by rewrite M2.
    - split_and!; try done.
      + rewrite R2. unfold s2. simpl. rewrite C2. auto.
      }
  assert (n ∉ Dd) as HnDd.
  { unfold Dd. destruct (i_worker _); [|set_solver]. rewrite elem_of_list_to_set, (v_deps s V). intros (m & Hm & Hin).
    eapply (acyclic_no_self (inputs_graph (s_manifolds s)) n); [apply (v_acyc s V)| |exact Hin].
    unfold inputs_graph. by rewrite lookup_fmap, Hm. }
  assert (exists D3, micros E s2 (Dn ∪ Dd) s3 D3 /\ s_running s3 = true /\ s_oneShot s3 = true /\ (D3 ⊆ Dd /\ (dying s3 = true \/ Dd ⊆ D3)) /\
    (forall d, d ∈ dependents_of s3 n <-> d ∈ dependents_of s n) /\
    last_change (s_log s3) = last_change (s_log s2)) as (D3 & Hm3 & R1 & R2 & [HD3 HD3'] & HDe & Hlc3).
  { assert (forall base, launch_cause E s2 n base -> exists D3, micros E s2 (Dn ∪ Dd) (request_start E n base s2) D3 /\
      s_running (request_start E n base s2) = true /\ s_oneShot (request_start E n base s2) = true /\
      (D3 ⊆ Dd /\ (dying (request_start E n base s2) = true \/ Dd ⊆ D3)) /\
      (forall d, d ∈ dependents_of (request_start E n base s2) n <-> d ∈ dependents_of s n) /\
      last_change (s_log (request_start E n base s2)) = last_change (s_log s2)) as Hrs'.
    { intros base Hlca. destruct (Hrs base Hlca) as (Q0 & Q1 & Q2 & Q3 & Q4).
      assert (forall d, d ∈ dependents_of (request_start E n base s2) n <-> d ∈ dependents_of s n) as Q3'.
      { intros d. unfold dependents_of. by rewrite Q3, De2. }
      destruct Q0 as [Q0|[Qd Q0]].
      - eexists. split; [exact Q0|]. split_and!; try done; [|right; set_solver]. unfold Dn. destruct (_ || _); set_solver.
      - exists ∅. split; [|split_and!; try done; by left].
        eapply micros_snoc; [exact Q0|]. by apply MDrop. }
    assert (Dn = ∅ -> exists D3, micros E s2 (Dn ∪ Dd) s2 D3 /\
      s_running s2 = true /\ s_oneShot s2 = true /\ (D3 ⊆ Dd /\ (dying s2 = true \/ Dd ⊆ D3)) /\
      (forall d, d ∈ dependents_of s2 n <-> d ∈ dependents_of s n) /\
      last_change (s_log s2) = last_change (s_log s2)) as Hnone.
    { intros ->. eexists. split; [constructor|]. split_and!; try done.
      - unfold s2. simpl. rewrite C2. auto.
      - set_solver.
      - right. set_solver.
      - intros d. unfold dependents_of. by rewrite De2. }
    unfold s3. destruct (i_stopping (info_of s n)) eqn:Hsp.
    { apply Hrs'. right; right. exists g, e, (filtered s n e), (s_now s). rewrite L2, Ca2. split; [done|]. by left. }
    destruct (terminal (filtered s n e)) eqn:Hterm.
    { rewrite after_stop_nothing by done. by apply Hnone. }
    unfold after_stop. destruct (filtered s n e) as [e'|] eqn:Hfe; [|done].
    assert (forall base, restart_delay (e_cfg E) (Some e') = Some base -> launch_cause E s2 n base) as Hlca.
    { intros base Hb. right; right. exists g, e, (Some e'), (s_now s). rewrite L2, Ca2. split; [done|]. by right. }
    unfold restart_delay in Hlca. rewrite Hterm in Hlca.
    assert (is_const (Some e') KBounce = false -> is_const (Some e') KUninstall = true ->
      restart_delay (e_cfg E) (Some e') = None) as Hrd.
    { unfold restart_delay. by intros -> ->; rewrite Hterm. }
    simpl in Hterm. apply orb_false_iff in Hterm as [Ht1 Ht2]. rewrite Ht1, Ht2. simpl in Hlca, Hrd.
    destruct (err_is e' (EConst KBounce)) eqn:Hbo; [by apply Hrs', Hlca|].
    destruct (err_is e' (EConst KUninstall)) eqn:Hun; [|by apply Hrs', Hlca].
    eexists. split.
    { apply micros_one. eapply (MUninstall E s2 (Dn ∪ Dd) n g e (Some e')); try done.
      - by rewrite M2.
      - unfold Dn. simpl. set_solver.
      - by rewrite L2.
      - by apply Hrd.
      - by rewrite Ca2. }
    assert (n ∉ dependents_of s n) as Hself.
    { rewrite (v_deps s V). intros (m & Hm & Hin). eapply (acyclic_no_self (inputs_graph (s_manifolds s)) n); [apply (v_acyc s V)| |exact Hin].
      unfold inputs_graph. by rewrite lookup_fmap, Hm. }
    split_and!; try done.
    - unfold s2. simpl. rewrite C2. auto.
    - unfold Dn. simpl. set_solver.
    - right. set_solver.
    - intros d. unfold uninstall, dependents_of. simpl. rewrite lookup_fmap, Hs1, B4.
      unfold dependents_of in Hself. destruct (s_dependents s !! n); simpl in *; [|done].
      rewrite uninstall_list_elem. split; [naive_solver|]. intros ?. split; [done|]. intros ->. done.
    }
  assert (inv s3) as V3 by (by eapply micros_inv).
  destruct (i_worker (info_of s n)) as [w|] eqn:Hw.
  - assert (last_change (s_log s3) = Some n) as Hlc.
    { rewrite Hlc3, L2. simpl. pose proof (Hreg n ltac:(by rewrite Hw)) as Hx. by destruct (registered (s_log s) n). }
    clear Hlc3. split.
    + eapply micros_trans; [exact Hm2|]. eapply micros_trans; [exact Hm3|].
      apply bounce_dependents_micros; try done; [unfold Dd in HD3; set_solver|].
      destruct HD3' as [?|HD3']; [by left|right]. unfold Dd in HD3'. set_solver.
    + unfold bounce_dependents. by rewrite bounce_running.
  - split; [|done]. eapply micros_trans; [exact Hm2|].
    replace (∅ : gset string) with D3; [exact Hm3|]. unfold Dd in HD3. set_solver.
Qed.

Lemma got_started_micros E g n f sn x al w s : inv s ->
  s_gors s !! g = Some (mkGor n f sn x al (PSendStarted w)) -> s_running s = true ->
  let s' := got_started E g n w al (s <| s_gors ::= <[g := mkGor n f sn x al (waiting_pc w)]> |>) in
  micros E s ∅ s' ∅ /\ s_running s' = true.
Proof.
  intros V Hg Hrun. set (s0 := s <| s_gors ::= <[g := mkGor n f sn x al (waiting_pc w)]> |>). simpl.
  unfold got_started. change (info_of s0 n) with (info_of s n).
  destruct (v_active s V g _ Hg) as (i & Hi & Hok); [done|]. simpl in Hi, Hok.
  assert (i_worker i = None) as Hw by (destruct Hok; auto).
  rewrite (info_of_eq _ _ _ Hi), Hw.
  destruct (i_stopping i) eqn:Hst.
  { split; [|by rewrite kill_worker_running]. eapply kill_worker_micros; eauto; rewrite (info_of_eq _ _ _ Hi); auto. }
  (* the poll commutes with the update of the goroutine *)
  assert (poll E s0 = (poll E s) <| s_gors ::= <[g := mkGor n f sn x al (waiting_pc w)]> |>) as ->.
  { unfold poll. change (s_polls s0) with (s_polls s). unfold s0. destruct (e_preempt E (s_polls s)); [|done].
    unfold kill_tomb, emit. simpl. by case_match. }
  set (s1 := poll E s).
  assert (micros E s ∅ s1 ∅) as Hm1 by apply poll_micros.
  assert (inv s1) as V1 by (by eapply micros_inv).
  destruct (poll_same E s) as (P1 & P2 & P3 & P4 & P5 & P6 & _). fold s1 in P1, P2, P3, P4, P5, P6.
  assert (s_gors s1 !! g = Some (mkGor n f sn x al (PSendStarted w))) as Hg1 by (by rewrite P6).
  assert (info_of s1 n = i) as Hi1 by (unfold info_of; by rewrite P1, Hi).
  clearbody s1.
  change (dying (s1 <| s_gors ::= <[g := mkGor n f sn x al (waiting_pc w)]> |>)) with (dying s1).
  destruct (dying s1) eqn:Hdy.
  { split; [|rewrite kill_worker_running; simpl; congruence]. eapply micros_trans; [exact Hm1|].
    eapply kill_worker_micros; eauto; rewrite Hi1; auto. }
  set (s2 := register g n w al (s1 <| s_gors ::= <[g := mkGor n f sn x al (waiting_pc w)]> |>)).
  assert (micro E s1 ∅ s2 (list_to_set (dependents_of s1 n))) as Hmic.
  { eapply MRegister; eauto; rewrite ?Hi1; try done; congruence. }
  assert (inv s2) as V2 by (by eapply micro_inv).
  split.
  - eapply micros_trans; [exact Hm1|]. eapply micros_step; [exact Hmic|].
    apply bounce_dependents_micros; try done.
    + simpl. congruence.
    + simpl. destruct (s_oneShot s1) eqn:Ho; [done|]. pose proof (v_shot s1 V1 Ho). congruence.
    + by right.
  - unfold bounce_dependents. rewrite bounce_running. simpl. congruence.
Qed.

Theorem step_micros E s l s' : inv s -> reg_ok s -> step E s l = Some s' -> micros E s ∅ s' ∅.
Proof.
  intros V Hreg. destruct l; simpl.
  - intros [= <-]. apply micros_one, MKill.
  - destruct (0 <=? d)%Z eqn:Hd; [|done]. intros [= <-]. apply micros_one, MTick. lia.
  - destruct (s_running s) eqn:Hr; [|done].
    destruct (got_install_micros E n m s V Hr) as [H1 H2].
    destruct (got_install E n m s) as [r s1] eqn:Hg. simpl in *. intros [= <-].
    apply handler_micros; [done| |done]. eapply micros_snoc; [exact H1|]. apply MInstallRet.
  - case_match; [|done]. intros [= <-]. apply micros_one, MInstallRet.
  - destruct (s_running s) eqn:Hr; [|done]. intros [= <-].
    destruct (poll_same E s) as (_ & _ & _ & P4 & _).
    apply handler_micros; [done| |set (p := poll E s) in *; clearbody p; simpl; congruence].
    eapply micros_snoc; [apply poll_micros|]. apply MReport. left. split; [congruence|done].
  - case_match eqn:Hd; [|done]. intros [= <-]. apply micros_one, MReport. auto.
  - case_match eqn:Hd; [|done]. intros [= <-]. apply micros_one, MWait. auto.
  - destruct (s_running s) eqn:Hr; [|done]. destruct (s_oneShot s) eqn:Ho; [|done].
    destruct (dying s) eqn:Hd; [|done]. simpl. intros [= <-].
    assert (micro E s ∅ (s <| s_oneShot := false |>) (dom (s_current s))) as Hm by (by apply MShot).
    set (s0 := s <| s_oneShot := false |>  <| s_polls ::= S |>).
    assert (micros E s ∅ s0 (dom (s_current s))) as Hm0.
    { eapply micros_step; [exact Hm|]. apply micros_one, MPolls. }
    assert (inv s0) as V0 by (by eapply micros_inv).
    set (order := iter_order (e_rank E (s_polls s)) (map_to_list (s_current s)).*1).
    assert (forall k, k ∈ order <-> is_Some (s_current s !! k)) as Hord.
    { intros k. unfold order. apply map_order_elem. unfold map_order. apply iter_order_perm. }
    assert (micros E s0 (dom (s_current s)) (stop_all E s) ∅) as Hm1.
    { unfold stop_all. apply stop_all_micros; try done.
      - intros d Hd'. simpl. apply (v_dom s V). by apply Hord.
      - intros d Hd'. apply elem_of_list_to_set, Hord. by apply elem_of_dom. }
    assert (micros E s ∅ (stop_all E s) ∅) as Hm2 by (by eapply micros_trans).
    apply handler_micros; try done.
    unfold stop_all. fold order. clear -Hr.
    assert (forall l s, s_running s = true -> s_running (fold_left (fun s n => request_stop n s) l s) = true) as Hf.
    { clear. induction l as [|n l IH]; intros s Hr; simpl; [done|]. apply IH.
      by rewrite request_stop_running. }
    by apply Hf.
  - destruct (s_gors s !! g) as [[n f sn x al p]|] eqn:Hg; [|done]. destruct p; try done.
    destruct (ready <=? s_now s)%Z eqn:Hle; [|done]. intros [= <-].
    erewrite set_pc_eq by done. apply micros_one. eapply MFire; [done|]. lia.
  - destruct (s_gors s !! g) as [[n f sn x al p]|] eqn:Hg; [|done]. destruct p; try done.
    destruct (dying s || _) eqn:Hb; [|done]. intros [= <-].
    erewrite set_pc_expire_eq by done. apply micros_one. eapply MAbort; [done|].
    unfold ctx_done in Hb. rewrite !orb_true_iff, bool_decide_eq_true in Hb. naive_solver.
  - destruct (s_gors s !! g) as [[n' f sn x al p]|] eqn:Hg; [|done]. simpl.
    destruct (snapshot_get (e_outf E) sn x al n out) as [[e call] al'] eqn:Hs. intros [= <-].
    apply micros_one. by eapply MGet.
  - destruct (s_gors s !! g) as [[n f sn x al p]|] eqn:Hg; [|done]. destruct p; try done.
    intros [= <-]. erewrite set_pc_eq by done. apply micros_one. by eapply MStartRet.
  - destruct (s_gors s !! g) as [[n f sn x al p]|] eqn:Hg; [|done]. destruct p; try done.
    intros [= <-]. erewrite set_pc_expire_eq by done. apply micros_one. destruct r as [w|e].
    + by eapply MExpireOk.
    + replace (if err_is e (EConst KStartAborted) then PSendStopped (Some (EConst KStartAborted))
        else PSendStopped (Some e)) with (PSendStopped (Some (if err_is e (EConst KStartAborted) then EConst KStartAborted else e))) by (by case_match).
      by eapply MExpireErr.
  - destruct (s_gors s !! g) as [[n f sn x al p]|] eqn:Hg; [|done]. destruct p; try done.
    destruct (s_running s) eqn:Hr; [|done]. intros [= <-]. erewrite set_pc_eq by done.
    destruct (got_started_micros E _ _ _ _ _ _ _ _ V Hg Hr) as [H1 H2].
    by apply handler_micros.
  - destruct (s_gors s !! g) as [[n f sn x al p]|] eqn:Hg; [|done]. destruct p; try done.
    destruct (dying s) eqn:Hd; [|done]. intros [= <-]. erewrite set_pc_eq by done.
    destruct (v_active s V g _ Hg) as (i & Hi & Hok); [done|]. simpl in Hi, Hok.
    eapply kill_worker_micros; eauto. rewrite (info_of_eq _ _ _ Hi). destruct Hok; auto.
  - destruct (s_gors s !! g) as [[n f sn x al p]|] eqn:Hg; [|done]. destruct p; try done.
    intros [= <-]. erewrite set_pc_eq by done. apply micros_one. by eapply MExit.
  - destruct (s_gors s !! g) as [[n f sn x al p]|] eqn:Hg; [|done]. destruct p; try done.
    destruct (dying s) eqn:Hd; [|done]. intros [= <-]. erewrite set_pc_eq by done.
    apply micros_one. by eapply MSelfDying.
  - destruct (s_gors s !! g) as [[n f sn x al p]|] eqn:Hg; [|done]. destruct p; try done.
    destruct (s_running s) eqn:Hr; [|done]. intros [= <-]. erewrite set_pc_eq by done.
    destruct (got_stopped_micros E _ _ _ _ _ _ _ _ V Hreg Hg Hr) as [H1 H2].
    by apply handler_micros.
Qed.

Lemma micros_reg E s D s' D' : micros E s D s' D' -> inv s -> reg_ok s -> reg_ok s'.
Proof. induction 1; [done|]. intros. eauto using micro_inv, micro_reg. Qed.

Theorem reachable_inv_reg E s : reachable E s -> inv s /\ reg_ok s.
Proof.
  intros [ls H]. revert H. generalize reg_init. generalize inv_init. generalize init. induction ls as [|l ls IH]; intros s0 V R; simpl.
  - by intros [= <-].
  - destruct (step E s0 l) as [s1|] eqn:Hs; [|done].
    pose proof (step_micros _ _ _ _ V R Hs) as Hm. apply IH; [by eapply micros_inv|by eapply micros_reg].
Qed.
Theorem reachable_inv E s : reachable E s -> inv s.
Proof. intros H. by apply (reachable_inv_reg E s). Qed.
Theorem reachable_reg E s : reachable E s -> reg_ok s.
Proof. intros H. by apply (reachable_inv_reg E s). Qed.

(** Induction principle: a property of all reachable states, checked on elementary updates. *)
Theorem reach_ind (E : env) (P : state -> gset string -> Prop) :
  P init ∅ ->
  (forall s D s' D', inv s -> inv s' -> P s D -> micro E s D s' D' -> P s' D') ->
  forall s, reachable E s -> P s ∅.
Proof.
  intros H0 Hs s [ls H]. revert H. revert H0. generalize reg_init. generalize inv_init. generalize init.
  induction ls as [|l ls IH]; intros s0 V R HP; simpl.
  - by intros [= <-].
  - destruct (step E s0 l) as [s1|] eqn:Hst; [|done].
    pose proof (step_micros _ _ _ _ V R Hst) as Hm.
    assert (forall s D s' D', micros E s D s' D' -> inv s -> P s D -> inv s' /\ P s' D') as Hms.
    { clear -Hs. induction 1 as [|s1 D1 s2 D2 s3 D3 H12 H23 IH]; [done|]. intros V1 P1.
      assert (inv s2) by (by eapply micro_inv). apply IH; [done|]. eapply Hs; [exact V1| |exact P1|exact H12]. done. }
    destruct (Hms _ _ _ _ Hm V HP). apply IH; [done|by eapply micros_reg|done].
Qed.

(** Same, for the elementary updates of a single step. *)
Theorem micros_keep (E : env) (P : state -> gset string -> Prop) s D s' D' :
  (forall s D s' D', inv s -> inv s' -> P s D -> micro E s D s' D' -> P s' D') ->
  micros E s D s' D' -> inv s -> P s D -> P s' D'.
Proof.
  intros Hs Hm. induction Hm as [|s1 D1 s2 D2 s3 D3 H12 H23 IH]; [done|]. intros V1 P1.
  assert (inv s2) by (by eapply micro_inv). apply IH; [done|]. eapply Hs; [exact V1| |exact P1|exact H12]. done.
Qed.

Theorem step_keep (E : env) (P : state -> gset string -> Prop) s l s' :
  (forall s D s' D', inv s -> inv s' -> P s D -> micro E s D s' D' -> P s' D') ->
  inv s -> reg_ok s -> P s ∅ -> step E s l = Some s' -> P s' ∅.
Proof. intros. eapply micros_keep; eauto using step_micros. Qed.
