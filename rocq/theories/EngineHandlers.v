(** What the handlers of the engine's loop do, as a whole: proofs of C03, C07, C08, C25. *)
From stdpp Require Import gmap strings list relations.
From Coq Require Import ZArith.
From RecordUpdate Require Import RecordSet.
From Verif Require Import Err Tomb Order Validate ValidateSpec ValidateProofs Snapshot Engine EngineSpec EngineMicro EngineSteps EngineLog EngineSafety EngineFresh EngineKill EngineObs.
Import RecordSetNotations.

(** ** Frame: what is left alone *)

Definition gids (s : state) : Prop := forall g r, s_gors s !! g = Some r -> g < s_next s.

Record untouched (k : string) (s s' : state) : Prop := {
  u_current : s_current s' !! k = s_current s !! k;
  u_manifold : s_manifolds s' !! k = s_manifolds s !! k;
  u_gors : forall g r, g_name r = k -> (s_gors s' !! g = Some r <-> s_gors s !! g = Some r);
  u_log : exists new, s_log s' = new ++ s_log s /\ forall ev, ev ∈ new -> ev_name ev <> Some k
}.

Definition leaves (k : string) (s s' : state) : Prop := gids s -> gids s' /\ untouched k s s'.

Lemma leaves_refl k s : leaves k s s.
Proof. intros Hg. split; [done|]. split; try done. exists []. split; [done|]. intros ev Hx. by apply elem_of_nil in Hx. Qed.
Lemma untouched_trans k s1 s2 s3 : untouched k s1 s2 -> untouched k s2 s3 -> untouched k s1 s3.
Proof.
  intros [A1 A2 A3 (n1 & A4 & A5)] [B1 B2 B3 (n2 & B4 & B5)]. split.
  - congruence.
  - congruence.
  - intros g r Hk. by rewrite B3, A3.
  - exists (n2 ++ n1). rewrite <- app_assoc, <- A4. split; [done|]. intros ev [Hx|Hx]%elem_of_app; auto.
Qed.
Lemma leaves_trans k s1 s2 s3 : leaves k s1 s2 -> leaves k s2 s3 -> leaves k s1 s3.
Proof.
  intros H1 H2 Hg. destruct (H1 Hg) as [G2 U1]. destruct (H2 G2) as [G3 U2]. split; [done|]. by eapply untouched_trans.
Qed.

(** Same current, manifolds, goroutines; the log grows by harmless events *)
Lemma leaves_quiet k s s' new : s_current s' !! k = s_current s !! k -> s_manifolds s' !! k = s_manifolds s !! k ->
  s_gors s' = s_gors s -> s_next s' = s_next s -> s_log s' = new ++ s_log s -> Forall (fun ev => ev_name ev <> Some k) new ->
  leaves k s s'.
Proof.
  intros H1 H2 H3 H4 H5 H6 Hg. split; [intros g r; rewrite H3, H4; apply Hg|]. split; try done.
  - intros g r _. by rewrite H3.
  - exists new. split; [done|]. intros ev Hx. by eapply Forall_forall in H6.
Qed.

Lemma kill_leaves k e s : leaves k s (kill_tomb e s).
Proof.
  unfold kill_tomb. case_match; simpl.
  - apply (leaves_quiet k _ _ [EvDying]); try done. by repeat constructor.
  - by apply (leaves_quiet k _ _ []).
Qed.
Lemma polls_leaves k s : leaves k s (s <| s_polls ::= S |>).
Proof. by apply (leaves_quiet k _ _ []). Qed.
Lemma poll_leaves k E s : leaves k s (poll E s).
Proof.
  unfold poll. case_match; [eapply leaves_trans; [apply kill_leaves|]|]; apply polls_leaves.
Qed.
Lemma emit_leaves k ev s : ev_name ev <> Some k -> leaves k s (emit ev s).
Proof. intros H. apply (leaves_quiet k _ _ [ev]); try done. by repeat constructor. Qed.
Lemma set_info_leaves k n i s : k <> n -> leaves k s (set_info n i s).
Proof. intros H. apply (leaves_quiet k _ _ []); try done. simpl. by rewrite lookup_insert_ne. Qed.
Lemma kill_worker_leaves k g n w s : k <> n -> leaves k s (kill_worker g n w s).
Proof.
  intros H. unfold kill_worker. eapply leaves_trans; [apply (emit_leaves k (EvKill g n w)); simpl; congruence|].
  destruct w; [apply kill_leaves|apply leaves_refl].
Qed.
Lemma launch_leaves k E n d s : k <> n -> leaves k s (launch E n d s).
Proof.
  intros Hk Hg. unfold launch. simpl. split.
  - intros g r. simpl. rewrite lookup_insert_Some. intros [[<- _]|[_ Hx]]; [lia|]. specialize (Hg _ _ Hx). lia.
  - split; simpl; try done.
    + by rewrite lookup_insert_ne.
    + intros g r Hr. rewrite lookup_insert_Some. split.
      * intros [[<- <-]|[? ?]]; [simpl in Hr; congruence|done].
      * intros Hx. right. split; [|done]. specialize (Hg _ _ Hx). lia.
    + eexists [_]. split; [reflexivity|]. intros ev ->%elem_of_list_singleton. simpl. congruence.
Qed.
Lemma request_start_leaves k E n d s : k <> n -> leaves k s (request_start E n d s).
Proof.
  intros Hk. unfold request_start.
  set (s1 := match s_manifolds s !! n with Some _ => s | None => _ end).
  assert (leaves k s s1) as H1 by (unfold s1; case_match; [apply leaves_refl|apply kill_leaves]).
  set (s2 := if i_stopped (info_of s1 n) then s1 else _).
  assert (leaves k s1 s2) as H2 by (unfold s2; case_match; [apply leaves_refl|apply kill_leaves]).
  pose proof (poll_leaves k E s2) as H3.
  assert (leaves k s (poll E s2)) as H4 by eauto using leaves_trans.
  case_match; [done|]. eapply leaves_trans; [exact H4|]. by apply launch_leaves.
Qed.
Lemma request_stop_leaves k n s : k <> n -> leaves k s (request_stop n s).
Proof.
  intros Hk. unfold request_stop. case_match; [apply leaves_refl|]. unfold do_stop. cbv zeta.
  eapply leaves_trans; [|by apply set_info_leaves].
  set (s1 := match i_cancel _ with Some _ => _ | None => _ end).
  assert (leaves k s s1) as H1.
  { unfold s1. case_match; [|apply leaves_refl]. apply (leaves_quiet k _ _ [EvCancel n0 n]); try done.
    repeat constructor. simpl. congruence. }
  eapply leaves_trans; [exact H1|]. case_match; [by apply kill_worker_leaves|apply leaves_refl].
Qed.
Lemma bounce_one_leaves k E d s : k <> d -> leaves k s (bounce_one E d s).
Proof. intros Hk. unfold bounce_one. case_match; [by apply request_start_leaves|by apply request_stop_leaves]. Qed.
Lemma bounce_leaves k E l : forall s, k ∉ l -> leaves k s (fold_left (fun s d => bounce_one E d s) l s).
Proof.
  induction l as [|d l IH]; intros s Hk; simpl; [apply leaves_refl|].
  rewrite elem_of_cons in Hk. eapply leaves_trans; [apply (bounce_one_leaves k E d); tauto|]. apply IH. tauto.
Qed.
Lemma register_leaves k g n w al s : k <> n -> leaves k s (register g n w al s).
Proof.
  intros Hk. unfold register. cbv zeta.
  eapply leaves_trans; [by apply set_info_leaves|].
  eapply leaves_trans; [apply (emit_leaves k (EvRegister g n w (s_now s)))|apply emit_leaves]; simpl; congruence.
Qed.
Lemma end_attempt_leaves k E g n raw al s : k <> n -> leaves k s (end_attempt E g n raw al s).
Proof.
  intros Hk. unfold end_attempt. cbv zeta.
  eapply leaves_trans; [|by apply set_info_leaves].
  eapply leaves_trans; [apply (emit_leaves k (EvStopped g n raw (filtered s n raw) (s_now s))); simpl; congruence|].
  case_match; [apply kill_leaves|]. case_match; [|apply leaves_refl].
  eapply leaves_trans; [|apply kill_leaves]. by apply (leaves_quiet k _ _ []).
Qed.
Lemma uninstall_leaves k E n s : k <> n -> leaves k s (uninstall E n s).
Proof.
  intros Hk. unfold uninstall. apply (leaves_quiet k _ _ [EvUninstall n]); try done; simpl.
  - by rewrite lookup_delete_ne.
  - by rewrite lookup_delete_ne.
  - by repeat constructor.
Qed.
Lemma after_stop_leaves k E n e s : k <> n -> leaves k s (after_stop E n e s).
Proof.
  intros Hk. unfold after_stop. repeat case_match; try apply leaves_refl;
    first [by apply request_start_leaves|by apply uninstall_leaves].
Qed.
Lemma end_iteration_leaves k E s : leaves k s (end_iteration E s).
Proof.
  unfold end_iteration. case_match; [|apply poll_leaves]. eapply leaves_trans; [apply (poll_leaves k E)|].
  apply (leaves_quiet k _ _ [EvDead]); try done. by repeat constructor.
Qed.
Lemma set_pc_leaves k g p s r : s_gors s !! g = Some r -> g_name r <> k -> leaves k s (set_pc g p s).
Proof.
  intros Hg Hn Hgi. unfold set_pc. simpl. split.
  - intros q rr. simpl. destruct (decide (q = g)) as [->|Hne].
    + intros _. by eapply Hgi.
    + rewrite lookup_alter_ne by done. apply Hgi.
  - split; simpl; try done.
    + intros q rr Hk. destruct (decide (q = g)) as [->|Hne]; [|by rewrite lookup_alter_ne].
      rewrite lookup_alter, Hg. simpl. split; intros [= <-]; simpl in *; congruence.
    + exists []. split; [done|]. intros ev Hx. by apply elem_of_nil in Hx.
Qed.

Lemma request_start_dependents E n d s : s_dependents (request_start E n d s) = s_dependents s.
Proof.
  unfold request_start.
  assert (forall s, s_dependents (poll E s) = s_dependents s) as Hp by (intros; apply poll_same).
  assert (forall e s, s_dependents (kill_tomb e s) = s_dependents s) as Hk by (intros; apply kill_same).
  set (s1 := match s_manifolds s !! n with Some _ => s | None => _ end).
  assert (s_dependents s1 = s_dependents s) as H1 by (unfold s1; case_match; [done|apply Hk]). clearbody s1.
  set (s2 := if i_stopped (info_of s1 n) then s1 else _).
  assert (s_dependents s2 = s_dependents s) as H2 by (unfold s2; case_match; [done|by rewrite Hk]). clearbody s2.
  specialize (Hp s2). set (s3 := poll E s2) in *. clearbody s3. case_match; [congruence|]. simpl. congruence.
Qed.
Lemma request_start_manifolds E n d s : s_manifolds (request_start E n d s) = s_manifolds s.
Proof.
  unfold request_start.
  assert (forall s, s_manifolds (poll E s) = s_manifolds s) as Hp by (intros; apply poll_same).
  assert (forall e s, s_manifolds (kill_tomb e s) = s_manifolds s) as Hk by (intros; apply kill_same).
  set (s1 := match s_manifolds s !! n with Some _ => s | None => _ end).
  assert (s_manifolds s1 = s_manifolds s) as H1 by (unfold s1; case_match; [done|apply Hk]). clearbody s1.
  set (s2 := if i_stopped (info_of s1 n) then s1 else _).
  assert (s_manifolds s2 = s_manifolds s) as H2 by (unfold s2; case_match; [done|by rewrite Hk]). clearbody s2.
  specialize (Hp s2). set (s3 := poll E s2) in *. clearbody s3. case_match; [congruence|]. simpl. congruence.
Qed.
Lemma after_stop_dependents E n e s k : k ∈ dependents_of (after_stop E n e s) n -> k ∈ dependents_of s n.
Proof.
  unfold after_stop, dependents_of. repeat case_match; rewrite ?request_start_dependents; try done.
  unfold uninstall. simpl. rewrite lookup_fmap. destruct (s_dependents s !! n); simpl; [|done].
  rewrite uninstall_list_elem. tauto.
Qed.
Lemma end_attempt_dependents E g n raw al s : s_dependents (end_attempt E g n raw al s) = s_dependents s.
Proof.
  unfold end_attempt. simpl. assert (forall e s, s_dependents (kill_tomb e s) = s_dependents s) as Hk by (intros; apply kill_same).
  repeat case_match; rewrite ?Hk; done.
Qed.

Lemma got_started_leaves k E g n w al s : k <> n -> k ∉ dependents_of s n -> leaves k s (got_started E g n w al s).
Proof.
  intros Hk Hd. unfold got_started. case_match.
  { eapply leaves_trans; [apply kill_leaves|by apply kill_worker_leaves]. }
  case_match; [by apply kill_worker_leaves|]. cbv zeta.
  case_match; [eapply leaves_trans; [apply poll_leaves|by apply kill_worker_leaves]|].
  eapply leaves_trans; [apply (poll_leaves k E)|]. assert (s_dependents (poll E s) = s_dependents s) as HD by apply poll_same.
  set (s1 := poll E s) in *. clearbody s1.
  eapply leaves_trans; [by apply (register_leaves k g n w al)|].
  unfold bounce_dependents. apply bounce_leaves. unfold dependents_of in *. simpl. by rewrite HD.
Qed.
Lemma got_stopped_leaves k E g n raw al s : k <> n -> k ∉ dependents_of s n -> leaves k s (got_stopped E g n raw al s).
Proof.
  intros Hk Hd. unfold got_stopped. cbv zeta.
  pose proof (end_attempt_leaves k E g n raw al s Hk) as H1.
  pose proof (end_attempt_dependents E g n raw al s) as HD.
  set (s0 := end_attempt E g n raw al s) in *. clearbody s0.
  pose proof (poll_leaves k E s0) as H2. assert (s_dependents (poll E s0) = s_dependents s0) as HD1 by apply poll_same.
  set (s1 := poll E s0) in *. clearbody s1.
  assert (leaves k s s1) as H3 by eauto using leaves_trans.
  case_match; [done|].
  set (s2 := if i_stopping (info_of s n) then _ else _).
  assert (leaves k s1 s2) as H4.
  { unfold s2. case_match; [by apply request_start_leaves|by apply after_stop_leaves]. }
  assert (k ∉ dependents_of s2 n) as Hd2.
  { intros Hx. apply Hd. unfold dependents_of. rewrite <- HD, <- HD1. fold (dependents_of s1 n).
    unfold s2 in Hx. destruct (i_stopping (info_of s n)); [|by apply after_stop_dependents in Hx].
    unfold dependents_of in *. by rewrite request_start_dependents in Hx. }
  assert (leaves k s s2) as H5 by eauto using leaves_trans.
  case_match; [|done]. eapply leaves_trans; [exact H5|]. by apply bounce_leaves.
Qed.

(** ** C25 *)
Lemma unrelated_untouched E s l g r s' k : reachable E s -> (l = LStarted g \/ l = LStopped g) ->
  step E s l = Some s' -> s_gors s !! g = Some r -> k <> g_name r -> ~ depends_on (s_log s) k (g_name r) ->
  untouched k s s'.
Proof.
  intros Hr Hl Hs Hg Hk Hd. destruct (reachable_linv E s Hr) as [V L].
  assert (gids s) as Hgi by exact (v_next s V).
  assert (k ∉ dependents_of s (g_name r)) as Hd'.
  { rewrite (v_deps s V). intros (m & Hm & Hin). apply Hd. exists m. by rewrite (l_inst E s L). }
  enough (leaves k s s') as Hlv by (by apply Hlv).
  destruct r as [n f sn x al p]. simpl in *.
  destruct Hl as [-> | ->]; simpl in Hs; rewrite Hg in Hs; destruct p; try done; destruct (s_running s); try done; injection Hs as <-.
  - eapply leaves_trans; [|apply end_iteration_leaves].
    eapply leaves_trans; [eapply (set_pc_leaves k g (match w with WSelf => PSelf | WExt _ => PWait w end)); [exact Hg|simpl; congruence]|].
    by apply got_started_leaves.
  - eapply leaves_trans; [|apply end_iteration_leaves].
    eapply leaves_trans; [eapply (set_pc_leaves k g PGone); [exact Hg|simpl; congruence]|].
    by apply got_stopped_leaves.
Qed.

(** ** C07 *)

Lemma split_cons {A} (x : A) l pre ev post : x :: l = pre ++ ev :: post ->
  (pre = [] /\ x = ev /\ l = post) \/ exists pre', pre = x :: pre' /\ l = pre' ++ ev :: post.
Proof. destruct pre as [|y pre]; simpl; intros [= -> ->]; [by left|right; eauto]. Qed.

Lemma split_app {A} (new l pre : list A) ev post : new ++ l = pre ++ ev :: post ->
  ev ∈ new \/ exists pre', pre = new ++ pre' /\ l = pre' ++ ev :: post.
Proof.
  revert pre. induction new as [|x new IH]; intros pre H; [right; by exists pre|].
  simpl in H. apply split_cons in H as [(-> & -> & _)|(pre' & -> & H)]; [left; by left|].
  apply IH in H as [H|(q & -> & H)]; [left; by right|]. right. by exists q.
Qed.

Definition bnc_inv (s : state) (D : gset string) : Prop :=
  dying s = false -> forall pre ev post n k, s_log s = pre ++ ev :: post ->
  came_or_went ev post n -> depends_on post k n ->
  served (s_log s) pre post k \/
  (k ∈ D /\ in_progress (s_log s) k = in_progress post k /\ last_change (s_log s) = Some n /\ depends_on (s_log s) k n).

Definition no_inst (new : list event) : Prop := forall k m, EvInstalled k m ∉ new.
Lemma no_inst_nil : no_inst [].
Proof. intros k m. apply not_elem_of_nil. Qed.
Lemma no_inst_one ev : (forall k m, ev <> EvInstalled k m) -> no_inst [ev].
Proof. intros H k m Hx%elem_of_list_singleton. by apply (H k m). Qed.
Lemma no_inst_app l1 l2 : no_inst l1 -> no_inst l2 -> no_inst (l1 ++ l2).
Proof. intros H1 H2 k m [H|H]%elem_of_app; [by eapply H1|by eapply H2]. Qed.
Lemma last_change_app new log : (forall ev n, ev ∈ new -> ~ changes ev n) -> no_inst new -> last_change (new ++ log) = last_change log.
Proof.
  induction new as [|ev new IH]; intros H Hn; [done|]. simpl.
  assert (forall n, ~ changes ev n) as He by (intros n; apply H; by left).
  rewrite IH; [|intros e n Hx; apply H; by right|intros k m Hx; apply (Hn k m); by right].
  destruct ev; try done; first [by destruct (He n)|by destruct (Hn n m); left].
Qed.

Lemma bnc_frame s D s' D' new : bnc_inv s D -> s_log s' = new ++ s_log s -> (dying s' = false -> dying s = false) ->
  (forall ev n, ev ∈ new -> ~ changes ev n) ->
  (dying s' = false -> forall k x, k ∈ D -> last_change (s_log s) = Some x -> depends_on (s_log s) k x ->
    (no_inst new /\ k ∈ D' /\ in_progress (s_log s') k = in_progress (s_log s) k /\ installed (s_log s') k = installed (s_log s) k) \/
    match in_progress (s_log s) k with
    | None => exists g sn t d, EvAttempt g k sn t d ∈ new
    | Some g => asked_to_stop (s_log s') g
    end) ->
  bnc_inv s' D'.
Proof.
  intros HI Hl Hd Hnew HD Hd' pre ev post n k Heq Hc Hdep. rewrite Hl in Heq.
  apply split_app in Heq as [Hx|(pre' & -> & Heq)].
  { exfalso. apply (Hnew ev n Hx). destruct ev; simpl in *; tauto. }
  destruct (HI (Hd Hd') _ _ _ _ _ Heq Hc Hdep) as [H|(Hk & Hip & Hlc & Hdp)].
  - left. unfold served in *. rewrite Hl. destruct (in_progress post k).
    + destruct H as [m Hm]. exists m. apply elem_of_app. by right.
    + destruct H as (g & sn & t & d & H). exists g, sn, t, d. apply elem_of_app. by right.
  - destruct (HD Hd' k n Hk Hlc Hdp) as [(Hni & H1 & H2 & H3)|H].
    + right. split_and!; [done|congruence| |].
      * rewrite Hl. by rewrite last_change_app.
      * unfold depends_on. rewrite H3. done.
    + left. unfold served. rewrite <- Hip. destruct (in_progress (s_log s) k); [done|].
      destruct H as (g & sn & t & d & H). exists g, sn, t, d. apply elem_of_app. by left.
Qed.

Lemma no_self E s n : inv s -> linv E s -> ~ depends_on (s_log s) n n.
Proof.
  intros V L (m & Hm & Hin). rewrite (l_inst E s L) in Hm.
  eapply (acyclic_no_self (inputs_graph (s_manifolds s)) n); [apply (v_acyc s V)| |exact Hin].
  unfold inputs_graph. by rewrite lookup_fmap, Hm.
Qed.

Lemma bnc_quiet s D s' new : bnc_inv s D -> s_log s' = new ++ s_log s -> (dying s' = false -> dying s = false) ->
  (forall ev n, ev ∈ new -> ~ changes ev n) -> no_inst new ->
  (forall k, in_progress (s_log s') k = in_progress (s_log s) k /\ installed (s_log s') k = installed (s_log s) k) ->
  bnc_inv s' D.
Proof.
  intros HI Hl Hd Hn Hni Hk. eapply bnc_frame; try done. intros _ k x Hin _ _. left. split; [done|]. split; [done|]. apply Hk.
Qed.
Lemma bnc_empty s s' new D' : bnc_inv s ∅ -> s_log s' = new ++ s_log s -> (dying s' = false -> dying s = false) ->
  (forall ev n, ev ∈ new -> ~ changes ev n) -> bnc_inv s' D'.
Proof. intros HI Hl Hd Hn. eapply bnc_frame; try done. Qed.

(** A start or a stop is processed: its dependents are scheduled *)
Lemma bnc_change E s s' new ev n (D : gset string) : inv s -> linv E s -> bnc_inv s ∅ -> s_log s' = new ++ ev :: s_log s ->
  (dying s' = false -> dying s = false) -> changes ev n -> (forall ev' m, ev' ∈ new -> ~ changes ev' m) -> no_inst new ->
  (forall k, n <> k -> in_progress (s_log s') k = in_progress (s_log s) k) ->
  (forall k, installed (s_log s') k = installed (s_log s) k) ->
  (dying s' = false -> came_or_went ev (s_log s) n -> forall k, depends_on (s_log s) k n -> k ∈ D) ->
  bnc_inv s' D.
Proof.
  intros V L HI Hl Hd Hev Hnew Hni Hip Hin HD Hd' pre ev' post n' k Heq Hc Hdep.
  rewrite Hl in Heq. apply split_app in Heq as [Hx|(pre' & -> & Heq)].
  { exfalso. apply (Hnew ev' n' Hx). destruct ev'; simpl in *; tauto. }
  apply split_cons in Heq as [(-> & -> & Heq)|(pre2 & -> & Heq)].
  - assert (n' = n) as -> by (destruct ev'; simpl in *; naive_solver).
    right. rewrite <- Heq in *. split_and!.
    + by apply HD.
    + apply Hip. intros ->. by apply (no_self E s k).
    + rewrite Hl, last_change_app by done. destruct ev'; simpl in *; try done; [by subst|]. destruct Hc as [-> Hc]. by destruct (registered (s_log s) n).
    + unfold depends_on. rewrite Hin. done.
  - left. destruct (HI (Hd Hd') _ _ _ _ _ Heq Hc Hdep) as [H|[H _]]; [|by apply elem_of_empty in H].
    unfold served in *. rewrite Hl. destruct (in_progress post k).
    + destruct H as [m Hm]. exists m. rewrite elem_of_app, elem_of_cons. auto.
    + destruct H as (g & sn & t & d & H). exists g, sn, t, d. rewrite elem_of_app, elem_of_cons. auto.
Qed.

Lemma bnc_micro E s D s' D' : inv s -> linv E s -> bnc_inv s D -> micro E s D s' D' -> bnc_inv s' D'.
Proof.
  intros V L HI Hm.
  assert (dying s' = false -> dying s = false) as Hmono.
  { intros Hd. destruct (micro_dying E s D s' D' V Hm) as [<-|[_ Hx]]; congruence. }
  assert (forall n, i_stopped (info_of s n) = true -> in_progress (s_log s) n = None) as Hstop.
  { intros n Hn. destruct (in_progress (s_log s) n) as [g|] eqn:Hx; [|done].
    apply (l_prog E s L) in Hx as (r & Hr & Hnr & Hp). destruct Hp. by eapply stopped_inactive. }
  destruct Hm.
  - (* kill *) intros Hd. exfalso. rewrite kill_tomb_dying in Hd; [done|apply (v_reason s V)].
  - apply (bnc_quiet s D _ []); try done; [by intros ? ? ?%elem_of_nil|apply no_inst_nil].
  - apply (bnc_quiet s D _ []); try done; [by intros ? ? ?%elem_of_nil|apply no_inst_nil].
  - apply (bnc_quiet s D _ [EvInstall n m r]); try done; [intros ? ? ->%elem_of_list_singleton; by intros []|by apply no_inst_one].
  - apply (bnc_quiet s D _ [EvReport r]); try done; [intros ? ? ->%elem_of_list_singleton; by intros []|by apply no_inst_one].
  - eapply (bnc_quiet s D _ [EvWait _]); try done; [intros ? ? ->%elem_of_list_singleton; by intros []|by apply no_inst_one].
  - apply (bnc_empty s _ [EvInstalled n m]); try done. intros ? ? ->%elem_of_list_singleton; by intros [].
  - (* launch *)
    eapply (bnc_frame s D _ _ [_]); [done|rewrite launch_log; reflexivity|done|intros ? ? ->%elem_of_list_singleton; by intros []|].
    intros _ k x Hk _ _. destruct (decide (n = k)) as [->|Hne].
    + right. rewrite Hstop by done. eexists _, _, _, _. by left.
    + left. split; [by apply no_inst_one|]. rewrite launch_log. simpl. lk. set_solver.
  - (* stop *)
    destruct (live_progress E s n V L H1 H2) as (g & Hg & Hc & Ha); [by apply not_eq_None_Some|].
    assert (exists new, s_log (stop_base n s) = new ++ EvCancel g n :: s_log s /\
      (new = [] \/ exists w, new = [EvKill g n w])) as (new & Hnew & Hsh).
    { unfold stop_base. rewrite Hc. simpl. destruct (i_worker (info_of s n)); [eexists [_]; split; [done|eauto]|exists []; auto]. }
    eapply (bnc_frame s D _ _ (new ++ [EvCancel g n])); [done|by rewrite <- app_assoc|done| |].
    { intros ev k. rewrite elem_of_app, elem_of_list_singleton.
      destruct Hsh as [-> |[w ->]]; rewrite ?elem_of_nil, ?elem_of_list_singleton; naive_solver. }
    intros _ k x Hk _ _. destruct (decide (n = k)) as [->|Hne].
    + right. rewrite Hg, Hnew. exists k. apply elem_of_app. right. by left.
    + left. rewrite Hnew. split; [apply no_inst_app; [destruct Hsh as [-> |[w ->]]; [apply no_inst_nil|by apply no_inst_one]|by apply no_inst_one]|].
      destruct Hsh as [-> |[w ->]]; simpl; set_solver.
  - (* skip *)
    eapply (bnc_frame s D _ _ []); [done|done|done|by intros ? ? ?%elem_of_nil|].
    intros Hd k x Hk _ _. destruct (decide (n = k)) as [->|Hne]; [|left; split; [apply no_inst_nil|set_solver]].
    destruct H as [H|[H _]]; [|congruence].
    right. destruct (stopping_asked E s k V L H) as (g & -> & Hg). done.
  - (* drop *) intros Hd. congruence.
  - (* uninstall *)
    eapply (bnc_frame s D _ _ [EvUninstall n]); [done|done|done|intros ? ? ->%elem_of_list_singleton; by intros []|].
    intros _ k x Hk Hlc Hdep. destruct (decide (n = k)) as [->|Hne].
    + exfalso. destruct (s_log s) as [|ev0 log] eqn:Hlog; [done|]. simpl in H4. injection H4 as ->. simpl in Hlc.
      destruct (registered log k); [|done]. injection Hlc as <-. rewrite <- Hlog in Hdep. by apply (no_self E s k).
    + left. split; [by apply no_inst_one|]. unfold uninstall. simpl. lk. set_solver.
  - eapply (bnc_empty s _ [_]); try done. intros ? ? ->%elem_of_list_singleton; by intros [].
  - eapply (bnc_empty s _ []); try done. by intros ? ? ?%elem_of_nil.
  - eapply (bnc_empty s _ [_]); try done. intros ? ? ->%elem_of_list_singleton; by intros [].
  - eapply (bnc_empty s _ [_]); try done. intros ? ? ->%elem_of_list_singleton; by intros [].
  - eapply (bnc_empty s _ []); try done. by intros ? ? ?%elem_of_nil.
  - eapply (bnc_empty s _ []); try done. by intros ? ? ?%elem_of_nil.
  - (* register *)
    eapply (bnc_change E s _ [EvMetric n] (EvRegister g n w (s_now s)) n); try done.
    + intros ? ? ->%elem_of_list_singleton; by intros [].
    + by apply no_inst_one.
    + intros _ _ k (m & Hm & Hin). rewrite elem_of_list_to_set, (v_deps s V). exists m. by rewrite <- (l_inst E s L).
  - eapply (bnc_empty s _ [_]); try done. intros ? ? ->%elem_of_list_singleton; by intros [].
  - eapply (bnc_empty s _ [_]); try done. intros ? ? ->%elem_of_list_singleton; by intros [].
  - eapply (bnc_empty s _ [_]); try done. intros ? ? ->%elem_of_list_singleton; by intros [].
  - (* end *)
    assert (exists ev, s_log (end_base E g n e al (s <| s_gors ::= <[g := mkGor n f sn x al PGone]> |>)) = ev :: s_log s /\ 
      ev = EvStopped g n e (filtered s n e) (s_now s)) as (ev & Hlog & Hev).
    { eexists. split; [|reflexivity]. unfold end_base. simpl. by destruct (c_isFatal _ _). }
    eapply (bnc_change E s _ [] ev n); try done.
    + by rewrite Hev.
    + by intros ? ? ?%elem_of_nil.
    + apply no_inst_nil.
    + intros k Hk. rewrite Hlog, Hev. simpl. by lk.
    + intros k. by rewrite Hlog, Hev.
    + intros Hd. rewrite (Hmono Hd), Hev. intros [_ Hreg] k (m & Hm & Hin). apply elem_of_union. right.
      destruct (i_worker (info_of s n)) eqn:Hw.
      * rewrite elem_of_list_to_set, (v_deps s V). exists m. by rewrite <- (l_inst E s L).
      * exfalso. rewrite <- (l_regw E s L) in Hw. by destruct (registered (s_log s) n).
  - eapply (bnc_empty s _ []); try done. by intros ? ? ?%elem_of_nil.
  - eapply (bnc_empty s _ [_]); try done. intros ? ? ->%elem_of_list_singleton; by intros [].
Qed.

Lemma dependents_bounced E s pre ev post n k : reachable E s -> ~ is_dying (s_log s) ->
  s_log s = pre ++ ev :: post -> came_or_went ev post n -> depends_on post k n -> served (s_log s) pre post k.
Proof.
  intros Hr Hnd Heq Hc Hd.
  assert (bnc_inv s ∅) as HI.
  { apply (reach_ind2 E bnc_inv); [| |done].
    - intros _ p ? ? ? ? Hx. by destruct p.
    - intros s1 D1 s2 D2 V1 L1 V2 L2 HP Hm. by apply (bnc_micro E s1 D1 s2 D2). }
  destruct (reachable_linv E s Hr) as [V L].
  destruct (HI (ltac:(destruct (dying s) eqn:Hx; [by apply (l_dying E s L) in Hx|done])) _ _ _ _ _ Heq Hc Hd) as [|[Hx _]]; [done|].
  by apply elem_of_empty in Hx.
Qed.

(** ** C08: what happens to a manifold whose attempt ended *)
Fixpoint last_note (log : list event) : option string :=
  match log with
  | [] => None
  | EvInstalled _ _ :: _ => None
  | EvRegister _ n _ _ :: _ => Some n
  | EvStopped _ n _ _ _ :: _ => Some n
  | _ :: log' => last_note log'
  end.
Lemma last_note_app new log : (forall ev n, ev ∈ new -> ~ changes ev n) -> no_inst new -> last_note (new ++ log) = last_note log.
Proof.
  induction new as [|ev new IH]; intros H Hn; [done|]. simpl.
  assert (forall n, ~ changes ev n) as He by (intros n; apply H; by left).
  rewrite IH; [|intros e n Hx; apply H; by right|intros k m Hx; apply (Hn k m); by right].
  destruct ev; try done; first [by destruct (He n)|by destruct (Hn n m); left].
Qed.
Lemma last_change_note log x : last_change log = Some x -> last_note log = Some x.
Proof. induction log as [|ev log IH]; simpl; [done|]. destruct ev; simpl; try done. by case_match. Qed.
Definition stp_inv (E : env) (s : state) (D : gset string) : Prop :=
  dying s = false -> forall pre g n raw e t post, s_log s = pre ++ EvStopped g n raw e t :: post ->
  let pending := n ∈ D /\ in_progress (s_log s) n = None /\
    (forall ev x, ev ∈ pre -> ~ changes ev x) /\ no_inst pre in
  (forall base, restarts (e_cfg E) post g e base ->
    (exists pre' g' sn t', pre = pre' ++ [EvAttempt g' n sn t'
      (attempt_delay E g' base (error_count (e_cfg E) (EvStopped g n raw e t :: post) n))]) \/ pending) /\
  (uninstalls post g e -> (exists pre', pre = pre' ++ [EvUninstall n]) \/ pending).

Lemma stp_frame E s D s' D' new : stp_inv E s D -> s_log s' = new ++ s_log s -> (dying s' = false -> dying s = false) ->
  (forall ev n, ev ∈ new -> ~ changes ev n) ->
  (dying s' = false -> forall k, k ∈ D -> in_progress (s_log s) k = None ->
    last_note (s_log s) = Some k ->
    (k ∈ D' /\ in_progress (s_log s') k = None /\ no_inst new) \/
    (forall pre g raw e t post, s_log s = pre ++ EvStopped g k raw e t :: post -> 
      (forall ev x, ev ∈ pre -> ~ changes ev x) -> no_inst pre ->
      (forall base, restarts (e_cfg E) post g e base -> pre = [] /\ exists g' sn t', new = [EvAttempt g' k sn t'
        (attempt_delay E g' base (error_count (e_cfg E) (EvStopped g k raw e t :: post) k))]) /\
      (uninstalls post g e -> pre = [] /\ new = [EvUninstall k]))) ->
  stp_inv E s' D'.
Proof.
  intros HI Hl Hd Hnew HD Hd' pre g n raw e t post Heq. rewrite Hl in Heq.
  apply split_app in Heq as [Hx|(pre' & -> & Heq)]; [by apply Hnew with (n := n) in Hx|].
  destruct (HI (Hd Hd') _ _ _ _ _ _ _ Heq) as [H1 H2]. cbv zeta.
  assert (n ∈ D /\ in_progress (s_log s) n = None /\
    (forall ev x, ev ∈ pre' -> ~ changes ev x) /\ no_inst pre' ->
    (n ∈ D' /\ in_progress (s_log s') n = None /\
    (forall ev x, ev ∈ new ++ pre' -> ~ changes ev x) /\ no_inst (new ++ pre')) \/
    ((forall base, restarts (e_cfg E) post g e base -> pre' = [] /\ exists g' sn t', new = [EvAttempt g' n sn t'
        (attempt_delay E g' base (error_count (e_cfg E) (EvStopped g n raw e t :: post) n))]) /\
      (uninstalls post g e -> pre' = [] /\ new = [EvUninstall n]))) as Hpend.
  { intros (P1 & P2 & P3 & P4). destruct (HD Hd' n P1 P2) as [(Q1 & Q2 & Q3)|Q].
    - rewrite Heq, last_note_app by done. done.
    - left. split_and!; try done.
      + intros ev x [Hx|Hx]%elem_of_app; eauto.
      + by apply no_inst_app.
    - right. by eapply Q. }
  split.
  - intros base Hb. destruct (H1 base Hb) as [(p & g' & sn & t' & ->)|Hp].
    + left. exists (new ++ p), g', sn, t'. by rewrite <- app_assoc.
    + destruct (Hpend Hp) as [?|[Q _]]; [by right|]. left.
      destruct (Q base Hb) as (-> & g' & sn & t' & ->). by exists [], g', sn, t'.
  - intros Hb. destruct (H2 Hb) as [(p & ->)|Hp].
    + left. exists (new ++ p). by rewrite <- app_assoc.
    + destruct (Hpend Hp) as [?|[_ Q]]; [by right|]. left.
      destruct (Q Hb) as (-> & ->). by exists [].
Qed.
Lemma stp_quiet E s D s' new : stp_inv E s D -> s_log s' = new ++ s_log s -> (dying s' = false -> dying s = false) ->
  (forall ev n, ev ∈ new -> ~ changes ev n) -> (forall k m, EvInstalled k m ∉ new) ->
  (forall k, in_progress (s_log s') k = in_progress (s_log s) k) ->
  stp_inv E s' D.
Proof. intros HI Hl Hd Hn Hi Hk. eapply stp_frame; try done. intros _ k Hin Hx _. left. rewrite Hk. auto. Qed.
Lemma stp_empty E s s' new D' : stp_inv E s ∅ -> s_log s' = new ++ s_log s -> (dying s' = false -> dying s = false) ->
  (forall ev n, ev ∈ new -> ~ changes ev n) -> stp_inv E s' D'.
Proof. intros HI Hl Hd Hn. eapply stp_frame; try done. Qed.

Lemma stp_micro E s D s' D' : inv s -> linv E s -> inv s' -> linv E s' -> stp_inv E s D -> micro E s D s' D' -> stp_inv E s' D'.
Proof.
  intros V L V' L' HI Hm.
  assert (dying s' = false -> dying s = false) as Hmono.
  { intros Hd. destruct (micro_dying E s D s' D' V Hm) as [<-|[_ Hx]]; congruence. }
  pose proof (l_canc E s L) as Hcanc.
  assert (forall n, i_stopped (info_of s n) = true -> in_progress (s_log s) n = None) as Hstop.
  { intros n Hn. destruct (in_progress (s_log s) n) as [g|] eqn:Hx; [|done].
    apply (l_prog E s L) in Hx as (r & Hr & Hnr & Hp). destruct Hp. by eapply (stopped_inactive s). }
  destruct Hm.
  - (* kill *) intros Hd. exfalso. rewrite kill_tomb_dying in Hd; [done|apply (v_reason s V)].
  - apply (stp_quiet E s D _ []); try done; [by intros ? ? ?%elem_of_nil|by intros ? ? ?%elem_of_nil].
  - apply (stp_quiet E s D _ []); try done; [by intros ? ? ?%elem_of_nil|by intros ? ? ?%elem_of_nil].
  - apply (stp_quiet E s D _ [EvInstall n m r]); try done; [|by intros ? ? ?%elem_of_list_singleton].
    intros ? ? ->%elem_of_list_singleton; by intros [].
  - apply (stp_quiet E s D _ [EvReport r]); try done; [|by intros ? ? ?%elem_of_list_singleton].
    intros ? ? ->%elem_of_list_singleton; by intros [].
  - eapply (stp_quiet E s D _ [EvWait _]); try done; [|by intros ? ? ?%elem_of_list_singleton].
    intros ? ? ->%elem_of_list_singleton; by intros [].
  - apply (stp_empty E s _ [EvInstalled n m]); try done. intros ? ? ->%elem_of_list_singleton; by intros [].
  - (* launch *)
    eapply (stp_frame E s D _ _ [_]); [done|rewrite launch_log; reflexivity|done|intros ? ? ->%elem_of_list_singleton; by intros []|].
    intros _ k Hk Hip Hlc. destruct (decide (n = k)) as [->|Hne].
    2:{ left. rewrite launch_log. simpl. lk. split_and!; [set_solver|done|]. by apply no_inst_one. }
    right. intros pre g raw e t post Heq Hnc Hni.
    assert (pre = [] /\ exists g0 raw0 e0 t0, head (s_log s) = Some (EvStopped g0 k raw0 e0 t0) /\
       (g0 ∈ s_cancelled s /\ base = c_bounceDelay (e_cfg E) \/ g0 ∉ s_cancelled s /\ restart_delay (e_cfg E) e0 = Some base)) as [-> Hcause].
    { destruct H3 as [(_ & m & Hh)|[(_ & x & m & Hx & Hmm & Hin)|(g0 & raw0 & e0 & t0 & Hh & Hc)]].
      - rewrite Heq in Hh. destruct pre as [|ev0 pre]; [done|]. simpl in Hh. injection Hh as ->. exfalso. apply (Hni k m). by left.
      - exfalso. apply last_change_note in Hx. rewrite Hlc in Hx. injection Hx as <-. apply (no_self E s k V L). exists m. by rewrite (l_inst E s L).
      - rewrite Heq in Hh. destruct pre as [|ev0 pre].
        + split; [done|]. exists g0, raw0, e0, t0. by rewrite Heq.
        + simpl in Hh. injection Hh as ->. exfalso. apply (Hnc (EvStopped g0 k raw0 e0 t0) k); [by left|done]. }
    simpl in Heq. destruct Hcause as (g0 & raw0 & e0 & t0 & Hh & Hc). rewrite Heq in Hh. simpl in Hh. injection Hh as <- <- <- <-.
    rewrite Hcanc in Hc. assert (asked_to_stop (s_log s) g <-> asked_to_stop post g) as Ha.
    { rewrite Heq. unfold asked_to_stop. split; intros [y Hy]; exists y; [by apply elem_of_cons in Hy as [?|?]|by right]. }
    rewrite Ha in Hc. split.
    + intros base0 Hb. split; [done|]. eexists _, _, _. f_equal. f_equal.
      destruct (v_dom s V k) as [_ [i Hi]]; [done|]. rewrite (info_of_eq _ _ _ Hi), (l_recent E s L _ _ Hi), Heq.
      assert (base = base0) as -> by (unfold restarts in Hb; naive_solver). done.
    + intros (U1 & U2 & U3 & U4). exfalso. unfold restart_delay in Hc. rewrite U2, U3, U4 in Hc. naive_solver.
  - (* stop *)
    destruct (live_progress E s n V L H1 H2) as (g & Hg & Hc & Ha); [by apply not_eq_None_Some|].
    assert (exists new, s_log (stop_base n s) = new ++ EvCancel g n :: s_log s /\
      (new = [] \/ exists w, new = [EvKill g n w])) as (new & Hnew & Hsh).
    { unfold stop_base. rewrite Hc. simpl. destruct (i_worker (info_of s n)); [eexists [_]; split; [done|eauto]|exists []; auto]. }
    eapply (stp_frame E s D _ _ (new ++ [EvCancel g n])); [done|by rewrite <- app_assoc|done| |].
    { intros ev k. rewrite elem_of_app, elem_of_list_singleton.
      destruct Hsh as [-> |[w ->]]; rewrite ?elem_of_nil, ?elem_of_list_singleton; naive_solver. }
    intros _ k Hk Hip _. destruct (decide (n = k)) as [->|Hne]; [congruence|].
    left. rewrite Hnew. destruct Hsh as [-> |[w ->]]; simpl; (split_and!; [set_solver|done|]); intros ? m; set_solver.
  - (* skip *)
    eapply (stp_frame E s D _ _ []); [done|done|done|by intros ? ? ?%elem_of_nil|].
    intros Hd k Hk Hip _. destruct (decide (n = k)) as [->|Hne]; [|left; split_and!; [set_solver|done|apply no_inst_nil]].
    destruct H as [H|[H _]]; [|congruence].
    destruct (stopping_asked E s k V L H) as (g & Hg & _). congruence.
  - (* drop *) intros Hd. congruence.
  - (* uninstall *)
    eapply (stp_frame E s D _ _ [EvUninstall n]); [done|done|done|intros ? ? ->%elem_of_list_singleton; by intros []|].
    intros _ k Hk Hip Hlc. destruct (decide (n = k)) as [->|Hne].
    2:{ left. unfold uninstall. simpl. split_and!; [set_solver|done|]. by apply no_inst_one. }
    right. intros pre g0 raw0 e0 t0 post Heq Hnc Hni. rewrite Heq in H4.
    destruct pre as [|ev0 pre].
    2:{ simpl in H4. injection H4 as ->. exfalso. apply (Hnc (EvStopped g k raw e t) k); [by left|done]. }
    simpl in H4. injection H4 as -> -> -> ->. split; [|done].
    intros base [[Hb _]|[_ Hb]]; [|congruence]. exfalso. apply H7, Hcanc. rewrite Heq. destruct Hb as [y Hy]. exists y. by right.
  - eapply (stp_empty E s _ [_]); try done. intros ? ? ->%elem_of_list_singleton; by intros [].
  - eapply (stp_empty E s _ []); try done. by intros ? ? ?%elem_of_nil.
  - eapply (stp_empty E s _ [_]); try done. intros ? ? ->%elem_of_list_singleton; by intros [].
  - eapply (stp_empty E s _ [_]); try done. intros ? ? ->%elem_of_list_singleton; by intros [].
  - eapply (stp_empty E s _ []); try done. by intros ? ? ?%elem_of_nil.
  - eapply (stp_empty E s _ []); try done. by intros ? ? ?%elem_of_nil.
  - (* register *)
    intros Hd pre g0 n0 raw e t post Heq. simpl in Heq.
    apply split_cons in Heq as [(_ & ? & _)|(p1 & -> & Heq)]; [done|].
    apply split_cons in Heq as [(_ & ? & _)|(p2 & -> & Heq)]; [done|].
    destruct (HI (Hmono Hd) _ _ _ _ _ _ _ Heq) as [Q1 Q2]. split.
    + intros base Hb. destruct (Q1 base Hb) as [(p & g' & sn' & t' & ->)|[Hx _]]; [|by apply elem_of_empty in Hx].
      left. by exists (EvMetric n :: EvRegister g n w (s_now s) :: p), g', sn', t'.
    + intros Hb. destruct (Q2 Hb) as [(p & ->)|[Hx _]]; [|by apply elem_of_empty in Hx].
      left. by exists (EvMetric n :: EvRegister g n w (s_now s) :: p).
  - eapply (stp_empty E s _ [_]); try done. intros ? ? ->%elem_of_list_singleton; by intros [].
  - eapply (stp_empty E s _ [_]); try done. intros ? ? ->%elem_of_list_singleton; by intros [].
  - eapply (stp_empty E s _ [_]); try done. intros ? ? ->%elem_of_list_singleton; by intros [].
  - (* end *)
    assert (exists ev, s_log (end_base E g n e al (s <| s_gors ::= <[g := mkGor n f sn x al PGone]> |>)) = ev :: s_log s /\ 
      ev = EvStopped g n e (filtered s n e) (s_now s)) as (ev & Hlog & Hev).
    { eexists. split; [|reflexivity]. unfold end_base. simpl. by destruct (c_isFatal _ _). }
    intros Hd pre g0 n0 raw e0 t post Heq. rewrite (Hmono Hd). rewrite Hlog in Heq |- *. clear Hlog.
    apply split_cons in Heq as [(-> & Heq & <-)|(p1 & -> & Heq)].
    + rewrite Hev in Heq. injection Heq as <- <- <- <- <-.
      assert (forall b : bool, b = true -> n ∈ (if b then {[n]} else ∅ : gset string) ∪
        match i_worker (info_of s n) with Some _ => list_to_set (dependents_of s n) | None => ∅ end) as Hin by (intros b ->; set_solver).
      assert (in_progress (ev :: s_log s) n = None) as Hip by (rewrite Hev; simpl; by lk).
      destruct (v_active s V g _ H) as (i & Hi & Hok); [done|]. simpl in Hi, Hok. rewrite (info_of_eq _ _ _ Hi) in *.
      assert (asked_to_stop (s_log s) g -> i_stopping i = true) as Has.
      { intros Hx. apply Hcanc in Hx. destruct Hok. destruct (i_stopping i); [done|]. tauto. }
      split.
      * intros base Hb. right. split_and!; [|done|by intros ? ? ?%elem_of_nil|apply no_inst_nil].
        apply Hin. destruct Hb as [[Hb _]|[_ Hb]]; [by rewrite Has|].
        apply orb_true_iff. right. unfold restart_delay in Hb. by destruct (terminal _).
      * intros (_ & Hb & _). right. split_and!; [|done|by intros ? ? ?%elem_of_nil|apply no_inst_nil].
        apply Hin. rewrite Hb. by destruct (i_stopping i).
    + destruct (HI (Hmono Hd) _ _ _ _ _ _ _ Heq) as [Q1 Q2]. split.
      * intros base Hb. destruct (Q1 base Hb) as [(p & g' & sn' & t' & ->)|[Hx _]]; [|by apply elem_of_empty in Hx].
        left. by exists (ev :: p), g', sn', t'.
      * intros Hb. destruct (Q2 Hb) as [(p & ->)|[Hx _]]; [|by apply elem_of_empty in Hx].
        left. by exists (ev :: p).
  - eapply (stp_empty E s _ []); try done. by intros ? ? ?%elem_of_nil.
  - eapply (stp_empty E s _ [_]); try done. intros ? ? ->%elem_of_list_singleton; by intros [].
Qed.

Lemma stopped_then E s pre g n raw e t post : reachable E s -> ~ is_dying (s_log s) ->
  s_log s = pre ++ EvStopped g n raw e t :: post ->
  (forall base, restarts (e_cfg E) post g e base ->
    exists pre' g' sn t', pre = pre' ++ [EvAttempt g' n sn t'
      (attempt_delay E g' base (error_count (e_cfg E) (EvStopped g n raw e t :: post) n))]) /\
  (uninstalls post g e -> exists pre', pre = pre' ++ [EvUninstall n]).
Proof.
  intros Hr Hnd Heq.
  assert (stp_inv E s ∅) as HI.
  { apply (reach_ind2 E (stp_inv E)); [| |done].
    - intros _ p ? ? ? ? ? ? Hx. by destruct p.
    - intros s1 D1 s2 D2 V1 L1 V2 L2 HP Hm. by apply (stp_micro E s1 D1 s2 D2). }
  destruct (reachable_linv E s Hr) as [V L].
  assert (dying s = false) as Hd by (destruct (dying s) eqn:Hx; [by apply (l_dying E s L) in Hx|done]).
  destruct (HI Hd _ _ _ _ _ _ _ Heq) as [Q1 Q2]. split.
  - intros base Hb. destruct (Q1 base Hb) as [?|[Hx _]]; [done|]. by apply elem_of_empty in Hx.
  - intros Hb. destruct (Q2 Hb) as [?|[Hx _]]; [done|]. by apply elem_of_empty in Hx.
Qed.

Lemma tc_mono {A} (R R' : A -> A -> Prop) : (forall a b, R a b -> R' a b) -> forall a b, tc R a b -> tc R' a b.
Proof. intros H a b Hc. induction Hc; [by apply tc_once, H|]. eapply tc_l; [by apply H|done]. Qed.

(** No manifold ever depends on itself, directly or not. *)
Definition no_cycles (log : list event) : Prop := forall n, ~ tc (depends_on log) n n.
Lemma no_cycles_now E s : inv s -> linv E s -> no_cycles (s_log s).
Proof.
  intros V L n Hc. apply (v_acyc s V n). unfold on_cycle.
  assert (forall a b, depends_on (s_log s) a b -> depends (inputs_graph (s_manifolds s)) a b) as Hd.
  { intros a b (m & Hm & Hin). rewrite (l_inst E s L) in Hm. exists (m_inputs m). unfold inputs_graph. by rewrite lookup_fmap, Hm. }
  revert Hc. by apply tc_mono.
Qed.
Lemma no_cycles_ext log log' : (forall n, installed log' n = installed log n) -> no_cycles log -> no_cycles log'.
Proof.
  intros H Hn n Hc. apply (Hn n). assert (forall a b, depends_on log' a b -> depends_on log a b) as Hd.
  { intros a b. unfold depends_on. by rewrite H. }
  revert Hc. by apply tc_mono.
Qed.
Lemma never_cycles E s pre post : reachable E s -> s_log s = pre ++ post -> no_cycles post.
Proof.
  intros Hr Heq. destruct (reachable_linv E s Hr) as [V0 L0].
  destruct pre as [|ev pre] using rev_ind; [simpl in Heq; subst; by apply (no_cycles_now E)|]. clear IHpre.
  rewrite <- app_assoc in Heq. simpl in Heq. revert Heq.
  apply (hist_reach E (fun ev post => no_cycles post)); [|done].
  clear. intros s D s' D' V L V' L' Hh Hm. pose proof (no_cycles_now E s V L) as Hn.
  mnorm V; try done; split_and?; try done; by apply (no_cycles_ext (s_log s)).
Qed.

Lemma last_change_in l g n raw e t post x : last_change (l ++ EvStopped g n raw e t :: post) = Some x ->
  x = n \/ exists l1 ev l2, l = l1 ++ ev :: l2 /\ came_or_went ev (l2 ++ EvStopped g n raw e t :: post) x.
Proof.
  induction l as [|ev l IH]; simpl; [case_match; [intros [= ->]; by left|done]|].
  intros H. assert (came_or_went ev (l ++ EvStopped g n raw e t :: post) x \/ last_change (l ++ EvStopped g n raw e t :: post) = Some x) as [Hc|Hc].
  { destruct ev; simpl; auto; try discriminate; [injection H as ->; auto|].
    destruct (registered (l ++ _) n0) eqn:Hx; [|done]. injection H as <-. left. by rewrite Hx. }
  - right. exists [], ev, l. done.
  - destruct (IH Hc) as [?|(l1 & ev' & l2 & -> & ?)]; [by left|]. right. by exists (ev :: l1), ev', l2.
Qed.

(** After an error that says so the manifold stays idle until an input changes (or it is installed again). *)
Lemma idle_after E s p2 g' n sn t' d p1 g raw e t post : reachable E s ->
  s_log s = p2 ++ EvAttempt g' n sn t' d :: p1 ++ EvStopped g n raw e t :: post ->
  ~ asked_to_stop post g -> restart_delay (e_cfg E) e = None -> (forall g0 raw0 e0 t0, EvStopped g0 n raw0 e0 t0 ∉ p1) ->
  (exists q1 ev q2 x, p1 = q1 ++ ev :: q2 /\ came_or_went ev (q2 ++ EvStopped g n raw e t :: post) x /\
     depends_on (p1 ++ EvStopped g n raw e t :: post) n x) \/
  (exists m, EvInstalled n m ∈ p1).
Proof.
  intros Hr Heq Ha He Hp. destruct (attempt_why E s _ _ _ _ _ _ _ Hr Heq) as (_ & _ & base & _ & Hw).
  destruct Hw as [(_ & m & l & Hl)|[(_ & x & Hx & Hdep)|(g0 & raw0 & e0 & t0 & l & Hl & Hc)]].
  - right. destruct p1 as [|ev p1]; [done|]. simpl in Hl. injection Hl as -> _. exists m. by left.
  - left. apply last_change_in in Hx as [-> |(q1 & ev & q2 & Hq & Hc)].
    + exfalso. apply (never_cycles E s (p2 ++ [EvAttempt g' n sn t' d]) (p1 ++ EvStopped g n raw e t :: post) Hr) with n.
      * by rewrite <- app_assoc.
      * by apply tc_once.
    + by exists q1, ev, q2, x.
  - destruct p1 as [|ev p1].
    + simpl in Hl. injection Hl as <- <- <- <- <-. destruct Hc as [[Hc _]|[_ Hc]]; [|congruence]. exfalso.
      apply Ha. destruct Hc as [y Hy]. exists y. by apply elem_of_cons in Hy as [?|?].
    + simpl in Hl. injection Hl as -> _. exfalso. eapply Hp. by left.
Qed.

(** ** C03 *)
Lemma would_cycle_iff E s n m : linv E s -> installed (s_log s) n = None ->
  acyclic (inputs_graph (<[n := m]> (s_manifolds s))) <-> ~ would_cycle (s_log s) n m.
Proof.
  intros L Hn. rewrite (l_inst E s L) in Hn.
  assert (forall a b, depends (inputs_graph (<[n := m]> (s_manifolds s))) a b <->
    (a = n /\ b ∈ m_inputs m) \/ depends_on (s_log s) a b) as Hd.
  { intros a b. unfold depends, depends_on, inputs_graph. rewrite lookup_fmap, (l_inst E s L). split.
    - intros (l & Hl & Hin). destruct (decide (a = n)) as [->|Hne].
      + rewrite lookup_insert in Hl. injection Hl as <-. by left.
      + right. rewrite lookup_insert_ne in Hl by done. destruct (s_manifolds s !! a) as [ma|] eqn:Hma; [|done].
        simpl in Hl. injection Hl as <-. eauto.
    - intros [[-> Hb]|(ma & Hma & Hb)].
      + exists (m_inputs m). by rewrite lookup_insert.
      + exists (m_inputs ma). rewrite lookup_insert_ne by congruence. by rewrite Hma. }
  unfold acyclic, on_cycle, would_cycle. split.
  - intros Ha [a Hx]. apply (Ha a). revert Hx. apply tc_mono. intros b c Hbc. by apply Hd.
  - intros Ha a Hx. apply Ha. exists a. revert Hx. apply tc_mono. intros b c Hbc. by apply Hd.
Qed.

Lemma kill_tomb_log e s : exists new, s_log (kill_tomb e s) = new ++ s_log s /\ forall ev, ev ∈ new -> ev = EvDying.
Proof.
  unfold kill_tomb. case_match; simpl; [exists [EvDying]|exists []]; (split; [done|]).
  - by intros ev ->%elem_of_list_singleton.
  - by intros ev ?%elem_of_nil.
Qed.
Lemma poll_log E s : exists new, s_log (poll E s) = new ++ s_log s /\ forall ev, ev ∈ new -> ev = EvDying.
Proof.
  unfold poll. case_match; simpl; [apply kill_tomb_log|]. exists []. split; [done|]. by intros ev ?%elem_of_nil.
Qed.
Lemma end_iteration_log E s : exists new, s_log (end_iteration E s) = new ++ s_log s /\
  forall ev, ev ∈ new -> ev = EvDying \/ ev = EvDead.
Proof.
  unfold end_iteration. destruct (poll_log E s) as (new & Hn & Hev). set (s1 := poll E s) in *. clearbody s1.
  case_match; simpl.
  - exists (EvDead :: new). rewrite Hn. split; [done|]. intros ev [->|?]%elem_of_cons; auto.
  - exists new. split; [done|]. auto.
Qed.
Lemma end_iteration_same E s : s_current (end_iteration E s) = s_current s /\ s_manifolds (end_iteration E s) = s_manifolds s /\
  s_dependents (end_iteration E s) = s_dependents s /\ s_gors (end_iteration E s) = s_gors s /\
  s_cancelled (end_iteration E s) = s_cancelled s.
Proof.
  unfold end_iteration. destruct (poll_same E s) as (P1 & P2 & P3 & _ & _ & P4 & _ & P5 & _).
  set (s1 := poll E s) in *. clearbody s1. by case_match.
Qed.

Lemma micros_linv E s D s' D' : micros E s D s' D' -> inv s -> linv E s -> inv s' /\ linv E s'.
Proof.
  induction 1 as [|s1 D1 s2 D2 s3 D3 H _ IH]; intros V L; [done|].
  apply IH; [by eapply micro_inv|by eapply micro_linv].
Qed.

Lemma install_result E s n m s' : reachable E s -> step E s (LInstall n m) = Some s' ->
  exists r new, s_log s' = new ++ s_log s /\ EvInstall n m r ∈ new /\
  (r = None <-> installed (s_log s) n = None /\ ~ would_cycle (s_log s) n m) /\
  (r <> None ->
     (forall ev, ev ∈ new -> ev = EvInstall n m r \/ ev = EvDying \/ ev = EvDead) /\
     s_manifolds s' = s_manifolds s /\ s_dependents s' = s_dependents s /\ s_current s' = s_current s /\ s_gors s' = s_gors s) /\
  (r = None -> installed (s_log s') n = Some m /\
     (is_dying (s_log s') \/ exists g sn t, EvAttempt g n sn t 0 ∈ new)).
Proof.
  intros Hr Hs. destruct (reachable_linv E s Hr) as [V L].
  assert (reachable E s') as Hr'.
  { destruct Hr as [ls Hls]. exists (ls ++ [LInstall n m]).
    assert (forall s0, run E s0 ls = Some s -> run E s0 (ls ++ [LInstall n m]) = Some s') as Hx; [|by apply Hx].
    clear -Hs. induction ls as [|l ls IH]; intros s0; simpl run.
    - intros [= ->]. change (match step E s (LInstall n m) with Some s' => Some s' | None => None end = Some s'). by rewrite Hs.
    - destruct (step E s0 l); [|done]. apply IH. }
  destruct (reachable_linv E s' Hr') as [V' L'].
  simpl in Hs. destruct (s_running s) eqn:Hrun; [|done].
  unfold got_install in Hs. 
  destruct (end_iteration_log E (emit (EvInstall n m (Some (EMsg (MsgAlreadyInstalled n)))) s)) as (n1 & Hn1 & Hn1').
  destruct (s_manifolds s !! n) as [m0|] eqn:Hm.
  { injection Hs as Hs. rewrite Hs in Hn1. exists (Some (EMsg (MsgAlreadyInstalled n))), (n1 ++ [EvInstall n m (Some (EMsg (MsgAlreadyInstalled n)))]).
    rewrite <- app_assoc. split_and!.
    - done.
    - apply elem_of_app. right. by left.
    - split; [done|]. intros [Hx _]. rewrite (l_inst E s L) in Hx. congruence.
    - intros _. split; [|rewrite <- Hs; destruct (end_iteration_same E (emit (EvInstall n m (Some (EMsg (MsgAlreadyInstalled n)))) s)) as (-> & -> & -> & -> & _); done].
      intros ev [Hx|Hx]%elem_of_app; [by right; apply Hn1'|]. apply elem_of_list_singleton in Hx. by left.
    - done. }
  assert (installed (s_log s) n = None) as Hi by (by rewrite (l_inst E s L)).
  pose proof (check_acyclic_none E n m s Hm) as Hca. rewrite (would_cycle_iff E s n m L Hi) in Hca.
  clear n1 Hn1 Hn1'.
  destruct (check_acyclic E n m s) as [e|] eqn:Hc.
  { injection Hs as Hs. set (r := Some (EWrap (MsgCannotInstall n) e)) in *.
    destruct (end_iteration_log E (emit (EvInstall n m r) (s <| s_polls ::= S |>))) as (n1 & Hn1 & Hn1').
    rewrite Hs in Hn1. exists r, (n1 ++ [EvInstall n m r]). rewrite <- app_assoc. split_and!.
    - done.
    - apply elem_of_app. right. by left.
    - split; [done|]. intros [_ Hx]. by apply Hca in Hx.
    - intros _. split; [|rewrite <- Hs; destruct (end_iteration_same E (emit (EvInstall n m r) (s <| s_polls ::= S |>))) as (-> & -> & -> & -> & _); done].
      intros ev [Hx|Hx]%elem_of_app; [by right; apply Hn1'|]. apply elem_of_list_singleton in Hx. by left.
    - done. }
  injection Hs as Hs. set (s0 := record_manifold n m (s <| s_polls ::= S |>)) in *.
  destruct (end_iteration_log E (emit (EvInstall n m None) (request_start E n 0 s0))) as (n1 & Hn1 & Hn1').
  rewrite Hs in Hn1. simpl in Hn1.
  assert (s_manifolds s' = <[n := m]> (s_manifolds s)) as Hms.
  { rewrite <- Hs. destruct (end_iteration_same E (emit (EvInstall n m None) (request_start E n 0 s0))) as (_ & -> & _).
    simpl. by rewrite request_start_manifolds. }
  assert (exists n2, s_log (request_start E n 0 s0) = n2 ++ s_log s /\ (EvDying ∈ n2 ++ s_log s \/ exists g sn t, EvAttempt g n sn t 0 ∈ n2)) as (n2 & Hn2 & Hat).
  { unfold request_start. assert (s_manifolds s0 !! n = Some m) as -> by (simpl; by rewrite lookup_insert).
    assert (i_stopped (info_of s0 n) = true) as -> by (unfold info_of; simpl; by rewrite lookup_insert).
    destruct (poll_log E s0) as (n3 & Hn3 & Hd3). change (s_log s0) with (EvInstalled n m :: s_log s) in Hn3.
    assert (inv s0) as V0.
    { unfold s0. apply (micro_inv E (s <| s_polls ::= S |>) ∅ _ (if dying (s <| s_polls ::= S |>) then ∅ else {[n]})).
      - apply (MRecord E); try done. by apply (check_acyclic_none E n m s).
      - apply (micro_inv E s ∅ _ ∅); [apply (MPolls E s)|done]. }
    destruct (dying (poll E s0)) eqn:Hdy.
    - exists (n3 ++ [EvInstalled n m]). rewrite <- app_assoc. split; [done|]. left.
      assert (linv E (poll E s0)) as L0.
      { eapply (micros_linv E s0 ∅); [apply poll_micros|done|].
        eapply (micro_linv E (s <| s_polls ::= S |>) ∅); [| |by apply (MRecord E); try done; apply (check_acyclic_none E n m s)].
        - apply (micro_inv E s ∅ _ ∅); [apply (MPolls E s)|done].
        - apply (micro_linv E s ∅ _ ∅); [done|done|apply (MPolls E s)]. }
      apply (l_dying E _ L0) in Hdy. unfold is_dying in Hdy. rewrite Hn3 in Hdy. rewrite !elem_of_app, ?elem_of_cons in *. naive_solver.
    - rewrite launch_log, Hn3. eexists ((_ :: n3) ++ [EvInstalled n m]). rewrite <- app_assoc. split; [reflexivity|].
      right. eexists _, _, _. apply elem_of_app. left. by left. }
  exists None, (n1 ++ EvInstall n m None :: n2). split_and!.
  - rewrite Hn1, Hn2, <- app_assoc. done.
  - apply elem_of_app. right. by left.
  - split; [|done]. intros _. split; [done|]. by apply Hca.
  - done.
  - intros _. split; [rewrite (l_inst E s' L'), Hms; by rewrite lookup_insert|].
    destruct Hat as [Hat|(g & sn & t & Hat)].
    + left. unfold is_dying. rewrite Hn1, Hn2. rewrite !elem_of_app, elem_of_cons, elem_of_app in *. tauto.
    + right. exists g, sn, t. rewrite elem_of_app, elem_of_cons. auto.
Qed.

(** A refused Install changes nothing and only happens when the engine is dying. *)
Lemma install_refused E s n m s' : reachable E s -> step E s (LInstallRefused n m) = Some s' ->
  is_dying (s_log s) /\ s_log s' = EvInstall n m (Some (EMsg MsgShuttingDown)) :: s_log s /\
  s_manifolds s' = s_manifolds s /\ s_dependents s' = s_dependents s /\ s_current s' = s_current s /\ s_gors s' = s_gors s.
Proof.
  intros Hr Hs. destruct (reachable_linv E s Hr) as [V L]. simpl in Hs.
  destruct (dying s) eqn:Hd; [|done]. injection Hs as <-. split; [by apply (l_dying E s L)|]. done.
Qed.
