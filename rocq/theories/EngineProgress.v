(** Termination and progress: proofs of C15 and C24. *)
From stdpp Require Import gmap strings list relations.
From Coq Require Import ZArith.
From RecordUpdate Require Import RecordSet.
From Verif Require Import Err Tomb Sum Order Validate ValidateSpec ValidateProofs Snapshot Engine EngineSpec EngineProgressSpec EngineMicro EngineSteps EngineLog EngineSafety EngineFresh EngineKill EngineObs EngineHandlers.
Import RecordSetNotations.

(** ** What does not touch the goroutines *)
Lemma dying_kill e s : dying s = true -> dying (kill_tomb e s) = true.
Proof.
  unfold dying, kill_tomb, emit, t_dying. case_match; simpl;
  unfold tomb_kill; destruct (t_reason (s_tomb s)) eqn:Hr; try done; intros _; repeat case_match; simpl in *; congruence.
Qed.
Lemma dying_poll E s : dying s = true -> dying (poll E s) = true.
Proof. intros H. unfold poll. case_match; [|done]. by apply (dying_kill None) in H. Qed.

(** Everything the measures look at *)
Record same_work (s s' : state) : Prop := {
  sw_current : s_current s' = s_current s;
  sw_manifolds : s_manifolds s' = s_manifolds s;
  sw_dependents : s_dependents s' = s_dependents s;
  sw_gors : s_gors s' = s_gors s;
  sw_next : s_next s' = s_next s;
  sw_cancelled : s_cancelled s' = s_cancelled s;
  sw_oneShot : s_oneShot s' = s_oneShot s
}.
Lemma same_work_trans s1 s2 s3 : same_work s1 s2 -> same_work s2 s3 -> same_work s1 s3.
Proof. intros [] []. split; congruence. Qed.
Lemma same_work_refl s : same_work s s.
Proof. done. Qed.
Lemma kill_work e s : same_work s (kill_tomb e s).
Proof. destruct (kill_same s e) as (?&?&?&?&?&?&?&?&?&?). by split. Qed.
Lemma poll_work E s : same_work s (poll E s).
Proof. destruct (poll_same E s) as (?&?&?&?&?&?&?&?&?&?). by split. Qed.
Lemma kill_worker_work g n w s : same_work s (kill_worker g n w s).
Proof. unfold kill_worker. destruct w; [|done]. eapply same_work_trans; [|apply kill_work]. done. Qed.
Lemma end_iteration_work E s : same_work s (end_iteration E s).
Proof.
  unfold end_iteration. pose proof (poll_work E s) as H. set (s1 := poll E s) in *. clearbody s1.
  case_match; [|done]. by destruct H.
Qed.

(** ** The measure of a dying engine *)
Definition rank (p : pc) : nat :=
  match p with
  | PDelay _ => 6 | PStart => 5 | PReturned _ => 4 | PSendStarted _ => 3 | PWait _ | PSelf => 2 | PSendStopped _ => 1 | PGone => 0
  end.
Definition shot (s : state) : nat := if s_oneShot s then 1 else 0.
Definition psi (s : state) : nat := msum (fun _ r => rank (g_pc r)) (s_gors s) + shot s.

Lemma request_start_dying E n d s : dying s = true -> same_work s (request_start E n d s) /\ dying (request_start E n d s) = true.
Proof.
  intros Hd. unfold request_start.
  set (s1 := match s_manifolds s !! n with Some _ => s | None => _ end).
  assert (same_work s s1 /\ dying s1 = true) as [H1 D1] 
    by (unfold s1; destruct (s_manifolds s !! n); [split; [apply same_work_refl|exact Hd]|split; [apply kill_work|by apply dying_kill]]).
  clearbody s1. set (s2 := if i_stopped (info_of s1 n) then s1 else _).
  assert (same_work s1 s2 /\ dying s2 = true) as [H2 D2] 
    by (unfold s2; destruct (i_stopped _); [split; [apply same_work_refl|exact D1]|split; [apply kill_work|by apply dying_kill]]).
  clearbody s2. rewrite (dying_poll E s2 D2). split; [|by apply dying_poll].
  eapply same_work_trans; [exact H1|]. eapply same_work_trans; [exact H2|]. apply poll_work.
Qed.
Lemma request_stop_gors n s : s_gors (request_stop n s) = s_gors s /\ s_oneShot (request_stop n s) = s_oneShot s.
Proof.
  unfold request_stop. case_match; [done|]. unfold do_stop. cbv zeta.
  set (s1 := match i_cancel _ with Some _ => _ | None => _ end).
  assert (s_gors s1 = s_gors s /\ s_oneShot s1 = s_oneShot s) as [H1 O1] by (unfold s1; by case_match). clearbody s1.
  destruct (i_worker _); [|done]. 
  match goal with |- context [kill_worker ?g ?n ?w s1] => destruct (kill_worker_work g n w s1) as [_ _ _ H2 _ _ O2] end.
  split; [exact (eq_trans H2 H1)|exact (eq_trans O2 O1)].
Qed.
Lemma request_stop_dying n s : dying s = true -> dying (request_stop n s) = true.
Proof.
  intros Hd. unfold request_stop. case_match; [done|]. unfold do_stop. cbv zeta.
  set (s1 := match i_cancel _ with Some _ => _ | None => _ end).
  assert (dying s1 = true) as H1 by (unfold s1; by case_match). clearbody s1.
  destruct (i_worker _); [|done]. unfold kill_worker. destruct w; [|done].
  change (dying (kill_tomb None (emit (EvKill (default 0 (i_cancel (info_of s n <| i_stopping := true |>))) n WSelf) s1)) = true).
  by apply dying_kill.
Qed.
Lemma bounce_one_dying E d s : dying s = true ->
  s_gors (bounce_one E d s) = s_gors s /\ s_oneShot (bounce_one E d s) = s_oneShot s /\ dying (bounce_one E d s) = true.
Proof.
  intros Hd. unfold bounce_one. case_match.
  - destruct (request_start_dying E d (c_bounceDelay (e_cfg E)) s Hd) as [[] ?]. done.
  - destruct (request_stop_gors d s). split_and!; [done|done|by apply request_stop_dying].
Qed.
Lemma bounce_dying E l : forall s, dying s = true ->
  s_gors (fold_left (fun s d => bounce_one E d s) l s) = s_gors s /\
  s_oneShot (fold_left (fun s d => bounce_one E d s) l s) = s_oneShot s.
Proof.
  induction l as [|d l IH]; intros s Hd; simpl; [done|].
  destruct (bounce_one_dying E d s Hd) as (H1 & H2 & H3). destruct (IH _ H3) as [-> ->]. done.
Qed.
Lemma got_started_dying E g n w al s : dying s = true ->
  s_gors (got_started E g n w al s) = s_gors s /\ s_oneShot (got_started E g n w al s) = s_oneShot s.
Proof.
  intros Hd. unfold got_started. case_match.
  { pose proof (kill_work (Some (EMsg (MsgUnexpectedStart n))) s) as [_ _ _ A _ _ B].
    destruct (kill_worker_work g n w (kill_tomb (Some (EMsg (MsgUnexpectedStart n))) s)) as [_ _ _ A' _ _ B']. split; congruence. }
  case_match; [by destruct (kill_worker_work g n w s)|]. cbv zeta. rewrite (dying_poll E s Hd).
  destruct (poll_work E s) as [_ _ _ A _ _ B]. destruct (kill_worker_work g n w (poll E s)) as [_ _ _ A' _ _ B'].
  split; congruence.
Qed.
Lemma end_attempt_dying E g n raw al s : dying s = true ->
  s_gors (end_attempt E g n raw al s) = s_gors s /\ s_oneShot (end_attempt E g n raw al s) = s_oneShot s /\
  dying (end_attempt E g n raw al s) = true.
Proof.
  intros Hd. unfold end_attempt. cbv zeta. set (s0 := emit _ s).
  set (s1 := if i_stopped _ then _ else _).
  assert (s_gors s1 = s_gors s /\ s_oneShot s1 = s_oneShot s /\ dying s1 = true) as (H1 & H2 & H3); [|done].
  unfold s1. case_match; [|case_match; [|done]].
  - destruct (kill_work (Some (EMsg (MsgUnexpectedStop n))) s0) as [_ _ _ A _ _ B]. rewrite A, B. split_and!; try done.
    by apply dying_kill.
  - match goal with |- context [kill_tomb None ?x] => destruct (kill_work None x) as [_ _ _ A _ _ B]; rewrite A, B; split_and!; try done; by apply (dying_kill None x) end.
Qed.
Lemma got_stopped_dying E g n raw al s : dying s = true ->
  s_gors (got_stopped E g n raw al s) = s_gors s /\ s_oneShot (got_stopped E g n raw al s) = s_oneShot s.
Proof.
  intros Hd. unfold got_stopped. cbv zeta.
  destruct (end_attempt_dying E g n raw al s Hd) as (H1 & H2 & H3).
  rewrite (dying_poll E _ H3). destruct (poll_work E (end_attempt E g n raw al s)) as [_ _ _ A _ _ B]. split; congruence.
Qed.
Lemma stop_all_gors l : forall s, s_gors (fold_left (fun s n => request_stop n s) l s) = s_gors s /\
  s_oneShot (fold_left (fun s n => request_stop n s) l s) = s_oneShot s.
Proof.
  induction l as [|n l IH]; intros s; simpl; [done|]. destruct (IH (request_stop n s)) as [-> ->]. apply request_stop_gors.
Qed.

Lemma psi_work s s' : same_work s s' -> psi s' = psi s.
Proof. intros [_ _ _ A _ _ B]. unfold psi, shot. by rewrite A, B. Qed.
Lemma psi_gors s s' : s_gors s' = s_gors s -> s_oneShot s' = s_oneShot s -> psi s' = psi s.
Proof. intros H1 H2. unfold psi, shot. by rewrite H1, H2. Qed.

Lemma psi_upd s g r s0 p : s_gors s !! g = Some r -> s_gors s0 = <[g := r <| g_pc := p |>]> (s_gors s) -> s_oneShot s0 = s_oneShot s ->
  rank p < rank (g_pc r) -> psi s0 < psi s.
Proof.
  intros Hg H1 H2 Hr. unfold psi, shot. rewrite H1, H2.
  pose proof (msum_upd (fun _ r => rank (g_pc r)) (s_gors s) g r (r <| g_pc := p |>) Hg) as Hx. simpl in Hx. lia.
Qed.
Lemma psi_same_pc s g r r' s0 : s_gors s !! g = Some r -> s_gors s0 = <[g := r']> (s_gors s) -> s_oneShot s0 = s_oneShot s ->
  g_pc r' = g_pc r -> psi s0 = psi s.
Proof.
  intros Hg H1 H2 Hr. unfold psi, shot. rewrite H1, H2.
  pose proof (msum_upd (fun _ r => rank (g_pc r)) (s_gors s) g r r' Hg) as Hx. simpl in Hx. rewrite Hr in Hx. lia.
Qed.

Lemma got_install_dying E n m s : dying s = true ->
  s_gors (got_install E n m s).2 = s_gors s /\ s_oneShot (got_install E n m s).2 = s_oneShot s.
Proof.
  intros Hd. unfold got_install. repeat case_match; simpl; try done.
  destruct (request_start_dying E n 0 (record_manifold n m (s <| s_polls ::= S |>))) as [[_ _ _ A _ _ B] _]; [done|].
  rewrite A, B. done.
Qed.

(** Once dying, the measure decreases with every internal step and increases with none. *)
Lemma psi_step E s l s' : dying s = true -> step E s l = Some s' ->
  psi s' + (if internal l then 1 else 0) <= psi s.
Proof.
  intros Hd Hs.
  assert (forall x s', Some (end_iteration E x) = Some s' -> psi s' = psi x) as Hei.
  { intros x y [= <-]. apply psi_work, end_iteration_work. }
  destruct l; simpl in Hs |- *.
  - injection Hs as <-. rewrite (psi_work _ _ (kill_work None s)). lia.
  - destruct (0 <=? d)%Z; [|done]. injection Hs as <-. unfold psi, shot. simpl. lia.
  - destruct (s_running s); [|done]. destruct (got_install E n m s) as [r s1] eqn:Hg.
    apply Hei in Hs. rewrite Hs. destruct (got_install_dying E n m s Hd) as [A B]. rewrite Hg in A, B. simpl in A, B.
    rewrite (psi_gors s (emit (EvInstall n m r) s1)) by done. lia.
  - rewrite Hd in Hs. injection Hs as <-. unfold psi, shot. simpl. lia.
  - destruct (s_running s); [|done]. apply Hei in Hs. rewrite Hs.
    rewrite (psi_gors (poll E s)) by done. rewrite (psi_work _ _ (poll_work E s)). lia.
  - destruct (t_dead (s_tomb s)); [|done]. injection Hs as <-. unfold psi, shot. simpl. lia.
  - destruct (t_dead (s_tomb s)); [|done]. injection Hs as <-. unfold psi, shot. simpl. lia.
  - destruct (s_running s && s_oneShot s && dying s) eqn:Hc; [|done]. apply Hei in Hs. rewrite Hs.
    apply andb_true_iff in Hc as [[_ Ho]%andb_true_iff _].
    unfold stop_all. unfold psi, shot. rewrite !(proj1 (stop_all_gors _ _)), !(proj2 (stop_all_gors _ _)). simpl. rewrite Ho. lia.
  - destruct (s_gors s !! g) as [[n f sp x al p]|] eqn:Hg; [|done]. destruct p; try done.
    destruct (ready <=? s_now s)%Z; [|done]. injection Hs as <-.
    assert (psi (emit (EvStartCall g n f (s_now s)) (set_pc g PStart s)) < psi s); [|lia].
    eapply psi_upd; [exact Hg|simpl; by rewrite (alter_insert_eq _ _ _ _ Hg)|done|simpl; lia].
  - destruct (s_gors s !! g) as [[n f sp x al p]|] eqn:Hg; [|done]. destruct p; try done.
    rewrite Hd in Hs. injection Hs as <-. erewrite set_pc_expire_eq by done.
    match goal with |- context [psi ?y] => assert (psi y < psi s); [|lia] end.
    unfold psi, shot. simpl. pose proof (msum_upd (fun _ r => rank (g_pc r)) (s_gors s) g _ (mkGor n f sp true al (PSendStopped (Some (EConst KStartAborted)))) Hg) as Hx.
    simpl in Hx. lia.
  - destruct (s_gors s !! g) as [r|] eqn:Hg; [|done]. destruct (snapshot_get _ _ _ _ _ _) as [[e c] al]. injection Hs as <-.
    erewrite (psi_same_pc s g r _ _ Hg); [| |done|]; [|by simpl|done]. lia.
  - destruct (s_gors s !! g) as [[n f sp x al p]|] eqn:Hg; [|done]. destruct p; try done. injection Hs as <-.
    assert (psi (emit (EvStartRet g n r) (set_pc g (PReturned r) s)) < psi s); [|lia].
    eapply psi_upd; [exact Hg|simpl; by rewrite (alter_insert_eq _ _ _ _ Hg)|done|simpl; lia].
  - destruct (s_gors s !! g) as [[n f sp x al p]|] eqn:Hg; [|done]. destruct p; try done. injection Hs as <-.
    erewrite set_pc_expire_eq by done.
    match goal with |- context [psi ?y] => assert (psi y < psi s); [|lia] end.
    unfold psi, shot. simpl.
    match goal with |- context [<[g := ?r']> _] => pose proof (msum_upd (fun _ r => rank (g_pc r)) (s_gors s) g _ r' Hg) as Hx end.
    simpl in Hx. destruct r as [w|e]; simpl in *; [lia|]. destruct (err_is e _); simpl in *; lia.
  - destruct (s_gors s !! g) as [[n f sp x al p]|] eqn:Hg; [|done]. destruct p; try done. destruct (s_running s); [|done].
    apply Hei in Hs. rewrite Hs. destruct (got_started_dying E g n w al (set_pc g (match w with WSelf => PSelf | WExt _ => PWait w end) s)) as [A B]; [done|].
    rewrite (psi_gors _ _ A B).
    assert (psi (set_pc g (match w with WSelf => PSelf | WExt _ => PWait w end) s) < psi s); [|lia].
    eapply psi_upd; [exact Hg|simpl; by rewrite (alter_insert_eq _ _ _ _ Hg)|done|destruct w; simpl; lia].
  - destruct (s_gors s !! g) as [[n f sp x al p]|] eqn:Hg; [|done]. destruct p; try done. rewrite Hd in Hs. injection Hs as <-.
    rewrite (psi_work _ _ (kill_worker_work _ _ _ _)).
    assert (psi (set_pc g (match w with WSelf => PSelf | WExt _ => PWait w end) s) < psi s); [|lia].
    eapply psi_upd; [exact Hg|simpl; by rewrite (alter_insert_eq _ _ _ _ Hg)|done|destruct w; simpl; lia].
  - destruct (s_gors s !! g) as [[n f sp x al p]|] eqn:Hg; [|done]. destruct p; try done. injection Hs as <-.
    assert (psi (emit (EvExit g n e) (set_pc g (PSendStopped e) s)) < psi s); [|lia].
    eapply psi_upd; [exact Hg|simpl; by rewrite (alter_insert_eq _ _ _ _ Hg)|done|simpl; lia].
  - destruct (s_gors s !! g) as [[n f sp x al p]|] eqn:Hg; [|done]. destruct p; try done. rewrite Hd in Hs. injection Hs as <-.
    assert (psi (emit (EvExit g n (Some ETombDying)) (set_pc g (PSendStopped (Some ETombDying)) s)) < psi s); [|lia].
    eapply psi_upd; [exact Hg|simpl; by rewrite (alter_insert_eq _ _ _ _ Hg)|done|simpl; lia].
  - destruct (s_gors s !! g) as [[n f sp x al p]|] eqn:Hg; [|done]. destruct p; try done. destruct (s_running s); [|done].
    apply Hei in Hs. rewrite Hs. destruct (got_stopped_dying E g n e al (set_pc g PGone s)) as [A B]; [done|].
    rewrite (psi_gors _ _ A B).
    assert (psi (set_pc g PGone s) < psi s); [|lia].
    eapply psi_upd; [exact Hg|simpl; by rewrite (alter_insert_eq _ _ _ _ Hg)|done|simpl; lia].
Qed.

Lemma reachable_step E s l s' : reachable E s -> step E s l = Some s' -> reachable E s'.
Proof.
  intros [ls Hls] Hs. exists (ls ++ [l]).
  assert (forall s0, run E s0 ls = Some s -> run E s0 (ls ++ [l]) = Some s') as Hx; [|by apply Hx].
  clear Hls. induction ls as [|l' ls IH]; intros s0; cbn [run app].
  - intros [= ->]. by rewrite Hs.
  - destruct (step E s0 l'); [|done]. apply IH.
Qed.
Lemma step_dying_mono E s l s' : reachable E s -> step E s l = Some s' -> dying s = true -> dying s' = true.
Proof.
  intros Hr Hs. pose proof (reachable_inv E s Hr) as V. eapply micros_dying; [eapply step_micros; [done|by apply (reachable_reg E)|done]|done].
Qed.

(** C15, first half: a dying engine takes only finitely many steps. *)
Lemma dying_bounded E s : reachable E s -> is_dying (s_log s) ->
  exists N, forall ls s', run E s ls = Some s' -> internal_steps ls <= N.
Proof.
  intros Hr Hd. exists (psi s). intros ls s'.
  destruct (reachable_linv E s Hr) as [_ L]. apply (l_dying E s L) in Hd. clear L.
  revert s Hr Hd. induction ls as [|l ls IH]; intros s Hr Hd; cbn [run internal_steps]; [lia|].
  destruct (step E s l) as [s1|] eqn:Hs; [|done]. intros Hrun.
  pose proof (psi_step E s l s1 Hd Hs).
  assert (internal_steps ls <= psi s1); [|lia]. apply IH; [by eapply reachable_step|by eapply step_dying_mono|done].
Qed.

(** ** Progress of a dying engine *)
Lemma idle_loop E s : reachable E s -> s_running s = true -> s_oneShot s = false -> all_others_stopped s = false.
Proof.
  intros [ls Hls]. 
  enough (forall s0, reachable E s0 -> (s_running s0 = true -> s_oneShot s0 = false -> all_others_stopped s0 = false) ->
    run E s0 ls = Some s -> s_running s = true -> s_oneShot s = false -> all_others_stopped s = false) as Hx.
  { apply (Hx init); [by exists []|done|done]. }
  clear Hls. induction ls as [|l ls IH]; intros s0 Hr Hp; cbn [run]; [intros [= <-]; done|].
  destruct (step E s0 l) as [s1|] eqn:Hs; [|done]. apply IH; [by eapply reachable_step|].
  assert (reachable E s1) as Hr1 by (by eapply reachable_step). pose proof (reachable_inv E s1 Hr1) as V1. clear IH.
  assert (forall x, s1 = end_iteration E x -> s_running s1 = true -> s_oneShot s1 = false -> all_others_stopped s1 = false) as Hei.
  { intros x Heq H1 H2. pose proof (v_shot s1 V1 H2) as Hd. rewrite Heq in H1, Hd |- *. unfold end_iteration in *.
    set (y := poll E x) in *. clearbody y. destruct (dying y && all_others_stopped y) eqn:Hc; [done|].
    rewrite Hd in Hc. done. }
  assert (same_work s0 s1 /\ s_running s1 = s_running s0 -> s_running s1 = true -> s_oneShot s1 = false -> all_others_stopped s1 = false) as Hsame.
  { intros [[A _ _ _ _ _ B] C] H1 H2. unfold all_others_stopped. rewrite A. apply Hp; congruence. }
  assert (s_current s1 = s_current s0 -> s_oneShot s1 = s_oneShot s0 -> s_running s1 = s_running s0 -> s_running s1 = true -> s_oneShot s1 = false -> all_others_stopped s1 = false) as Hsame'.
  { intros A B C H1 H2. unfold all_others_stopped. rewrite A. apply Hp; congruence. }
  destruct l; simpl in Hs.
  - injection Hs as <-. apply Hsame. split; [apply kill_work|]. apply kill_same.
  - destruct (0 <=? d)%Z; [|done]. injection Hs as <-. by apply Hsame'.
  - destruct (s_running s0); [|done]. destruct (got_install E n m s0) as [r sx]. injection Hs as <-. by eapply Hei.
  - destruct (dying s0); [|done]. injection Hs as <-. by apply Hsame'.
  - destruct (s_running s0); [|done]. injection Hs as <-. by eapply Hei.
  - destruct (t_dead _); [|done]. injection Hs as <-. by apply Hsame'.
  - destruct (t_dead _); [|done]. injection Hs as <-. by apply Hsame'.
  - destruct (_ && _ && _); [|done]. injection Hs as <-. by eapply Hei.
  - destruct (s_gors s0 !! g) as [[n f sp x al p]|] eqn:Hg; [|done]. destruct p; try done.
    destruct (ready <=? s_now s0)%Z; [|done]. injection Hs as <-. by apply Hsame'.
  - destruct (s_gors s0 !! g) as [[n f sp x al p]|] eqn:Hg; [|done]. destruct p; try done.
    destruct (_ || _); [|done]. injection Hs as <-. by apply Hsame'.
  - destruct (s_gors s0 !! g) as [r|] eqn:Hg; [|done]. destruct (snapshot_get _ _ _ _ _ _) as [[e c] al]. injection Hs as <-. by apply Hsame'.
  - destruct (s_gors s0 !! g) as [[n f sp x al p]|] eqn:Hg; [|done]. destruct p; try done. injection Hs as <-. by apply Hsame'.
  - destruct (s_gors s0 !! g) as [[n f sp x al p]|] eqn:Hg; [|done]. destruct p; try done. injection Hs as <-. by apply Hsame'.
  - destruct (s_gors s0 !! g) as [[n f sp x al p]|] eqn:Hg; [|done]. destruct p; try done. destruct (s_running s0); [|done].
    injection Hs as <-. by eapply Hei.
  - destruct (s_gors s0 !! g) as [[n f sp x al p]|] eqn:Hg; [|done]. destruct p; try done. destruct (dying s0); [|done].
    injection Hs as <-. destruct (kill_worker_work g n w (set_pc g (match w with WSelf => PSelf | WExt _ => PWait w end) s0)) as [A _ _ _ _ _ B].
    apply Hsame'; [by rewrite A|by rewrite B|]. by rewrite kill_worker_running.
  - destruct (s_gors s0 !! g) as [[n f sp x al p]|] eqn:Hg; [|done]. destruct p; try done. injection Hs as <-. by apply Hsame'.
  - destruct (s_gors s0 !! g) as [[n f sp x al p]|] eqn:Hg; [|done]. destruct p; try done. destruct (dying s0); [|done].
    injection Hs as <-. by apply Hsame'.
  - destruct (s_gors s0 !! g) as [[n f sp x al p]|] eqn:Hg; [|done]. destruct p; try done. destruct (s_running s0); [|done].
    injection Hs as <-. by eapply Hei.
Qed.

(** C15, second half: a dying engine that can do nothing more is dead. *)
Lemma stuck_dead E s : reachable E s -> is_dying (s_log s) ->
  (forall l, owed (s_log s) l -> step E s l = None) -> EvDead ∈ s_log s.
Proof.
  intros Hr Hdl Hst. destruct (reachable_linv E s Hr) as [V L]. pose proof Hdl as Hd. apply (l_dying E s L) in Hd.
  apply (dead_running E s Hr). destruct (s_running s) eqn:Hrun; [exfalso|done].
  assert (s_oneShot s = false) as Ho.
  { destruct (s_oneShot s) eqn:Ho; [|done]. specialize (Hst LDying). simpl in Hst. rewrite Hrun, Ho, Hd in Hst. by discriminate Hst. }
  pose proof (idle_loop E s Hr Hrun Ho) as Ha. unfold all_others_stopped in Ha. apply bool_decide_eq_false in Ha.
  apply Ha. intros n i Hi. left. destruct (i_stopped i) eqn:Hs; [done|]. exfalso.
  destruct (v_has s V _ _ Hi Hs) as (g & [n0 f sp x al p] & Hg & Hn & Hp). simpl in *. subst n0.
  destruct p; try done.
  - specialize (Hst (LAbort g)). cbn [step] in Hst. rewrite Hg, Hd in Hst. by discriminate Hst.
  - specialize (Hst (LStartRet g (inr ETombDying))). cbn [step] in Hst. rewrite Hg in Hst. by discriminate Hst.
  - specialize (Hst (LExpire g)). cbn [step] in Hst. rewrite Hg in Hst. by discriminate Hst.
  - specialize (Hst (LStartedDying g)). cbn [step] in Hst. rewrite Hg, Hd in Hst. by discriminate Hst.
  - assert (EvStartRet g n (inl w) ∈ s_log s /\ ~ worker_exited (s_log s) g) as [Hret Hne] by exact (l_phase E s L _ _ Hg).
    assert (forall h, step E s (LExpire h) = None) as Q1 by (intros h; by apply Hst).
    assert (forall h, step E s (LStarted h) = None) as Q2 by (intros h; by apply Hst).
    assert (forall h, step E s (LStartedDying h) = None) as Q3 by (intros h; by apply Hst).
    destruct (wanted_stop_killed E s g n w Hr) as [Hk|[-> Hk]]; try done; [by apply Hst|by right| |].
    + specialize (Hst (LExit g None)). cbn [step] in Hst. rewrite Hg in Hst. discriminate Hst. split; [done|]. by exists n, w.
    + apply (dead_running E s Hr) in Hk. congruence.
  - specialize (Hst (LSelfDying g)). cbn [step] in Hst. rewrite Hg, Hd in Hst. by discriminate Hst.
  - specialize (Hst (LStopped g)). cbn [step] in Hst. rewrite Hg, Hrun in Hst. by discriminate Hst.
Qed.
