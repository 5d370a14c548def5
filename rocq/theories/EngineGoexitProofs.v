(** Proofs for C84. *)
From stdpp Require Import gmap strings list.
From Coq Require Import ZArith Lia.
From RecordUpdate Require Import RecordSet.
From Verif Require Import Err Tomb Order Validate ValidateSpec Snapshot Engine EngineSpec EngineMicro EngineSteps EngineLog EngineSafety EngineFresh EngineKill EngineHandlers EngineObs EngineProgressSpec EngineProgress EngineMore EngineMore2 EngineGoexit EngineGoexitSpec.
Import RecordSetNotations.

(** Handlers leave the goroutines alone, and add new ones. *)
Definition keeps (s s' : state) : Prop := gids s -> gids s' /\ forall g r, s_gors s !! g = Some r -> s_gors s' !! g = Some r.
Lemma keeps_same s s' : s_gors s' = s_gors s -> s_next s' = s_next s -> keeps s s'.
Proof. intros H1 H2 H. unfold gids in *. rewrite H1, H2. auto. Qed.
Lemma keeps_trans s1 s2 s3 : keeps s1 s2 -> keeps s2 s3 -> keeps s1 s3.
Proof. intros H1 H2 H. destruct (H1 H) as [G1 K1]. destruct (H2 G1) as [G2 K2]. auto. Qed.
Lemma keeps_kill e s : keeps s (kill_tomb e s).
Proof. unfold kill_tomb. case_match; by apply keeps_same. Qed.
Lemma keeps_poll E s : keeps s (poll E s).
Proof. unfold poll. eapply keeps_trans; [|by apply keeps_same]. case_match; [apply keeps_kill|by apply keeps_same]. Qed.
Lemma keeps_kill_worker g n w s : keeps s (kill_worker g n w s).
Proof. unfold kill_worker. destruct w; [|by apply keeps_same]. eapply keeps_trans; [|apply keeps_kill]. by apply keeps_same. Qed.
Lemma keeps_launch E n d s : keeps s (launch E n d s).
Proof.
  intros H. unfold launch, emit, set_info. cbn. split.
  - intros g r. cbn. destruct (decide (g = s_next s)) as [->|Hne]; [lia|]. rewrite lookup_insert_ne by done. intros Hg%H. lia.
  - intros g r Hg. rewrite lookup_insert_ne; [done|]. intros <-. apply H in Hg. lia.
Qed.
Lemma keeps_start E n d s : keeps s (request_start E n d s).
Proof.
  unfold request_start. set (s1 := match s_manifolds s !! n with Some _ => _ | None => _ end). set (s2 := if i_stopped _ then _ else _).
  assert (keeps s s1) by (subst s1; case_match; [by apply keeps_same|apply keeps_kill]).
  assert (keeps s1 s2) by (subst s2; case_match; [by apply keeps_same|apply keeps_kill]).
  assert (keeps s (poll E s2)) by (eapply keeps_trans; [eapply keeps_trans; eassumption|apply keeps_poll]).
  case_match; [done|]. eapply keeps_trans; [done|apply keeps_launch].
Qed.
Lemma keeps_stop n s : keeps s (request_stop n s).
Proof.
  unfold request_stop. case_match; [by apply keeps_same|]. unfold do_stop. eapply keeps_trans; [|by apply keeps_same].
  assert (forall s1, keeps s s1 -> keeps s (match i_worker (info_of s n <| i_stopping := true |>) with Some w => kill_worker (default 0 (i_cancel (info_of s n <| i_stopping := true |>))) n w s1 | None => s1 end)) as Hx.
  { intros s1 H1. case_match; [|done]. eapply keeps_trans; [done|apply keeps_kill_worker]. }
  apply Hx. clear Hx. destruct (i_cancel _); by apply keeps_same.
Qed.
Lemma keeps_fold {A} (f : state -> A -> state) l : (forall s x, keeps s (f s x)) -> forall s, keeps s (fold_left f l s).
Proof. intros H. induction l as [|x l IH]; intros s; [by apply keeps_same|]. cbn. eapply keeps_trans; [apply H|apply IH]. Qed.
Lemma keeps_bounce E n s : keeps s (bounce_dependents E n s).
Proof. apply keeps_fold. intros s' d. unfold bounce_one. case_match; [apply keeps_start|apply keeps_stop]. Qed.
Lemma keeps_install E n m s : keeps s (got_install E n m s).2.
Proof.
  unfold got_install. case_match; [by apply keeps_same|]. case_match; [by apply keeps_same|]. cbn. eapply keeps_trans; [|apply keeps_start]. by apply keeps_same.
Qed.
Lemma keeps_started E g n w al s : keeps s (got_started E g n w al s).
Proof.
  unfold got_started. case_match; [eapply keeps_trans; [apply keeps_kill|apply keeps_kill_worker]|]. case_match; [apply keeps_kill_worker|].
  case_match; (eapply keeps_trans; [apply keeps_poll|]); [apply keeps_kill_worker|]. eapply keeps_trans; [|apply keeps_bounce]. by apply keeps_same.
Qed.
Lemma keeps_end_attempt E g n raw al s : keeps s (end_attempt E g n raw al s).
Proof.
  unfold end_attempt. eapply keeps_trans; [|by apply keeps_same]. case_match; [eapply keeps_trans; [|apply keeps_kill]; by apply keeps_same|].
  case_match; [eapply keeps_trans; [|apply keeps_kill]; by apply keeps_same|by apply keeps_same].
Qed.
Lemma keeps_stopped E g n raw al s : keeps s (got_stopped E g n raw al s).
Proof.
  unfold got_stopped. set (s1 := poll E _). assert (keeps s s1) as H1 by (eapply keeps_trans; [apply keeps_end_attempt|apply keeps_poll]).
  case_match; [done|]. eapply keeps_trans; [exact H1|]. clearbody s1. clear H1.
  assert (keeps s1 (if i_stopping (info_of s n) then request_start E n (c_bounceDelay (e_cfg E)) s1 else after_stop E n (filtered s n raw) s1)) as H2.
  { case_match; [apply keeps_start|]. unfold after_stop. repeat case_match; try apply keeps_start; by apply keeps_same. }
  destruct (i_worker (info_of s n)); [|done]. eapply keeps_trans; [exact H2|apply keeps_bounce].
Qed.
Lemma keeps_iter E s : keeps s (end_iteration E s).
Proof. unfold end_iteration. case_match; [|apply keeps_poll]. eapply keeps_trans; [apply keeps_poll|by apply keeps_same]. Qed.
Lemma keeps_stop_all E s : keeps s (stop_all E s).
Proof. unfold stop_all. eapply keeps_trans; [|apply keeps_fold; intros; apply keeps_stop]. by apply keeps_same. Qed.
Lemma alter_other (f : gor -> gor) g g' (G : gmap nat gor) : g <> g' -> alter f g' G !! g = G !! g.
Proof. intros H. by rewrite lookup_alter_ne. Qed.
(** A step in which goroutine [g] takes no part leaves it alone. *)
Lemma step_frozen E s l s' g r : inv s -> gor_of l <> Some g -> step E s l = Some s' -> s_gors s !! g = Some r -> s_gors s' !! g = Some r.
Proof.
  intros V Hl Hs Hg. assert (Hid : gids s) by (intros g' r' H; by apply (v_next s V g' r')).
  assert (Hk : forall s1 s2, gids s1 -> s_gors s1 !! g = Some r -> keeps s1 s2 -> s_gors s2 !! g = Some r) by (intros s1 s2 H1 H2 H3; by apply (H3 H1)).
  assert (Hpc : forall g' p, g' <> g -> gids (set_pc g' p s) /\ s_gors (set_pc g' p s) !! g = Some r).
  { intros g' p Hne. unfold set_pc. cbn. split; [|by rewrite lookup_alter_ne]. intros g0 r0 H0. cbn in H0.
    destruct (decide (g0 = g')) as [->|Hn]; [|rewrite lookup_alter_ne in H0 by done; by apply (Hid g0 r0)]. rewrite lookup_alter in H0. destruct (s_gors s !! g') as [r1|] eqn:H1; [|done]. by apply (Hid g' r1). }
  destruct l; cbn in Hl, Hs.
  - injection Hs as <-. apply (Hk s); [done|done|apply keeps_kill].
  - destruct (_ <=? _)%Z; [|done]. by injection Hs as <-.
  - destruct (s_running s); [|done]. destruct (got_install E n m s) as [r1 s1] eqn:Hi. injection Hs as <-. apply (Hk s); [done|done|].
    eapply keeps_trans; [|apply keeps_iter]. pose proof (keeps_install E n m s) as Hx. rewrite Hi in Hx. exact Hx.
  - destruct (dying s); [|done]. by injection Hs as <-.
  - destruct (s_running s); [|done]. injection Hs as <-. apply (Hk s); [done|done|]. eapply keeps_trans; [apply keeps_poll|]. eapply keeps_trans; [|apply keeps_iter]. by apply keeps_same.
  - destruct (t_dead _); [|done]. by injection Hs as <-.
  - destruct (t_dead _); [|done]. by injection Hs as <-.
  - destruct (_ && _); [|done]. injection Hs as <-. apply (Hk s); [done|done|]. eapply keeps_trans; [apply keeps_stop_all|apply keeps_iter].
  - destruct (s_gors s !! g0) as [[? ? ? ? ? []]|]; try done. destruct (_ <=? _)%Z; [|done]. injection Hs as <-. cbn. rewrite lookup_alter_ne; [done|congruence].
  - destruct (s_gors s !! g0) as [[? ? ? ? ? []]|]; try done. destruct (_ || _); [|done]. injection Hs as <-. cbn. rewrite !lookup_alter_ne; [done|congruence..].
  - destruct (s_gors s !! g0) as [r0|]; [|done]. destruct (snapshot_get _ _ _ _ _ _) as [[? ?] ?]. injection Hs as <-. cbn. rewrite lookup_insert_ne; [done|congruence].
  - destruct (s_gors s !! g0) as [[? ? ? ? ? []]|]; try done. injection Hs as <-. cbn. rewrite lookup_alter_ne; [done|congruence].
  - destruct (s_gors s !! g0) as [[? ? ? ? ? []]|]; try done. injection Hs as <-. cbn. rewrite !lookup_alter_ne; [done|congruence..].
  - destruct (s_gors s !! g0) as [[? ? ? ? ? []]|]; try done. destruct (s_running s); [|done]. injection Hs as <-. assert (g0 <> g) as Hne by congruence.
    destruct (Hpc g0 (match w with WSelf => PSelf | WExt _ => PWait w end) Hne) as [G1 G2]. eapply Hk; [exact G1|exact G2|]. eapply keeps_trans; [apply keeps_started|apply keeps_iter].
  - destruct (s_gors s !! g0) as [[? ? ? ? ? []]|]; try done. destruct (dying s); [|done]. injection Hs as <-. assert (g0 <> g) as Hne by congruence.
    destruct (Hpc g0 (match w with WSelf => PSelf | WExt _ => PWait w end) Hne) as [G1 G2]. eapply Hk; [exact G1|exact G2|]. apply keeps_kill_worker.
  - destruct (s_gors s !! g0) as [[? ? ? ? ? []]|]; try done. injection Hs as <-. cbn. rewrite lookup_alter_ne; [done|congruence].
  - destruct (s_gors s !! g0) as [[? ? ? ? ? []]|]; try done. destruct (dying s); [|done]. injection Hs as <-. cbn. rewrite lookup_alter_ne; [done|congruence].
  - destruct (s_gors s !! g0) as [[? ? ? ? ? []]|]; try done. destruct (s_running s); [|done]. injection Hs as <-. assert (g0 <> g) as Hne by congruence.
    destruct (Hpc g0 PGone Hne) as [G1 G2]. eapply Hk; [exact G1|exact G2|]. eapply keeps_trans; [apply keeps_stopped|apply keeps_iter].
Qed.

(** Handlers register no worker for an attempt other than the one that asks. *)
Section nreg.
Variable g0 : nat.
Definition nreg (s s' : state) : Prop := exists new, s_log s' = new ++ s_log s /\ forall n w t, EvRegister g0 n w t ∉ new.
Lemma nreg_same s s' : s_log s' = s_log s -> nreg s s'.
Proof. intros H. exists []. split; [done|]. intros n w t. apply not_elem_of_nil. Qed.
Lemma nreg_emit ev s s' : s_log s' = ev :: s_log s -> (forall n w t, ev <> EvRegister g0 n w t) -> nreg s s'.
Proof. intros H Hne. exists [ev]. split; [done|]. intros n w t H1%elem_of_list_singleton. by destruct (Hne n w t). Qed.
Lemma nreg_trans s1 s2 s3 : nreg s1 s2 -> nreg s2 s3 -> nreg s1 s3.
Proof.
  intros (n1 & E1 & H1) (n2 & E2 & H2). exists (n2 ++ n1). split; [by rewrite E2, E1, app_assoc|].
  intros n w t [H|H]%elem_of_app; [by apply H2 in H|by apply H1 in H].
Qed.
Ltac nsame := first [by apply nreg_same | eapply nreg_emit; [reflexivity|done]].
Lemma nreg_kill e s : nreg s (kill_tomb e s).
Proof. unfold kill_tomb. case_match; nsame. Qed.
Lemma nreg_poll E s : nreg s (poll E s).
Proof. unfold poll. eapply nreg_trans; [|nsame]. case_match; [apply nreg_kill|nsame]. Qed.
Lemma nreg_kill_worker g n w s : nreg s (kill_worker g n w s).
Proof. unfold kill_worker. destruct w; [|nsame]. eapply nreg_trans; [|apply nreg_kill]. nsame. Qed.
Lemma nreg_launch E n d s : nreg s (launch E n d s).
Proof. unfold launch, emit, set_info. nsame. Qed.
Lemma nreg_start E n d s : nreg s (request_start E n d s).
Proof.
  unfold request_start. set (s1 := match s_manifolds s !! n with Some _ => _ | None => _ end). set (s2 := if i_stopped _ then _ else _).
  assert (nreg s s1) by (subst s1; case_match; [nsame|apply nreg_kill]).
  assert (nreg s1 s2) by (subst s2; case_match; [nsame|apply nreg_kill]).
  assert (nreg s (poll E s2)) by (eapply nreg_trans; [eapply nreg_trans; eassumption|apply nreg_poll]).
  case_match; [done|]. eapply nreg_trans; [done|apply nreg_launch].
Qed.
Lemma nreg_stop n s : nreg s (request_stop n s).
Proof.
  unfold request_stop. case_match; [nsame|]. unfold do_stop. eapply nreg_trans; [|nsame].
  assert (forall s1, nreg s s1 -> nreg s (match i_worker (info_of s n <| i_stopping := true |>) with Some w => kill_worker (default 0 (i_cancel (info_of s n <| i_stopping := true |>))) n w s1 | None => s1 end)) as Hx.
  { intros s1 H1. case_match; [|done]. eapply nreg_trans; [done|apply nreg_kill_worker]. }
  apply Hx. clear Hx. destruct (i_cancel _); nsame.
Qed.
Lemma nreg_fold {A} (f : state -> A -> state) l : (forall s x, nreg s (f s x)) -> forall s, nreg s (fold_left f l s).
Proof. intros H. induction l as [|x l IH]; intros s; [nsame|]. cbn. eapply nreg_trans; [apply H|apply IH]. Qed.
Lemma nreg_bounce E n s : nreg s (bounce_dependents E n s).
Proof. apply nreg_fold. intros s' d. unfold bounce_one. case_match; [apply nreg_start|apply nreg_stop]. Qed.
Lemma nreg_install E n m s : nreg s (got_install E n m s).2.
Proof.
  unfold got_install. case_match; [nsame|]. case_match; [nsame|]. cbn. eapply nreg_trans; [|apply nreg_start]. nsame.
Qed.
Lemma nreg_started E g n w al s : g <> g0 -> nreg s (got_started E g n w al s).
Proof.
  intros Hne. unfold got_started. case_match; [eapply nreg_trans; [apply nreg_kill|apply nreg_kill_worker]|]. case_match; [apply nreg_kill_worker|].
  case_match; (eapply nreg_trans; [apply nreg_poll|]); [apply nreg_kill_worker|]. eapply nreg_trans; [|apply nreg_bounce].
  eapply nreg_trans; [|eapply (nreg_emit (EvMetric n)); [reflexivity|done]]. eapply (nreg_emit (EvRegister g n w _)); [reflexivity|]. congruence.
Qed.
Lemma nreg_end_attempt E g n raw al s : nreg s (end_attempt E g n raw al s).
Proof.
  unfold end_attempt. eapply nreg_trans; [|nsame]. case_match; [eapply nreg_trans; [|apply nreg_kill]; nsame|].
  case_match; [eapply nreg_trans; [|apply nreg_kill]; nsame|nsame].
Qed.
Lemma nreg_stopped E g n raw al s : nreg s (got_stopped E g n raw al s).
Proof.
  unfold got_stopped. set (s1 := poll E _). assert (nreg s s1) as H1 by (eapply nreg_trans; [apply nreg_end_attempt|apply nreg_poll]).
  case_match; [done|]. eapply nreg_trans; [exact H1|]. clearbody s1. clear H1.
  assert (nreg s1 (if i_stopping (info_of s n) then request_start E n (c_bounceDelay (e_cfg E)) s1 else after_stop E n (filtered s n raw) s1)) as H2.
  { case_match; [apply nreg_start|]. unfold after_stop. repeat case_match; try apply nreg_start; nsame. }
  destruct (i_worker (info_of s n)); [|done]. eapply nreg_trans; [exact H2|apply nreg_bounce].
Qed.
Lemma nreg_iter E s : nreg s (end_iteration E s).
Proof. unfold end_iteration. case_match; [|apply nreg_poll]. eapply nreg_trans; [apply nreg_poll|nsame]. Qed.
Lemma nreg_stop_all E s : nreg s (stop_all E s).
Proof. unfold stop_all. eapply nreg_trans; [|apply nreg_fold; intros; apply nreg_stop]. nsame. Qed.
(** A step in which goroutine [g0] takes no part registers no worker for it. *)
Lemma step_nreg E s l s' : gor_of l <> Some g0 -> step E s l = Some s' -> nreg s s'.
Proof.
  intros Hl Hs. destruct l; cbn in Hl, Hs.
  - injection Hs as <-. apply nreg_kill.
  - destruct (_ <=? _)%Z; [|done]. injection Hs as <-. nsame.
  - destruct (s_running s); [|done]. destruct (got_install E n m s) as [r1 s1] eqn:Hi. injection Hs as <-.
    eapply nreg_trans; [|apply nreg_iter]. pose proof (nreg_install E n m s) as Hx. rewrite Hi in Hx. eapply nreg_trans; [exact Hx|]. nsame.
  - destruct (dying s); [|done]. injection Hs as <-. nsame.
  - destruct (s_running s); [|done]. injection Hs as <-. eapply nreg_trans; [apply nreg_poll|]. eapply nreg_trans; [|apply nreg_iter]. nsame.
  - destruct (t_dead _); [|done]. injection Hs as <-. nsame.
  - destruct (t_dead _); [|done]. injection Hs as <-. nsame.
  - destruct (_ && _); [|done]. injection Hs as <-. eapply nreg_trans; [apply nreg_stop_all|apply nreg_iter].
  - destruct (s_gors s !! g) as [[? ? ? ? ? []]|]; try done. destruct (_ <=? _)%Z; [|done]. injection Hs as <-. nsame.
  - destruct (s_gors s !! g) as [[? ? ? ? ? []]|]; try done. destruct (_ || _); [|done]. injection Hs as <-. nsame.
  - destruct (s_gors s !! g) as [r0|]; [|done]. destruct (snapshot_get _ _ _ _ _ _) as [[? ?] ?]. injection Hs as <-. nsame.
  - destruct (s_gors s !! g) as [[? ? ? ? ? []]|]; try done. injection Hs as <-. nsame.
  - destruct (s_gors s !! g) as [[? ? ? ? ? []]|]; try done. injection Hs as <-. nsame.
  - destruct (s_gors s !! g) as [[? ? ? ? ? []]|]; try done. destruct (s_running s); [|done]. injection Hs as <-.
    eapply nreg_trans; [|apply nreg_iter]. eapply nreg_trans; [|apply nreg_started; congruence]. nsame.
  - destruct (s_gors s !! g) as [[? ? ? ? ? []]|]; try done. destruct (dying s); [|done]. injection Hs as <-.
    eapply nreg_trans; [|apply nreg_kill_worker]. nsame.
  - destruct (s_gors s !! g) as [[? ? ? ? ? []]|]; try done. injection Hs as <-. nsame.
  - destruct (s_gors s !! g) as [[? ? ? ? ? []]|]; try done. destruct (dying s); [|done]. injection Hs as <-. nsame.
  - destruct (s_gors s !! g) as [[? ? ? ? ? []]|]; try done. destruct (s_running s); [|done]. injection Hs as <-.
    eapply nreg_trans; [|apply nreg_iter]. eapply nreg_trans; [|apply nreg_stopped]. nsame.
Qed.
End nreg.
(** ** Lost attempts *)
Definition at_loss (p : pc) : bool := match p with PStart | PWait _ => true | _ => false end.
Lemma gone_other y l g : gone y l = false -> g ∈ y_lost y -> gor_of l <> Some g.
Proof. unfold gone. intros H Hg Hl. rewrite Hl in H. by apply bool_decide_eq_false in H. Qed.
Lemma gstep_reach E y l y' : reachable E (y_s y) -> gstep E y l = Some y' -> reachable E (y_s y').
Proof.
  intros Hr Hs. destruct l as [l|g|g n out]; cbn in Hs.
  - destruct (gone y l); [done|]. destruct (step E (y_s y) l) as [s'|] eqn:H; [|done]. injection Hs as <-. by eapply reachable_step.
  - destruct (bool_decide _); [done|]. destruct (s_gors (y_s y) !! g) as [[? ? ? ? ? []]|]; try done; by injection Hs as <-.
  - destruct (bool_decide _); [|done]. destruct (s_gors (y_s y) !! g) as [r|]; [|done]. by injection Hs as <-.
Qed.
Lemma greach_ind E (Q : gstate -> Prop) : Q ginit -> (forall y l y', reachable E (y_s y) -> Q y -> gstep E y l = Some y' -> Q y') -> forall y, greachable E y -> reachable E (y_s y) /\ Q y.
Proof.
  intros H0 HS y [ls Hls]. assert (reachable E (y_s ginit)) as Hr0 by (by exists []). revert H0 Hr0 Hls. generalize ginit. induction ls as [|l ls IH]; intros y0 H0 Hr0 Hls; cbn in Hls.
  { injection Hls as <-. auto. }
  destruct (gstep E y0 l) as [y1|] eqn:Hs; [|done]. apply (IH y1); [by eapply HS|by eapply gstep_reach|done].
Qed.
Lemma greach_reach E y : greachable E y -> reachable E (y_s y).
Proof. intros H. by apply (greach_ind E (fun _ => True)). Qed.
(** A lost attempt keeps its goroutine's place for ever. *)
Lemma gstep_frozen E y l y' g r : reachable E (y_s y) -> gstep E y l = Some y' -> g ∈ y_lost y -> s_gors (y_s y) !! g = Some r -> g ∈ y_lost y' /\ s_gors (y_s y') !! g = Some r.
Proof.
  intros Hr Hs Hg Hx. destruct l as [l|g'|g' n out]; cbn in Hs.
  - destruct (gone y l) eqn:Hl; [done|]. destruct (step E (y_s y) l) as [s'|] eqn:H; [|done]. injection Hs as <-. cbn. split; [done|]. eapply step_frozen; [by apply (reachable_inv E)|by eapply gone_other|done|done].
  - destruct (bool_decide _); [done|]. destruct (s_gors (y_s y) !! g') as [[? ? ? ? ? []]|]; try done; injection Hs as <-; cbn; (split; [set_solver|done]).
  - destruct (bool_decide _); [|done]. destruct (s_gors (y_s y) !! g') as [r'|]; [|done]. injection Hs as <-. done.
Qed.
Lemma grun_frozen E ls : forall y y' g r, reachable E (y_s y) -> grun E y ls = Some y' -> g ∈ y_lost y -> s_gors (y_s y) !! g = Some r ->
  reachable E (y_s y') /\ g ∈ y_lost y' /\ s_gors (y_s y') !! g = Some r.
Proof.
  induction ls as [|l ls IH]; intros y y' g r Hr Hs Hg Hx; cbn in Hs; [injection Hs as <-; auto|].
  destruct (gstep E y l) as [y1|] eqn:H1; [|done]. destruct (gstep_frozen E y l y1 g r Hr H1 Hg Hx) as [Hg1 Hx1].
  apply (IH y1); [by eapply gstep_reach|done..].
Qed.
Lemma lost_place E y : greachable E y -> forall g, g ∈ y_lost y -> exists r, s_gors (y_s y) !! g = Some r /\ at_loss (g_pc r) = true.
Proof.
  intros H. apply (greach_ind E (fun y => forall g, g ∈ y_lost y -> exists r, s_gors (y_s y) !! g = Some r /\ at_loss (g_pc r) = true)); [intros g Hg; set_solver| |done].
  clear y H. intros y l y' Hr IH Hs g Hg.
  assert (g ∈ y_lost y \/ (exists r, s_gors (y_s y') !! g = Some r /\ at_loss (g_pc r) = true)) as [Hg0|?]; [| |done].
  { destruct l as [l|g'|g' n out]; cbn in Hs.
    - destruct (gone y l); [done|]. destruct (step E (y_s y) l) as [s'|]; [|done]. injection Hs as <-. by left.
    - destruct (bool_decide _); [done|]. destruct (s_gors (y_s y) !! g') as [[? ? ? ? ? []]|] eqn:Hx; try done; injection Hs as <-; cbn in *;
        (apply elem_of_union in Hg as [->%elem_of_singleton|Hg]; [right; by eexists|by left]).
    - destruct (bool_decide _); [|done]. destruct (s_gors (y_s y) !! g') as [r'|]; [|done]. injection Hs as <-. by left. }
  destruct (IH g Hg0) as (r & Hx & Ha). exists r. split; [|done]. by eapply gstep_frozen.
Qed.

(** ** Theorems *)
Lemma getters_expired E y g e : greachable E y -> (g, e) ∈ y_gets y -> e = Some (EMsg MsgExpired).
Proof.
  intros H. apply (greach_ind E (fun y => (g, e) ∈ y_gets y -> e = Some (EMsg MsgExpired))); [intros Hx; by apply elem_of_nil in Hx| |done].
  clear y H. intros y l y' Hr IH Hs. destruct l as [l|g'|g' n out]; cbn in Hs.
  - destruct (gone y l); [done|]. destruct (step E (y_s y) l) as [s'|]; [|done]. by injection Hs as <-.
  - destruct (bool_decide _); [done|]. destruct (s_gors (y_s y) !! g') as [[? ? ? ? ? []]|]; try done; by injection Hs as <-.
  - destruct (bool_decide _); [|done]. destruct (s_gors (y_s y) !! g') as [r'|]; [|done]. injection Hs as <-. cbn. intros [[= <- <-]|Hx]%elem_of_cons; auto.
Qed.
Lemma lost_alive E s g r : reachable E s -> s_gors s !! g = Some r -> at_loss (g_pc r) = true -> EvDead ∉ s_log s.
Proof.
  intros Hr Hg Ha Hd. pose proof (reachable_inv E s Hr) as V. apply (dead_running E s Hr) in Hd.
  destruct (v_active s V g r Hg) as (i & Hi & Hok); [by destruct (g_pc r)|].
  destruct (v_dead s V Hd _ _ Hi) as [H|H]; [by rewrite (go_live _ _ _ _ _ Hok) in H|].
  pose proof (go_pc _ _ _ _ _ Hok) as Hp. pose proof (go_starting _ _ _ _ _ Hok) as Hst. destruct (g_pc r); try done.
  - rewrite (Hst Hp) in H. done.
  - destruct Hp as (Hw & [Hp|[Hp _]]); [congruence|]. rewrite (Hst Hp) in H. done.
Qed.
Lemma never_ends E y g ls y' : greachable E y -> g ∈ y_lost y -> grun E y ls = Some y' ->
  EvDead ∉ glog y' /\ (forall e, EvWait e ∉ glog y') /\ (forall n raw e t, EvStopped g n raw e t ∉ glog y').
Proof.
  unfold glog. intros Hy Hg Hrun. destruct (lost_place E y Hy g Hg) as (r & Hx & Ha). destruct (grun_frozen E ls y y' g r (greach_reach E y Hy) Hrun Hg Hx) as (Hr' & Hg' & Hx').
  pose proof (lost_alive E _ g r Hr' Hx' Ha) as Hd. destruct (reachable_linv E _ Hr') as [V L]. split; [done|]. split.
  - intros e (pre & post & Heq)%elem_of_list_split. apply Hd. rewrite Heq. apply elem_of_app. right. right. by eapply wait_after_dead.
  - intros n raw e t Hs. assert (g_pc r = PGone) as E0 by (apply (l_end E _ L g r Hx'); eauto). by rewrite E0 in Ha.
Qed.
Lemma in_progress_event log n g : in_progress log n = Some g -> exists sn t d, EvAttempt g n sn t d ∈ log.
Proof.
  induction log as [|ev log IH]; [done|]. simpl. setoid_rewrite elem_of_cons.
  assert (in_progress log n = Some g -> exists sn t d, EvAttempt g n sn t d = ev \/ EvAttempt g n sn t d ∈ log) as Hx by (intros (sn & t & d & H)%IH; eauto).
  destruct ev; try done; case_bool_decide; try done. intros [= ->]. subst. eauto.
Qed.
(** As long as an attempt is in progress nothing else happens to its name. *)
Lemma prog_new log n g : (exists sn t d, EvAttempt g n sn t d ∈ log) -> in_progress log n = Some g -> forall new,
  (forall pre sn t d post, new ++ log = pre ++ EvAttempt g n sn t d :: post -> forall sn' t' d', EvAttempt g n sn' t' d' ∉ post) ->
  in_progress (new ++ log) n = Some g ->
  (forall pre post, new = pre ++ post -> in_progress (post ++ log) n = Some g) /\
  (forall g' sn t d, EvAttempt g' n sn t d ∉ new) /\ (forall g' raw e t, EvStopped g' n raw e t ∉ new).
Proof.
  intros (sn0 & t0 & d0 & Hat) Hp new. induction new as [|ev new IH]; intros Honce Hn.
  { split_and!; [|intros g' sn t d Hx|intros g' raw e t Hx]; try (by apply elem_of_nil in Hx). intros pre post Hx. destruct pre, post; try done. }
  assert (Hev : match ev with EvAttempt _ n' _ _ _ | EvStopped _ n' _ _ _ => n' <> n | _ => True end /\ in_progress (new ++ log) n = Some g).
  { cbn in Hn. destruct ev; try (split; [done|exact Hn]); case_bool_decide as Hb; try (split; [done|exact Hn]); [|done].
    injection Hn as ->. subst. exfalso. apply (Honce [] sn t d (new ++ log) eq_refl sn0 t0 d0). apply elem_of_app. by right. }
  destruct Hev as [Hev Hn']. destruct IH as (I1 & I2 & I3); [|done|].
  { intros pre sn t d post Hx. apply (Honce (ev :: pre) sn t d post). cbn. by rewrite Hx. }
  split_and!.
  - intros [|x pre] post Hx; cbn in Hx; [by subst|]. injection Hx as <- Hx. by eapply I1.
  - intros g' sn t d [<-|Hx]%elem_of_cons; [done|by eapply I2].
  - intros g' raw e t [<-|Hx]%elem_of_cons; [done|by eapply I3].
Qed.
Lemma installed_free E s pre n m post : reachable E s -> s_log s = pre ++ EvInstalled n m :: post -> installed post n = None.
Proof.
  intros Hr Heq. set (Q := fun ev (post : list event) => match ev with EvInstalled n m => installed post n = None | _ => True end).
  enough (Q (EvInstalled n m) post) by done. revert Heq. apply (hist_reach E Q); [|done].
  subst Q. clear. intros s D s' D' V L V' L' Hh Hm. clear V' L'. mnorm V; try done; split_and?; try done. by rewrite (l_inst E s L).
Qed.
Lemma register_free E s pre g n w t post : reachable E s -> s_log s = pre ++ EvRegister g n w t :: post -> registered post n = None.
Proof.
  intros Hr Heq. set (Q := fun ev (post : list event) => match ev with EvRegister g n w t => registered post n = None | _ => True end).
  enough (Q (EvRegister g n w t) post) by done. revert Heq. apply (hist_reach E Q); [|done].
  subst Q. clear. intros s D s' D' V L V' L' Hh Hm. clear V' L'. mnorm V; try done; split_and?; try done.
  pose proof (l_regw E s L n) as Hw. destruct (registered (s_log s) n) as [[g0 w0]|]; [|done]. cbn in Hw. congruence.
Qed.
Lemma grun_log E ls g r : forall y y', reachable E (y_s y) -> g ∈ y_lost y -> s_gors (y_s y) !! g = Some r -> grun E y ls = Some y' -> nreg g (y_s y) (y_s y').
Proof.
  induction ls as [|l ls IH]; intros y y' Hr Hg Hx Hs; cbn in Hs; [injection Hs as <-; by apply nreg_same|].
  destruct (gstep E y l) as [y1|] eqn:H1; [|done]. destruct (gstep_frozen E y l y1 g r Hr H1 Hg Hx) as [Hg1 Hx1]. pose proof (gstep_reach E y l y1 Hr H1) as Hr1.
  eapply nreg_trans; [|by apply (IH y1 y' Hr1)]. clear Hs IH. destruct l as [l|g'|g' n out]; cbn in H1.
  - destruct (gone y l) eqn:Hgo; [done|]. destruct (step E (y_s y) l) as [s'|] eqn:Hst; [|done]. injection H1 as <-.
    apply (step_nreg g E (y_s y) l s'); [|done]. by eapply gone_other.
  - destruct (bool_decide _); [done|]. destruct (s_gors (y_s y) !! g') as [[? ? ? ? ? []]|]; try done; injection H1 as <-; by apply nreg_same.
  - destruct (bool_decide _); [|done]. destruct (s_gors (y_s y) !! g') as [r'|]; [|done]. injection H1 as <-. by apply nreg_same.
Qed.
Lemma register_prog E s pre g n w t post : reachable E s -> s_log s = pre ++ EvRegister g n w t :: post -> in_progress post n = Some g.
Proof.
  intros Hr Heq. set (Q := fun ev (post : list event) => match ev with EvRegister g n w t => in_progress post n = Some g | _ => True end).
  enough (Q (EvRegister g n w t) post) by done. revert Heq. apply (hist_reach E Q); [|done].
  subst Q. clear. intros s D s' D' V L V' L' Hh Hm. clear V' L'. mnorm V; try done; split_and?; try done.
  apply (l_prog E s L). eexists. by split_and!.
Qed.
Lemma lost_name E y g n f t : greachable E y -> g ∈ y_lost y -> EvStartCall g n f t ∈ glog y -> exists r, s_gors (y_s y) !! g = Some r /\ g_name r = n /\ at_loss (g_pc r) = true.
Proof.
  intros Hy Hg Hc. destruct (lost_place E y Hy g Hg) as (r & Hx & Ha). destruct (reachable_linv E _ (greach_reach E y Hy)) as [V L].
  destruct (l_called E _ L _ _ _ _ Hc) as (r' & Hx' & Hn & _). exists r. split_and!; [done|congruence|done].
Qed.
Lemma name_blocked E y g n f t ls y' : greachable E y -> g ∈ y_lost y -> EvStartCall g n f t ∈ glog y -> grun E y ls = Some y' ->
  exists new, glog y' = new ++ glog y /\
    (forall pre post, new = pre ++ post -> in_progress (post ++ glog y) n = Some g /\ installed (post ++ glog y) n = installed (glog y) n /\ registered (post ++ glog y) n = registered (glog y) n) /\
    is_Some (installed (glog y) n).
Proof.
  intros Hy Hg Hc Hrun. pose proof (greach_reach E y Hy) as Hr. destruct (lost_name E y g n f t Hy Hg Hc) as (r & Hx & Hn & Ha).
  destruct (grun_frozen E ls y y' g r Hr Hrun Hg Hx) as (Hr' & Hg' & Hx'). destruct (grun_log E ls g r y y' Hr Hg Hx Hrun) as (new & Hnew & Hnr). fold (glog y) (glog y') in Hnew.
  destruct (reachable_linv E _ Hr) as [V L]. destruct (reachable_linv E _ Hr') as [V' L'].
  assert (Hp : in_progress (glog y) n = Some g). { apply (l_prog E _ L). exists r. split_and!; [done|done|by destruct (g_pc r)]. }
  assert (Hp' : in_progress (glog y') n = Some g). { apply (l_prog E _ L'). exists r. split_and!; [done|done|by destruct (g_pc r)]. }
  assert (Hi : is_Some (installed (glog y) n)).
  { unfold glog. rewrite (l_inst E _ L). apply (v_dom _ V). destruct (v_active _ V g r Hx) as (i & Hi & _); [by destruct (g_pc r)|]. rewrite <- Hn, Hi. by eexists. }
  rewrite Hnew in Hp'. destruct (prog_new (glog y) n g (in_progress_event _ _ _ Hp) Hp new) as (P1 & P2 & P3); [|done|].
  { intros pre sn t' d post Heq. rewrite <- Hnew in Heq. intros sn' t'' d'. by apply (attempt_once E (y_s y') pre g n sn t' d post Hr' Heq). }
  exists new. split; [done|]. split; [|done]. intros pre post. revert pre. induction post as [|ev post IH]; intros pre Heq; [done|].
  destruct (IH (pre ++ [ev])) as (I1 & I2 & I3); [by rewrite <- app_assoc|]. split; [by eapply P1|].
  assert (Hlog : glog y' = pre ++ ev :: (post ++ glog y)) by (rewrite Hnew, Heq, <- app_assoc; done).
  assert (Hin : ev ∈ new) by (rewrite Heq; apply elem_of_app; right; by left).
  split; cbn; destruct ev; try done; case_bool_decide as Hb; try done; subst n0.
  - exfalso. assert (H0 := installed_free E (y_s y') pre n m _ Hr' Hlog). rewrite I2 in H0. rewrite H0 in Hi. by destruct Hi.
  - exfalso. destruct (uninstall_cause E (y_s y') pre n _ Hr' Hlog) as (g1 & raw & e & t1 & l & Hl & _). rewrite Hl in I1. cbn in I1. by rewrite bool_decide_eq_true_2 in I1.
  - exfalso. assert (H0 := register_prog E (y_s y') pre _ n _ _ _ Hr' Hlog). rewrite I1 in H0. injection H0 as <-. by eapply Hnr.
  - exfalso. by eapply P3.
Qed.

(** The dying engine: all but the lost attempts are stopped. *)
Lemma rest_stops E y n g : greachable E y -> is_dying (glog y) -> (forall l, owed (glog y) l -> gstep E y (GEng l) = None) ->
  in_progress (glog y) n = Some g -> g ∈ y_lost y \/ EvDead ∈ glog y.
Proof.
  unfold glog. intros Hy Hdl Hst Hp. pose proof (greach_reach E y Hy) as Hr. destruct (reachable_linv E _ Hr) as [V L].
  assert (Hst' : forall l, owed (s_log (y_s y)) l -> gone y l = false -> step E (y_s y) l = None).
  { intros l Ho Hgo. specialize (Hst l Ho). cbn in Hst. rewrite Hgo in Hst. by destruct (step E (y_s y) l). }
  destruct (decide (g ∈ y_lost y)) as [|Hnl]; [by left|right]. pose proof Hdl as Hd. apply (l_dying E _ L) in Hd.
  apply (dead_running E _ Hr). destruct (s_running (y_s y)) eqn:Hrun; [exfalso|done].
  assert (s_oneShot (y_s y) = false) as Ho.
  { destruct (s_oneShot (y_s y)) eqn:Ho; [|done]. assert (Hx : step E (y_s y) LDying = None) by by apply Hst'. cbn in Hx. by rewrite Hrun, Ho, Hd in Hx. }
  apply (l_prog E _ L) in Hp. destruct Hp as ([n0 f sp x al p] & Hg & Hn & Hp). cbn in Hn, Hp. subst n0.
  assert (Hgo : forall l, gor_of l = Some g -> gone y l = false) by (intros l Hl; unfold gone; rewrite Hl; by apply bool_decide_eq_false).
  destruct p; try done.
  - specialize (Hst' (LAbort g) (conj eq_refl I) (Hgo (LAbort g) eq_refl)). cbn [step] in Hst'. rewrite Hg, Hd in Hst'. by discriminate Hst'.
  - specialize (Hst' (LStartRet g (inr ETombDying)) (conj eq_refl I) (Hgo (LStartRet g (inr ETombDying)) eq_refl)). cbn [step] in Hst'. rewrite Hg in Hst'. by discriminate Hst'.
  - specialize (Hst' (LExpire g) (conj eq_refl I) (Hgo (LExpire g) eq_refl)). cbn [step] in Hst'. rewrite Hg in Hst'. by discriminate Hst'.
  - specialize (Hst' (LStartedDying g) (conj eq_refl I) (Hgo (LStartedDying g) eq_refl)). cbn [step] in Hst'. rewrite Hg, Hd in Hst'. by discriminate Hst'.
  - assert (EvStartRet g n (inl w) ∈ s_log (y_s y) /\ ~ worker_exited (s_log (y_s y)) g) as [Hret Hne] by exact (l_phase E _ L _ _ Hg).
    assert (Hlost : forall l h, gor_of l = Some h -> owed (s_log (y_s y)) l -> (forall r, s_gors (y_s y) !! h = Some r -> at_loss (g_pc r) = true -> step E (y_s y) l = None) -> step E (y_s y) l = None).
    { intros l h Hl How Hat. destruct (decide (h ∈ y_lost y)) as [Hh|Hh].
      - destruct (lost_place E y Hy h Hh) as (r & Hr1 & Hr2). by eapply Hat.
      - apply Hst'; [done|]. unfold gone. rewrite Hl. by apply bool_decide_eq_false. }
    assert (forall h, step E (y_s y) (LExpire h) = None) as Q1.
    { intros h. apply (Hlost _ h); [done|done|]. intros [? ? ? ? ? q] H1 H2. cbn [step]. rewrite H1. by destruct q. }
    assert (forall h, step E (y_s y) (LStarted h) = None) as Q2.
    { intros h. apply (Hlost _ h); [done|done|]. intros [? ? ? ? ? q] H1 H2. cbn [step]. rewrite H1. by destruct q. }
    assert (forall h, step E (y_s y) (LStartedDying h) = None) as Q3.
    { intros h. apply (Hlost _ h); [done|done|]. intros [? ? ? ? ? q] H1 H2. cbn [step]. rewrite H1. by destruct q. }
    destruct (wanted_stop_killed E (y_s y) g n w Hr) as [Hk|[-> Hk]]; try done; [by apply Hst'|by right| |].
    + assert (Hx : step E (y_s y) (LExit g None) = None) by (apply Hst'; [split; [done|]; by exists n, w|by apply Hgo]).
      cbn [step] in Hx. rewrite Hg in Hx. by discriminate Hx.
    + apply (dead_running E _ Hr) in Hk. congruence.
  - specialize (Hst' (LSelfDying g) (conj eq_refl I) (Hgo (LSelfDying g) eq_refl)). cbn [step] in Hst'. rewrite Hg, Hd in Hst'. by discriminate Hst'.
  - specialize (Hst' (LStopped g) (conj eq_refl I) (Hgo (LStopped g) eq_refl)). cbn [step] in Hst'. rewrite Hg, Hrun in Hst'. by discriminate Hst'.
Qed.
(** Its steps are those of the engine. *)
Lemma grun_run E ls : forall y y', grun E y ls = Some y' -> run E (y_s y) (engine_steps ls) = Some (y_s y').
Proof.
  induction ls as [|l ls IH]; intros y y' Hs; cbn in Hs; [by injection Hs as <-|].
  destruct (gstep E y l) as [y1|] eqn:H1; [|done]. specialize (IH y1 y' Hs). destruct l as [l|g'|g' n out]; cbn in H1 |- *.
  - destruct (gone y l); [done|]. destruct (step E (y_s y) l) as [s'|]; [|done]. injection H1 as <-. exact IH.
  - destruct (bool_decide _); [done|]. destruct (s_gors (y_s y) !! g') as [[? ? ? ? ? []]|]; try done; injection H1 as <-; exact IH.
  - destruct (bool_decide _); [|done]. destruct (s_gors (y_s y) !! g') as [r'|]; [|done]. injection H1 as <-. exact IH.
Qed.
Lemma installed_absent log n m new : installed log n = Some m -> (forall pre post, new = pre ++ post -> installed (post ++ log) n = installed log n) -> EvUninstall n ∉ new.
Proof.
  intros Hi Hall (pre & post & ->)%elem_of_list_split. specialize (Hall pre (EvUninstall n :: post) eq_refl). cbn in Hall.
  rewrite bool_decide_eq_true_2 in Hall by done. congruence.
Qed.
(** Nothing ever happens again to the name of a lost attempt. *)
Lemma name_dead E y g n f t ls y' : greachable E y -> g ∈ y_lost y -> EvStartCall g n f t ∈ glog y -> grun E y ls = Some y' ->
  exists m new, glog y' = new ++ glog y /\ installed (glog y) n = Some m /\ installed (glog y') n = Some m /\ in_progress (glog y') n = Some g /\
    (forall m', EvInstalled n m' ∉ new) /\ EvUninstall n ∉ new /\ (forall g' sn t d, EvAttempt g' n sn t d ∉ new) /\
    (forall g' w t, EvRegister g' n w t ∉ new) /\ (forall g' raw e t, EvStopped g' n raw e t ∉ new).
Proof.
  intros Hy Hg Hc Hrun. destruct (name_blocked E y g n f t ls y' Hy Hg Hc Hrun) as (new & Hnew & Hall & [m Hm]).
  pose proof (greach_reach E y Hy) as Hr. destruct (lost_name E y g n f t Hy Hg Hc) as (r & Hx & _). destruct (grun_frozen E ls y y' g r Hr Hrun Hg Hx) as (Hr' & _ & _).
  exists m, new. destruct (Hall [] new eq_refl) as (Q1 & Q2 & Q3). rewrite <- Hnew in Q1, Q2.
  assert (Hlog : forall ev, ev ∈ new -> exists pre post, glog y' = pre ++ ev :: (post ++ glog y) /\ in_progress (post ++ glog y) n = Some g /\ in_progress (ev :: post ++ glog y) n = Some g /\ installed (post ++ glog y) n = Some m /\ registered (post ++ glog y) n = registered (ev :: post ++ glog y) n).
  { intros ev (pre & post & ->)%elem_of_list_split. exists pre, post. destruct (Hall (pre ++ [ev]) post) as (A1 & A2 & A3); [by rewrite <- app_assoc|]. destruct (Hall pre (ev :: post) eq_refl) as (B1 & B2 & B3).
    rewrite Hnew, <- app_assoc. cbn [app] in *. split_and!; [done|done|exact B1|congruence|]. by rewrite A3, <- B3. }
  split_and!; [done|done|congruence|done|..].
  - intros m' (pre & post & H1 & _ & _ & H4 & _)%Hlog. rewrite (installed_free E _ pre n m' _ Hr' H1) in H4. done.
  - eapply installed_absent; [exact Hm|]. intros pre post H. by apply (Hall pre post).
  - intros g' sn t' d (pre & post & H1 & H2 & H3 & _)%Hlog. cbn in H3. rewrite bool_decide_eq_true_2 in H3 by done. injection H3 as ->.
    destruct (in_progress_event _ _ _ H2) as (sn0 & t0 & d0 & H0). by eapply (attempt_once E (y_s y') pre g n sn t' d _ Hr' H1).
  - intros g' w t' (pre & post & H1 & _ & _ & _ & H5)%Hlog. cbn in H5. rewrite bool_decide_eq_true_2 in H5 by done.
    rewrite (register_free E _ pre g' n w t' _ Hr' H1) in H5. done.
  - intros g' raw e t' (pre & post & _ & _ & H3 & _)%Hlog. cbn in H3. by rewrite bool_decide_eq_true_2 in H3.
Qed.
(** Install of the name is refused. *)
Lemma install_refused E y g n f t m y' : greachable E y -> g ∈ y_lost y -> EvStartCall g n f t ∈ glog y -> gstep E y (GEng (LInstall n m)) = Some y' ->
  exists new, glog y' = new ++ EvInstall n m (Some (EMsg (MsgAlreadyInstalled n))) :: glog y.
Proof.
  intros Hy Hg Hc Hs. destruct (name_blocked E y g n f t [] y Hy Hg Hc eq_refl) as (_ & _ & _ & [m0 Hm]).
  destruct (reachable_linv E _ (greach_reach E y Hy)) as [V L]. unfold glog in Hm. rewrite (l_inst E _ L) in Hm.
  cbn in Hs. destruct (s_running (y_s y)); [|done]. unfold got_install in Hs. rewrite Hm in Hs. injection Hs as <-. unfold glog. cbn [y_s set].
  destruct (end_iteration_log E (emit (EvInstall n m (Some (EMsg (MsgAlreadyInstalled n)))) (y_s y))) as (new & Hnew & _). by exists new.
Qed.
(** What the dependents of the name are given. *)
Lemma registered_stays E s g n w t pre post : reachable E s -> s_log s = pre ++ EvRegister g n w t :: post -> in_progress (s_log s) n = Some g -> registered (s_log s) n = Some (g, w).
Proof.
  intros Hr Heq Hp. pose proof (register_prog E s pre g n w t post Hr Heq) as Hp0. set (log := EvRegister g n w t :: post) in *.
  assert (Hp1 : in_progress log n = Some g) by exact Hp0.
  destruct (prog_new log n g (in_progress_event _ _ _ Hp1) Hp1 pre) as (P1 & P2 & P3).
  { intros pre0 sn t0 d post0 Hx. rewrite <- Heq in Hx. intros sn' t' d'. by eapply (attempt_once E s pre0 g n sn t0 d _ Hr Hx). }
  { by rewrite <- Heq. }
  rewrite Heq. assert (forall a b, pre = a ++ b -> registered (b ++ log) n = Some (g, w)) as Hx; [|by apply (Hx [] pre)].
  intros a b. revert a. induction b as [|ev b IH]; intros a Hab; [cbn; by rewrite bool_decide_eq_true_2|].
  assert (Hb : registered (b ++ log) n = Some (g, w)) by (apply (IH (a ++ [ev])); by rewrite <- app_assoc).
  assert (Hin : ev ∈ pre) by (rewrite Hab; apply elem_of_app; right; by left).
  cbn. destruct ev; try done; case_bool_decide as Hn; try done; subst n0; exfalso.
  - assert (s_log s = a ++ EvRegister g0 n w0 t0 :: (b ++ log)) as Hl by (rewrite Heq, Hab, <- app_assoc; done). rewrite (register_free E s a _ n _ _ _ Hr Hl) in Hb. done.
  - by eapply P3.
Qed.
Lemma dependents_get E y g n f t ls y' new pre g' d sn t' dl post m : greachable E y -> g ∈ y_lost y -> EvStartCall g n f t ∈ glog y -> grun E y ls = Some y' ->
  glog y' = new ++ glog y -> new = pre ++ EvAttempt g' d sn t' dl :: post -> installed (post ++ glog y) d = Some m -> n ∈ m_inputs m ->
  sn_workers sn !! n = Some (snd <$> registered (glog y) n).
Proof.
  intros Hy Hg Hc Hrun Hnew Heq Hm Hin. destruct (name_blocked E y g n f t ls y' Hy Hg Hc Hrun) as (new' & Hnew' & Hall & _).
  assert (new' = new) as -> by (rewrite Hnew in Hnew'; by apply app_inv_tail in Hnew').
  pose proof (greach_reach E y Hy) as Hr. destruct (lost_name E y g n f t Hy Hg Hc) as (r & Hx & _). destruct (grun_frozen E ls y y' g r Hr Hrun Hg Hx) as (Hr' & _ & _).
  assert (Hl : glog y' = pre ++ EvAttempt g' d sn t' dl :: (post ++ glog y)) by (rewrite Hnew, Heq, <- app_assoc; done).
  destruct (snapshot_inputs E (y_s y') pre g' d sn t' dl _ Hr' Hl) as (m' & Hm' & H1 & _). assert (m' = m) as -> by congruence.
  rewrite (H1 n Hin). destruct (Hall (pre ++ [EvAttempt g' d sn t' dl]) post) as (_ & _ & H3); [by rewrite Heq, <- app_assoc|]. by rewrite H3.
Qed.
Lemma lost_called E y g n r : greachable E y -> EvStartRet g n r ∈ glog y -> exists f t, EvStartCall g n f t ∈ glog y.
Proof.
  unfold glog. intros Hy H. destruct (reachable_linv E _ (greach_reach E y Hy)) as [V L]. destruct (l_ret E _ L _ _ _ H) as (r1 & Hx & Hn & _ & _ & Hc).
  destruct Hc as (n' & f & t & Hc). destruct (l_called E _ L _ _ _ _ Hc) as (r2 & Hx2 & Hn2 & _). exists f, t. by replace n with n' by congruence.
Qed.
Lemma dependents_dead_worker E y g n w t0 ls y' new pre g' d sn t' dl post m : greachable E y -> lost_in_wait y g n w -> EvRegister g n w t0 ∈ glog y -> grun E y ls = Some y' ->
  glog y' = new ++ glog y -> new = pre ++ EvAttempt g' d sn t' dl :: post -> installed (post ++ glog y) d = Some m -> n ∈ m_inputs m ->
  sn_workers sn !! n = Some (Some w).
Proof.
  intros Hy [Hg Hret] Hreg Hrun Hnew Heq Hm Hin. destruct (lost_called E y g n _ Hy Hret) as (f & t & Hc).
  rewrite (dependents_get E y g n f t ls y' new pre g' d sn t' dl post m Hy Hg Hc Hrun Hnew Heq Hm Hin).
  apply elem_of_list_split in Hreg as (a & b & Hreg). destruct (name_blocked E y g n f t [] y Hy Hg Hc eq_refl) as (new' & Hnew' & Hall & _).
  destruct (Hall new' [] (eq_sym (app_nil_r new'))) as (Hp & _). cbn in Hp.
  pose proof (registered_stays E (y_s y) g n w t0 a b (greach_reach E y Hy) Hreg Hp) as Hw. unfold glog. by rewrite Hw.
Qed.
Lemma dependents_no_worker E y g n ls y' new pre g' d sn t' dl post m : greachable E y -> lost_in_start y g n -> grun E y ls = Some y' ->
  glog y' = new ++ glog y -> new = pre ++ EvAttempt g' d sn t' dl :: post -> installed (post ++ glog y) d = Some m -> n ∈ m_inputs m ->
  sn_workers sn !! n = Some None.
Proof.
  intros Hy (Hg & (f & t & Hc) & Hno) Hrun Hnew Heq Hm Hin.
  rewrite (dependents_get E y g n f t ls y' new pre g' d sn t' dl post m Hy Hg Hc Hrun Hnew Heq Hm Hin).
  destruct (registered (glog y) n) as [[g1 w]|] eqn:Hreg; [|done]. exfalso. pose proof (greach_reach E y Hy) as Hr. destruct (reachable_linv E _ Hr) as [V L].
  destruct (registered_event _ _ _ _ Hreg) as [t1 Hev]. pose proof (register_ret E _ _ _ _ _ Hr Hev) as Hret.
  destruct (name_blocked E y g n f t [] y Hy Hg Hc eq_refl) as (new' & Hnew' & Hall & _). destruct (Hall new' [] (eq_sym (app_nil_r new'))) as (Hp & _). cbn in Hp.
  apply (l_regg E _ L) in Hreg. apply (l_prog E _ L) in Hreg. assert (g1 = g) as -> by (unfold glog in Hp; congruence). by eapply Hno.
Qed.
Lemma rest_bounded E y : greachable E y -> is_dying (glog y) -> exists N, forall ls y', grun E y ls = Some y' -> internal_steps (engine_steps ls) <= N.
Proof.
  intros Hy Hd. destruct (dying_bounded E (y_s y) (greach_reach E y Hy) Hd) as [N HN]. exists N. intros ls y' Hrun. eapply HN. by apply grun_run.
Qed.
