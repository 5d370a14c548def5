(** Infinite executions of the engine: it converges (C80). *)
From stdpp Require Import gmap strings list.
From Coq Require Import ZArith.
From RecordUpdate Require Import RecordSet.
From Verif Require Import Err Tomb Snapshot Engine EngineSpec EngineProgressSpec EngineMicro EngineSteps EngineLog EngineSafety EngineFresh EngineKill
  EngineObs EngineHandlers EngineProgress EngineMore EngineMore2 EngineSettle FairSpec FairEngineSpec FairProofs.
Import RecordSetNotations.

(** ** A state in which nothing is under way *)
Definition quiet (s : state) : Prop := forall g r, s_gors s !! g = Some r ->
  match g_pc r with PGone | PSelf => True | PWait _ => forall n w, EvKill g n w ∉ s_log s | _ => False end.

Lemma progress_attempt log n g : in_progress log n = Some g -> exists sn post, last_attempt log n = Some (g, sn, post).
Proof.
  induction log as [|ev log IH]; [done|]. destruct ev; cbn [in_progress last_attempt]; try done; case_bool_decide; try done. intros [= ->]. by eexists _, _.
Qed.
Lemma last_end_attempt E s n g sn post : reachable E s -> in_progress (s_log s) n = None -> last_attempt (s_log s) n = Some (g, sn, post) ->
  forall g' raw e, last_end (s_log s) n = Some (g', raw, e) -> g' = g.
Proof.
  intros Hr Hp Ha g' raw e He.
  assert (Hok : forall pre g0 n0 raw0 e0 t0 post', s_log s = pre ++ EvStopped g0 n0 raw0 e0 t0 :: post' -> exists sn0 p0, last_attempt post' n0 = Some (g0, sn0, p0)).
  { intros pre g0 n0 raw0 e0 t0 post' H. apply progress_attempt. by apply (stopped_cause E s pre g0 n0 raw0 e0 t0 post' Hr H). }
  revert Ha Hp He Hok. clear Hr. generalize (s_log s) as log. induction log as [|ev log IH]; [done|]. intros Ha Hp He Hok.
  assert (IH' : last_attempt log n = Some (g, sn, post) -> in_progress log n = None -> last_end log n = Some (g', raw, e) -> g' = g).
  { intros H1 H2 H3. apply IH; try done. intros pre g0 n0 raw0 e0 t0 post' H. apply (Hok (ev :: pre) g0 n0 raw0 e0 t0). by rewrite H. }
  destruct ev; cbn [last_attempt in_progress last_end] in *; try (by apply IH'); repeat case_bool_decide; try done; try (by apply IH').
  subst. injection He as -> -> ->. destruct (Hok [] _ _ _ _ _ _ eq_refl) as (sn0 & p0 & Hev). congruence.
Qed.

Lemma quiet_converged E s : reachable E s -> dying s = false -> quiet s -> converged (s_log s).
Proof.
  intros Hr Hd Q n m Hi. destruct (reachable_linv E s Hr) as [V L]. pose proof (reachable_kinv E s Hr) as K.
  assert (Hnd : ~ is_dying (s_log s)) by (rewrite <- (l_dying E s L); congruence).
  destruct (no_stale_inputs E s n m Hr Hnd Hi) as (g & sn & post & Ha & Hp & Hf). exists g, sn, post. split; [done|]. split; [done|].
  destruct (in_progress (s_log s) n) as [g'|] eqn:Hpr.
  - destruct (progress_attempt _ _ _ Hpr) as (sn' & post' & Ha'). rewrite Ha in Ha'. injection Ha' as <- <- <-.
    apply (l_prog E s L) in Hpr as (r & Hg & Hn & Hpc).
    pose proof (Q g r Hg) as Hq. destruct (v_active s V g r Hg Hpc) as (i & Hci & Hok). rewrite Hn in Hci.
    assert (Hw : exists w, g_pc r = waiting_pc w).
    { pose proof (go_pc _ _ _ _ _ Hok) as Hgp. destruct (g_pc r) as [| | | |[|k]| | |]; try done; [by destruct Hgp|by exists (WExt k)|by exists WSelf]. }
    destruct Hw as [w Hw].
    assert (Hnk : EvKill g n w ∉ s_log s).
    { intros Hk. destruct w; cbn in Hw; rewrite Hw in Hq; [by apply (self_kill_dying E s g n Hr) in Hk|]. by apply Hq in Hk. }
    assert (Hns : i_stopping i = false /\ i_worker i = Some w).
    { pose proof (k_kill s K g r w Hg Hw) as H. rewrite Hn, (info_of_eq _ _ _ Hci) in H. destruct (i_stopping i) eqn:E1; [by destruct Hnk; apply H; right|].
      split; [done|]. destruct (i_worker i) as [w'|] eqn:E2; [|by destruct Hnk; apply H; left].
      pose proof (go_pc _ _ _ _ _ Hok) as Hgp. rewrite Hw in Hgp. destruct w; cbn in Hgp.
      - destruct Hgp as [Hgp|[_ [Hgp|Hgp]]]; congruence.
      - destruct Hgp as [_ [Hgp|[_ [Hgp|Hgp]]]]; congruence. }
    destruct Hns as [Hns Hiw]. pose proof (go_cancel _ _ _ _ _ Hok) as Hc. rewrite Hns in Hc. destruct Hc as [_ Hc].
    assert (Hna : ~ asked_to_stop (s_log s) g) by (by rewrite <- (l_canc E s L)).
    split; [done|]. split; [intros x Hx; by apply Hf|]. left. exists w.
    pose proof (l_regw E s L n) as Hrw. rewrite (info_of_eq _ _ _ Hci), Hiw in Hrw. destruct (registered (s_log s) n) as [[g0 w0]|] eqn:Ereg; [|done]. injection Hrw as ->.
    destruct (l_regg E s L _ _ _ Ereg) as (r0 & Hg0 & Hn0 & Hp0). rewrite (v_uniq s V g0 g r0 r) by congruence. split; [done|].
    pose proof (l_phase E s L g r Hg) as Hph. rewrite Hw in Hph. by destruct w; destruct Hph.
  - destruct (no_manifold_forgotten E s n m Hr Hnd Hi Hpr) as (g' & raw & e & He & Hna & Hx).
    pose proof (last_end_attempt E s n g sn post Hr Hpr Ha g' raw e He) as ->.
    split; [done|]. split; [intros x Hx'; by apply Hf|]. right. split; [done|]. by exists raw, e.
Qed.

(** ** Steps that are not internal *)
Lemma other_step E s l s' : internal l = false -> (forall n m, l <> LInstall n m) -> step E s l = Some s' -> dying s' = false ->
  (forall g, g_pc <$> s_gors s' !! g = g_pc <$> s_gors s !! g) /\ (s_now s <= s_now s')%Z /\ (forall g n w, EvKill g n w ∈ s_log s' -> EvKill g n w ∈ s_log s).
Proof.
  intros Hi Hn Hs Hd.
  assert (Hk : forall x, dying (kill_tomb None x) = false -> False) by (intros x; by rewrite kill_tomb_none_dying).
  assert (Hdone : forall x, dying x = true -> dying (emit EvDead (x <| s_running := false |> <| s_tomb ::= (fun t => tomb_done t (Some ETombDying)) |>)) = false -> False).
  { intros x. unfold dying, emit, t_dying, tomb_done, tomb_kill. cbn. destruct (s_tomb x) as [r a d p]. cbn. destruct r; [done|]. cbn. repeat (case_match; cbn in *; try done). }
  destruct l; try done; cbn [step] in Hs.
  - injection Hs as <-. by apply Hk in Hd.
  - destruct (0 <=? d)%Z eqn:E1; [|done]. injection Hs as <-. cbn. split; [done|]. split; [lia|done].
  - by destruct (Hn n m).
  - destruct (dying s) eqn:E1; [|done]. injection Hs as <-. cbn in Hd. unfold dying in *. cbn in Hd. congruence.
  - destruct (s_running s); [|done]. injection Hs as <-.
    assert (Hpoll : forall x, dying (poll E x) = false -> poll E x = x <| s_polls ::= S |>).
    { intros x. unfold poll. destruct (e_preempt E (s_polls x)); [|done]. intros H. exfalso. by apply (Hk x). }
    unfold end_iteration in *. destruct (dying (poll E (emit (EvReport (live_report E (poll E s))) (poll E s)))) eqn:E1.
    { exfalso. revert Hd. cbn [andb]. destruct (all_others_stopped _); [|congruence]. apply Hdone, E1. }
    cbn [andb]. rewrite (Hpoll _ E1). cbn.
    assert (E2 : dying (poll E s) = false) by (rewrite (Hpoll _ E1) in E1; exact E1). rewrite (Hpoll _ E2). cbn. split; [done|]. split; [lia|]. intros g n w. rewrite elem_of_cons. by intros [?|?].
  - destruct (t_dead (s_tomb s)) eqn:E1; [|done]. injection Hs as <-. cbn. split; [done|]. split; [lia|]. intros g n w. rewrite elem_of_cons. by intros [?|?].
  - destruct (t_dead (s_tomb s)) eqn:E1; [|done]. injection Hs as <-. cbn. split; [done|]. split; [lia|]. intros g n w. rewrite elem_of_cons. by intros [?|?].
  - destruct (s_gors s !! g) as [r|] eqn:Hg; [|done]. destruct (snapshot_get _ _ _ _ _ _) as [[e call] al]. injection Hs as <-. cbn. split; [|split; [lia|]].
    + intros h. destruct (decide (h = g)) as [-> |Hne]; [by rewrite lookup_insert, Hg|by rewrite lookup_insert_ne].
    + intros g0 n0 w. rewrite elem_of_cons. by intros [?|?].
Qed.
Lemma quiet_keeps E s l s' : reachable E s -> calm (s_log s) l -> step E s l = Some s' -> dying s' = false -> quiet s -> quiet s'.
Proof.
  intros Hr Hc Hs Hd Q. assert (Hds : dying s = false) by (destruct (dying s) eqn:E1; [|done]; by rewrite (step_dying_mono E s l s' Hr Hs E1) in Hd).
  destruct (internal l) eqn:Hi.
  - exfalso. destruct l; try done; cbn [step] in Hs.
    + by rewrite Hds, andb_false_r in Hs.
    + destruct (s_gors s !! g) as [rr|] eqn:Hg; [|done]. specialize (Q g rr Hg). destruct rr as [? ? ? ? ? p]; cbn in Q. by destruct p.
    + destruct (s_gors s !! g) as [rr|] eqn:Hg; [|done]. specialize (Q g rr Hg). destruct rr as [? ? ? ? ? p]; cbn in Q. by destruct p.
    + destruct (s_gors s !! g) as [rr|] eqn:Hg; [|done]. specialize (Q g rr Hg). destruct rr as [? ? ? ? ? p]; cbn in Q. by destruct p.
    + destruct (s_gors s !! g) as [rr|] eqn:Hg; [|done]. specialize (Q g rr Hg). destruct rr as [? ? ? ? ? p]; cbn in Q. by destruct p.
    + destruct (s_gors s !! g) as [rr|] eqn:Hg; [|done]. specialize (Q g rr Hg). destruct rr as [? ? ? ? ? p]; cbn in Q. by destruct p.
    + destruct (s_gors s !! g) as [rr|] eqn:Hg; [|done]. specialize (Q g rr Hg). destruct rr as [? ? ? ? ? p]; cbn in Q. by destruct p.
    + destruct (s_gors s !! g) as [rr|] eqn:Hg; [|done]. specialize (Q g rr Hg). destruct rr as [? ? ? ? ? p]; cbn in Q. destruct p; try done. destruct Hc as (n & w' & Hc). by apply Q in Hc.
    + destruct (s_gors s !! g) as [[? ? ? ? ? p]|] eqn:Hg; [|done]. destruct p; try done. by rewrite Hds in Hs.
    + destruct (s_gors s !! g) as [rr|] eqn:Hg; [|done]. specialize (Q g rr Hg). destruct rr as [? ? ? ? ? p]; cbn in Q. by destruct p.
  - assert (Hn : forall n m, l <> LInstall n m) by (intros n m ->; done). destruct (other_step E s l s' Hi Hn Hs Hd) as (H1 & _ & H3).
    intros g r Hg. specialize (H1 g). rewrite Hg in H1. destruct (s_gors s !! g) as [r0|] eqn:Hg0; [|done]. injection H1 as H1. rewrite H1. specialize (Q g r0 Hg0). destruct (g_pc r0); try done. intros n w0 Hk. by apply (Q n w0), H3.
Qed.

(** ** It gets there *)
Section converge.
Context (E : env) (tr : nat -> state) (lab : nat -> option label).
Context (Hr0 : reachable E (tr 0)) (He : execution (step E) tr lab) (Hf : not_starved (step E) (fun s => owed (s_log s)) tr lab).

Lemma tr_reach j : reachable E (tr j).
Proof. apply (exec_inv _ tr lab (reachable E) He 0 Hr0); [|lia]. intros j' l _ _ H Hs. by eapply reachable_step. Qed.
Lemma tr_next j : tr (1 + j) = tr j \/ exists l, lab j = Some l /\ step E (tr j) l = Some (tr (1 + j)).
Proof. pose proof (He j) as H. destruct (lab j) as [l|]; [right; by exists l|by left]. Qed.
Lemma tr_dying j : dying (tr j) = true -> forall k, j <= k -> dying (tr k) = true.
Proof.
  intros Hd k Hk. induction Hk as [|k Hk IH]; [done|]. destruct (tr_next k) as [H|(l & _ & H)]; change (1 + k) with (Datatypes.S k) in H; [by rewrite H|].
  exact (step_dying_mono E _ _ _ (tr_reach k) H IH).
Qed.

Definition cm (W : string -> nat) (s : state) : nat := if dying s then psi s else Phi W s.
Definition cI (W : string -> nat) (s : state) : Prop := dying s = true \/ pinv W s.
Lemma cm_step W i j l : (forall j l, i <= j -> lab j = Some l -> calm (s_log (tr j)) l) -> i <= j -> lab j = Some l -> cI W (tr j) -> step E (tr j) l = Some (tr (1 + j)) ->
  cI W (tr (1 + j)) /\ cm W (tr (1 + j)) + (if internal l then 1 else 0) <= cm W (tr j).
Proof.
  intros Hc Hj El HI Hs. unfold cm, cI. destruct (dying (tr j)) eqn:Hd.
  - pose proof (psi_step E _ _ _ Hd Hs). rewrite (step_dying_mono E _ _ _ (tr_reach j) Hs Hd). split; [by left|done].
  - destruct HI as [HI|P]; [congruence|]. destruct (reachable_linv E _ (tr_reach j)) as [V L].
    destruct (phi_step W E _ l _ V L (reachable_kinv E _ (tr_reach j)) (reachable_att E _ (tr_reach j)) P Hd (Hc j l Hj El) Hs) as [P1 H1].
    split; [by right|]. destruct (dying (tr (1 + j))); [|done]. pose proof (psi_Phi W (tr (1 + j))). lia.
Qed.
Lemma cm_le W i j k : (forall j l, i <= j -> lab j = Some l -> calm (s_log (tr j)) l) -> i <= j -> j <= k -> cI W (tr j) -> cI W (tr k) /\ cm W (tr k) <= cm W (tr j).
Proof.
  intros Hc Hj Hk HI. induction Hk as [|k Hk [IH1 IH2]]; [done|]. destruct (tr_next k) as [H|(l & El & H)].
  - change (1 + k) with (Datatypes.S k) in H. by rewrite H.
  - destruct (cm_step W i k l Hc ltac:(lia) El IH1 H) as [H1 H2]. change (1 + k) with (Datatypes.S k) in *. split; [done|lia].
Qed.
(** Either one of the steps between [j] and [k] is internal, or none is. *)
Lemma search j k : j <= k -> (exists a l, j <= a < k /\ lab a = Some l /\ internal l = true) \/ (forall a l, j <= a < k -> lab a = Some l -> internal l = false).
Proof.
  intros Hk. induction Hk as [|k Hk [(a & l & Ha & H)|IH]]; [right; lia|left; exists a, l; split; [lia|done]|].
  destruct (lab k) as [l|] eqn:El; [destruct (internal l) eqn:Hi; [left; exists k, l; split; [lia|done]|]|]; right; intros a l' Ha El'; (destruct (decide (a = k)) as [-> |]; [congruence|apply (IH a); [lia|done]]).
Qed.
Lemma still_there i j k : (forall j l, i <= j -> lab j = Some l -> calm (s_log (tr j)) l) -> i <= j -> j <= k -> (forall a l, j <= a < k -> lab a = Some l -> internal l = false) -> dying (tr k) = false ->
  (forall g, g_pc <$> s_gors (tr k) !! g = g_pc <$> s_gors (tr j) !! g) /\ (s_now (tr j) <= s_now (tr k))%Z.
Proof.
  intros Hc Hj Hk. induction Hk as [|k Hk IH]; [intros _ _; split; [done|lia]|]. intros Hn Hd.
  assert (Hdk : dying (tr k) = false) by (destruct (dying (tr k)) eqn:E1; [|done]; rewrite (tr_dying k E1 (S k)) in Hd; [done|lia]).
  destruct IH as [IH1 IH2]; [intros a l Ha; apply Hn; lia|done|]. destruct (tr_next k) as [H|(l & El & H)]; change (1 + k) with (Datatypes.S k) in H; [by rewrite H|].
  assert (Hni : forall n m, l <> LInstall n m) by (intros n m ->; exact (Hc k _ ltac:(lia) El)).
  destruct (other_step E _ l _ (Hn k l ltac:(lia) El) Hni H Hd) as (H1 & H2 & _). split; [intros g; by rewrite H1|lia].
Qed.
Lemma rest_quiet s : reachable E s -> dying s = false -> (forall l, owed (s_log s) l -> step E s l = None) -> (forall g r z, s_gors s !! g = Some r -> g_pc r <> PDelay z) -> quiet s.
Proof.
  intros Hr Hd Hst Hnd g r Hg. pose proof (Hnd g r) as Hnd'. destruct (reachable_linv E s Hr) as [V L].
  assert (Hrun : s_running s = true) by (destruct (s_running s) eqn:E1; [done|]; pose proof (v_run s V) as H; rewrite E1 in H; destruct H as (_ & _ & H); congruence).
  destruct r as [n f sp x al p]. cbn in *. destruct p as [z| | | | | | |]; try done.
  - by destruct (Hnd' z Hg).
  - specialize (Hst (LStartRet g (inr ETombDying))). cbn [step] in Hst. rewrite Hg in Hst. by discriminate Hst.
  - specialize (Hst (LExpire g)). cbn [step] in Hst. rewrite Hg in Hst. by discriminate Hst.
  - specialize (Hst (LStarted g)). cbn [step] in Hst. rewrite Hg, Hrun in Hst. by discriminate Hst.
  - intros n' w' Hk. specialize (Hst (LExit g None)). cbn [step] in Hst. rewrite Hg in Hst. discriminate Hst. split; [done|]. by exists n', w'.
  - specialize (Hst (LStopped g)). cbn [step] in Hst. rewrite Hg, Hrun in Hst. by discriminate Hst.
Qed.
Lemma delayed s : (exists g r z, s_gors s !! g = Some r /\ g_pc r = PDelay z) \/ (forall g r z, s_gors s !! g = Some r -> g_pc r <> PDelay z).
Proof.
  destruct (decide (map_Forall (fun _ r => match g_pc r with PDelay _ => false | _ => true end = true) (s_gors s))) as [H|H].
  - right. intros g r z Hg Hz. specialize (H g r Hg). cbn in H. by rewrite Hz in H.
  - left. apply map_not_Forall in H as (g & r & Hg & H); [|apply _]. destruct (g_pc r) as [z| | | | | | |] eqn:E1; try done. by exists g, r, z.
Qed.

Lemma gets_quiet i : (forall j l, i <= j -> lab j = Some l -> calm (s_log (tr j)) l) -> (forall t j, exists k, j <= k /\ (t <= s_now (tr k))%Z) ->
  exists j, i <= j /\ (dying (tr j) = true \/ quiet (tr j)).
Proof.
  intros Hc Ht. destruct (pinv_exists (tr i) (reachable_inv E _ (tr_reach i))) as [W P].
  enough (forall N j, i <= j -> cI W (tr j) -> cm W (tr j) < N -> exists k, i <= k /\ (dying (tr k) = true \/ quiet (tr k))) as Hx.
  { apply (Hx (S (cm W (tr i))) i); [lia|by right|lia]. }
  induction N as [|N IH]; [lia|]. intros j Hj HI HN.
  assert (Hlow : forall a l, j <= a -> lab a = Some l -> internal l = true -> exists k, i <= k /\ (dying (tr k) = true \/ quiet (tr k))).
  { intros a l Ha El Hi. destruct (cm_le W i j a Hc Hj Ha HI) as [HIa Hla]. destruct (tr_next a) as [H|(l' & El' & H)].
    - pose proof (He a) as H'. rewrite El in H'. destruct (cm_step W i a l Hc ltac:(lia) El HIa H') as [H1 H2]. rewrite Hi in H2. apply (IH (1 + a)); [lia|done|lia].
    - rewrite El in El'. injection El' as <-. destruct (cm_step W i a l Hc ltac:(lia) El HIa H) as [H1 H2]. rewrite Hi in H2. apply (IH (1 + a)); [lia|done|lia]. }
  destruct (Hf j) as (j1 & Hj1 & [(l & El & [Hi _])|Hno]); [by apply (Hlow j1 l)|].
  destruct (dying (tr j1)) eqn:Hd1; [exists j1; split; [lia|by left]|].
  destruct (delayed (tr j1)) as [(g & r & z & Hg & Hz)|Hnd].
  2:{ exists j1. split; [lia|]. right. by apply rest_quiet; [apply tr_reach|..]. }
  destruct (Ht z j1) as (j2 & Hj2 & Hz2). destruct (Hf j2) as (j3 & Hj3 & [(l & El & [Hi _])|Hno3]); [apply (Hlow j3 l); [lia|done..]|].
  destruct (dying (tr j3)) eqn:Hd3; [exists j3; split; [lia|by left]|].
  destruct (search j1 j3 ltac:(lia)) as [(a & l & Ha & El & Hi)|Hnone]; [apply (Hlow a l); [lia|done..]|].
  assert (Hd2 : dying (tr j2) = false) by (destruct (dying (tr j2)) eqn:E1; [|done]; rewrite (tr_dying j2 E1 j3) in Hd3; [done|lia]).
  destruct (still_there i j1 j3 Hc ltac:(lia) ltac:(lia) Hnone Hd3) as [S1 _].
  destruct (still_there i j2 j3 Hc ltac:(lia) ltac:(lia) ltac:(intros a l Ha; apply Hnone; lia) Hd3) as [_ S2].
  exfalso. specialize (S1 g). rewrite Hg in S1. cbn in S1. rewrite Hz in S1. destruct (s_gors (tr j3) !! g) as [[n f sp x al p]|] eqn:Hg3; [|done]. injection S1 as ->.
  specialize (Hno3 (LDelayFire g)). cbn [step] in Hno3. rewrite Hg3 in Hno3. destruct (z <=? s_now (tr j3))%Z eqn:E1; [|lia]. by discriminate Hno3.
Qed.
Lemma converges i : (forall j l, i <= j -> lab j = Some l -> calm (s_log (tr j)) l) -> (forall t j, exists k, j <= k /\ (t <= s_now (tr k))%Z) ->
  exists j, i <= j /\ forall k, j <= k -> is_dying (s_log (tr k)) \/ converged (s_log (tr k)).
Proof.
  intros Hc Ht. destruct (gets_quiet i Hc Ht) as (j & Hj & Hq). exists j. split; [done|].
  enough (forall k, j <= k -> dying (tr k) = true \/ quiet (tr k)) as Hx.
  { intros k Hk. destruct (reachable_linv E _ (tr_reach k)) as [_ L]. destruct (dying (tr k)) eqn:Hd; [left; by apply (l_dying E _ L)|]. right.
    destruct (Hx k Hk) as [H|H]; [congruence|]. by apply (quiet_converged E); [apply tr_reach|..]. }
  intros k Hk. induction Hk as [|k Hk IH]; [done|]. destruct (dying (tr (S k))) eqn:Hd; [by left|]. right.
  assert (Hdk : dying (tr k) = false) by (destruct (dying (tr k)) eqn:E1; [|done]; rewrite (tr_dying k E1 (S k)) in Hd; [done|lia]).
  destruct IH as [H|IH]; [congruence|]. destruct (tr_next k) as [H|(l & El & H)]; change (1 + k) with (Datatypes.S k) in H; [by rewrite H|].
  apply (quiet_keeps E (tr k) l); [apply tr_reach|apply Hc; [lia|done]|done..].
Qed.
End converge.
