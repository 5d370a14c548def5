(** Workers made of workers: one that was killed can be brought to its end. *)
From stdpp Require Import gmap strings list relations.
From RecordUpdate Require Import RecordSet.
From Verif Require Import Err Tomb Tree TreeSpec TreeProofs.
From Verif Require Snapshot Engine EngineSpec EngineProgressSpec EngineLog EngineObs EngineMore EngineCallsProofs TreeEngine
  Runner RunnerSpec RunnerProgressSpec RunnerLiveSpec RunnerInv RunnerGor RunnerHist RunnerThms RunnerAnswers RunnerProgress RunnerMore RunnerLive TreeRunner
  Catacomb CatacombSpec CatacombProgressSpec CatacombInv CatacombTr CatacombLog CatacombThms CatacombMore TreeCatacomb.
Import RecordSetNotations.

(** ** One worker: it can always go on, by itself or when one of the workers it killed has finished *)
Inductive fin : node -> Prop :=
  | fin_dead nd : dead nd -> fin nd
  | fin_bad nd : crashed nd = true \/ binds_itself nd -> fin nd
  | fin_own nd l nd' : bound_to_happen nd l -> harmless l -> hands_over l = [] -> waited l = None -> nstep nd l = Some nd' -> fin nd' -> fin nd
  | fin_child nd k (L : option err -> nlabel) (N : option err -> node) : has_killed nd k = true ->
      (forall e, bound_to_happen nd (L e) /\ harmless (L e) /\ hands_over (L e) = [] /\ waited (L e) = Some (k, e) /\ nstep nd (L e) = Some (N e)) ->
      (forall e, fin (N e)) -> fin nd.

Lemma first_enabled {L S} (f : L -> option S) (ls : list L) : (forall l, l ∈ ls -> f l = None) \/ exists l s, l ∈ ls /\ f l = Some s.
Proof.
  induction ls as [|l ls IH]; [left; intros l H; by apply elem_of_nil in H|]. destruct (f l) as [s|] eqn:E; [right; exists l, s; split; [by left|done]|].
  destruct IH as [IH|(l' & s & H & H')]; [|right; exists l', s; split; [by right|done]]. left. intros l'. rewrite elem_of_cons. intros [-> |H]; auto.
Qed.
Definition gkeys {A} (m : gmap nat A) : list nat := (map_to_list m).*1.
Lemma gkeys_in {A} (m : gmap nat A) k x : m !! k = Some x -> k ∈ gkeys m.
Proof. intros H. apply elem_of_list_fmap. exists (k, x). split; [done|]. by apply elem_of_map_to_list. Qed.

(** Engine *)
Definition ecand (s : Engine.state) : list Engine.label :=
  Engine.LDying :: (gkeys (Engine.s_gors s) ≫= fun g => [Engine.LDelayFire g; Engine.LAbort g; Engine.LStartRet g (inr (EUser 0)); Engine.LExpire g;
    Engine.LStarted g; Engine.LStartedDying g; Engine.LSelfDying g; Engine.LStopped g]).
Lemma ecand_g s g r l : Engine.s_gors s !! g = Some r -> l ∈ [Engine.LDelayFire g; Engine.LAbort g; Engine.LStartRet g (inr (EUser 0)); Engine.LExpire g;
    Engine.LStarted g; Engine.LStartedDying g; Engine.LSelfDying g; Engine.LStopped g] -> l ∈ ecand s.
Proof. intros H Hl. right. apply elem_of_list_bind. exists g. split; [done|]. by eapply gkeys_in. Qed.
Lemma ecand_all E s : (forall l, l ∈ ecand s -> Engine.step E s l = None) ->
  forall l, EngineProgressSpec.owed (Engine.s_log s) l -> match l with Engine.LStartRet _ (inl _) | Engine.LExit _ _ => True | _ => Engine.step E s l = None end.
Proof.
  intros H l [Hi _]. assert (K : forall g l, Engine.s_gors s !! g = None \/ l ∈ [Engine.LDelayFire g; Engine.LAbort g; Engine.LStartRet g (inr (EUser 0)); Engine.LExpire g;
    Engine.LStarted g; Engine.LStartedDying g; Engine.LSelfDying g; Engine.LStopped g] -> Engine.s_gors s !! g = None \/ Engine.step E s l = None).
  { intros g l' [?|Hl]; [by left|]. destruct (Engine.s_gors s !! g) as [r|] eqn:Hg; [|by left]. right. apply H. by eapply ecand_g. }
  destruct l; try done; try (match goal with |- Engine.step E s ?l = None => match l with context [?x] => match type of x with nat =>
    destruct (K x l) as [Hn|?]; [right; rewrite !elem_of_cons; tauto|cbn [Engine.step]; by rewrite Hn|done] end end end).
  - apply H. by left.
  - destruct r as [w|e]; [done|]. destruct (K g (Engine.LStartRet g (inr (EUser 0)))) as [Hn|Hx]; [right; rewrite !elem_of_cons; tauto|cbn [Engine.step]; by rewrite Hn|].
    revert Hx. cbn [Engine.step]. by repeat case_match.
Qed.
Lemma ecand_owed s log l : l ∈ ecand s -> EngineProgressSpec.owed log l /\ harmless (LEngine l) /\ hands_over (LEngine l) = [] /\ waited (LEngine l) = None.
Proof.
  unfold ecand. rewrite elem_of_cons, elem_of_list_bind. intros [-> |(g & Hl & _)]; [by repeat split|]. rewrite !elem_of_cons, elem_of_nil in Hl.
  destruct Hl as [-> |[-> |[-> |[-> |[-> |[-> |[-> |[-> |[]]]]]]]]]; repeat split; by exists 0.
Qed.
Definition ebound E s N : Prop := forall ls s', Engine.run E s ls = Some s' -> EngineProgressSpec.internal_steps ls <= N.
Lemma ebound_step E s N l s1 : ebound E s N -> EngineProgressSpec.internal l = true -> Engine.step E s l = Some s1 -> exists N', N = S N' /\ ebound E s1 N'.
Proof.
  intros HN Hi Hs. destruct N as [|N'].
  - specialize (HN [l] s1). cbn [Engine.run EngineProgressSpec.internal_steps] in HN. rewrite Hs, Hi in HN. specialize (HN eq_refl). lia.
  - exists N'. split; [done|]. intros ls s' Hrun. specialize (HN (l :: ls) s'). cbn [Engine.run EngineProgressSpec.internal_steps] in HN. rewrite Hs, Hi in HN. specialize (HN Hrun). lia.
Qed.
Lemma engine_fin N : forall E s, Engine.reachable E s -> EngineSpec.is_dying (Engine.s_log s) -> ebound E s N -> fin (NEngine E s).
Proof.
  induction (lt_wf N) as [N _ IH]. intros E s Hr Hd HN.
  assert (Hnext : forall l s1, EngineProgressSpec.internal l = true -> Engine.step E s l = Some s1 -> fin (NEngine E s1)).
  { intros l s1 Hi Hs. destruct (ebound_step E s N l s1 HN Hi Hs) as (N' & -> & HN'). eapply (IH N'); [lia|by eapply EngineCallsProofs.reach_stepE| |done].
    eapply in_mono; [by eapply EngineMore.step_log|done]. }
  assert (Hns : forall l s1, Engine.step E s l = Some s1 -> nstep (NEngine E s) (LEngine l) = Some (NEngine E s1)).
  { intros l s1 Hs. unfold nstep. cbn. by rewrite Hs. }
  destruct (first_enabled (Engine.step E s) (ecand s)) as [Hno|(l & s1 & Hl & Hs)].
  - set (f := fun ev => match ev with Engine.EvKill g n (Snapshot.WExt w) => Engine.step E s (Engine.LExit g None) | _ => None end).
    destruct (first_enabled f (Engine.s_log s)) as [Hno'|(ev & s1 & Hev & Hs)].
    + apply fin_dead. apply dead_log; [exact Hr|]. apply (TreeEngine.all_done E s Hr Hd (ecand_all E s Hno)). intros g n w e Hk. specialize (Hno' _ Hk). cbn in Hno'.
      revert Hno'. cbn [Engine.step]. by repeat case_match.
    + destruct ev; try done. cbn in Hs. destruct w as [|w]; [done|].
      assert (He : forall e, exists s1, Engine.step E s (Engine.LExit g e) = Some s1) by (intros e; revert Hs; cbn [Engine.step]; repeat case_match; try done; by eexists).
      eapply (fin_child _ g (fun e => LEngine (Engine.LExit g e)) (fun e => NEngine E (default s (Engine.step E s (Engine.LExit g e))))).
      * cbn. apply bool_decide_eq_true. change (map ekill (Engine.s_log s)) with (ekill <$> Engine.s_log s). apply elem_of_list_fmap. by exists (Engine.EvKill g n (Snapshot.WExt w)).
      * intros e. destruct (He e) as [s2 H2]. rewrite H2. split; [split; [done|]; by exists n, (Snapshot.WExt w)|]. do 3 (split; [done|]). by apply Hns.
      * intros e. destruct (He e) as [s2 H2]. rewrite H2. by eapply (Hnext (Engine.LExit g e)).
  - destruct (ecand_owed s (Engine.s_log s) l Hl) as (H1 & H2 & H3 & H4). eapply (fin_own _ (LEngine l)); try done; [by apply Hns|]. eapply Hnext; [|exact Hs]. apply H1.
Qed.

(** Runner *)
Definition rcand_g (g : nat) : list Runner.label :=
  Runner.LCore <$> [Runner.KRecvStarted g; Runner.KRecvDone g; Runner.KBegin g; Runner.KFire g; Runner.KDelayAbort g; Runner.KStartRet g (inr (EUser 0)); Runner.KExit g].
Definition rcand_w (i : nat) : list Runner.label := [Runner.LWtCheck i; Runner.LWtAdd i; Runner.LWtWake i].
Definition rcand (s : Runner.state) : list Runner.label :=
  [Runner.LCore Runner.KDying; Runner.LCore Runner.KAct; Runner.LCore Runner.KReturn] ++
  (gkeys (Runner.c_gors (Runner.s_core s)) ≫= rcand_g) ++ (gkeys (Runner.s_waits s) ≫= rcand_w).
Lemma rcand_all P s : (forall l, l ∈ rcand s -> Runner.step P s l = None) ->
  forall l, RunnerProgressSpec.owed (RunnerSpec.rlog s) l -> match l with Runner.LCore (Runner.KStartRet _ (inl _)) | Runner.LCore (Runner.KEnd _ _) => True | _ => Runner.step P s l = None end.
Proof.
  intros H l [Hi _].
  assert (Kg : forall g l, l ∈ rcand_g g -> Runner.c_gors (Runner.s_core s) !! g = None \/ Runner.step P s l = None).
  { intros g l' Hl. destruct (Runner.c_gors (Runner.s_core s) !! g) as [r|] eqn:Hg; [|by left]. right. apply H. apply elem_of_app. right. apply elem_of_app. left. apply elem_of_list_bind. exists g. split; [done|]. by eapply gkeys_in. }
  assert (Kw : forall i l, l ∈ rcand_w i -> Runner.s_waits s !! i = None \/ Runner.step P s l = None).
  { intros i l' Hl. destruct (Runner.s_waits s !! i) as [r|] eqn:Hg; [|by left]. right. apply H. apply elem_of_app. right. apply elem_of_app. right. apply elem_of_list_bind. exists i. split; [done|]. by eapply gkeys_in. }
  destruct l as [l| | | | | | | | | | | | | | | | | | | | |]; try done.
  - assert (Kn : forall g l, Runner.c_gors (Runner.s_core s) !! g = None -> match l with Runner.KRecvStarted g' | Runner.KRecvDone g' | Runner.KBegin g' | Runner.KFire g' | Runner.KDelayAbort g' | Runner.KStartRet g' _ | Runner.KExit g' | Runner.KGoexit g' => g' = g | _ => False end -> Runner.step P s (Runner.LCore l) = None).
    { intros g l' Hg Hl. destruct l'; try done; subst; cbn [Runner.step Runner.own negb Runner.cstep]; by rewrite Hg. }
    destruct l; try done.
    + apply H. set_solver.
    + destruct (Kg g (Runner.LCore (Runner.KRecvStarted g))) as [Hn|?]; [unfold rcand_g; set_solver|by eapply Kn|done].
    + destruct (Kg g (Runner.LCore (Runner.KRecvDone g))) as [Hn|?]; [unfold rcand_g; set_solver|by eapply Kn|done].
    + apply H. set_solver.
    + apply H. set_solver.
    + destruct (Kg g (Runner.LCore (Runner.KBegin g))) as [Hn|?]; [unfold rcand_g; set_solver|by eapply Kn|done].
    + destruct (Kg g (Runner.LCore (Runner.KFire g))) as [Hn|?]; [unfold rcand_g; set_solver|by eapply Kn|done].
    + destruct (Kg g (Runner.LCore (Runner.KDelayAbort g))) as [Hn|?]; [unfold rcand_g; set_solver|by eapply Kn|done].
    + destruct r as [w|e]; [done|]. destruct (Kg g (Runner.LCore (Runner.KStartRet g (inr (EUser 0))))) as [Hn|Hx]; [unfold rcand_g; set_solver|by eapply Kn|].
      revert Hx. cbn [Runner.step Runner.own negb Runner.cstep]. by repeat case_match.
    + destruct (Kg g (Runner.LCore (Runner.KStartRet g (inr (EUser 0))))) as [Hn|Hx]; [unfold rcand_g; set_solver|by eapply Kn|].
      revert Hx. cbn [Runner.step Runner.own negb Runner.cstep]. by repeat case_match.
    + destruct (Kg g (Runner.LCore (Runner.KExit g))) as [Hn|?]; [unfold rcand_g; set_solver|by eapply Kn|done].
  - destruct (Kw c (Runner.LWtCheck c)) as [Hn|?]; [unfold rcand_w; set_solver|cbn; by rewrite Hn|done].
  - destruct (Kw c (Runner.LWtAdd c)) as [Hn|?]; [unfold rcand_w; set_solver|cbn; by rewrite Hn|done].
  - destruct (Kw c (Runner.LWtWake c)) as [Hn|?]; [unfold rcand_w; set_solver|cbn; by rewrite Hn|done].
Qed.
Lemma rcand_owed s log l : l ∈ rcand s -> RunnerProgressSpec.owed log l /\ harmless (LRunner l) /\ hands_over (LRunner l) = [] /\ waited (LRunner l) = None /\ RunnerProgressSpec.request l = false /\ goexit (LRunner l) = false.
Proof.
  unfold rcand. rewrite !elem_of_app, !elem_of_list_bind. intros [Hl|[(g & Hl & _)|(i & Hl & _)]].
  - rewrite !elem_of_cons, elem_of_nil in Hl. destruct Hl as [-> |[-> |[-> |[]]]]; by repeat split.
  - unfold rcand_g in Hl. cbn [fmap list_fmap] in Hl. rewrite !elem_of_cons, elem_of_nil in Hl. destruct Hl as [-> |[-> |[-> |[-> |[-> |[-> |[-> |[]]]]]]]]; repeat split; by exists 0.
  - unfold rcand_w in Hl. rewrite !elem_of_cons, elem_of_nil in Hl. destruct Hl as [-> |[-> |[-> |[]]]]; by repeat split.
Qed.
Definition rbound P s N : Prop := forall ls s', Runner.run P s ls = Some s' -> (forall l, l ∈ ls -> RunnerProgressSpec.request l = false) -> RunnerProgressSpec.internal_steps ls <= N.
Lemma rbound_step P s N l s1 : rbound P s N -> RunnerProgressSpec.internal l = true -> RunnerProgressSpec.request l = false -> Runner.step P s l = Some s1 -> exists N', N = S N' /\ rbound P s1 N'.
Proof.
  intros HN Hi Hq Hs. destruct N as [|N'].
  - specialize (HN [l] s1). cbn [Runner.run RunnerProgressSpec.internal_steps] in HN. rewrite Hs, Hi in HN. specialize (HN eq_refl). assert (1 + 0 <= 0); [|lia]. apply HN. intros l'. rewrite elem_of_list_singleton. by intros ->.
  - exists N'. split; [done|]. intros ls s' Hrun Hls. specialize (HN (l :: ls) s'). cbn [Runner.run RunnerProgressSpec.internal_steps] in HN. rewrite Hs, Hi in HN. specialize (HN Hrun).
    assert (1 + RunnerProgressSpec.internal_steps ls <= S N'); [|lia]. apply HN. intros l'. rewrite elem_of_cons. intros [-> |?]; auto.
Qed.
Lemma runner_ok P s l s1 : node_ok (NRunner P s) -> goexit (LRunner l) = false -> Runner.step P s l = Some s1 ->
  nstep (NRunner P s) (LRunner l) = Some (NRunner P s1) /\ node_ok (NRunner P s1).
Proof.
  intros Hok Hg Hs. assert (H : nstep (NRunner P s) (LRunner l) = Some (NRunner P s1)) by (unfold nstep; rewrite Hg; by rewrite Hs).
  split; [done|]. by apply (nstep_ok _ _ _ Hok H).
Qed.
Lemma runner_fin2 N : forall P s, node_ok (NRunner P s) -> Runner.EvKilled ∈ RunnerSpec.rlog s -> rbound P s N -> fin (NRunner P s).
Proof.
  induction (lt_wf N) as [N _ IH]. intros P s Hok Hd HN.
  assert (Hnext : forall l s1, RunnerProgressSpec.internal l = true -> RunnerProgressSpec.request l = false -> goexit (LRunner l) = false -> Runner.step P s l = Some s1 -> fin (NRunner P s1)).
  { intros l s1 Hi Hq Hg Hs. destruct (rbound_step P s N l s1 HN Hi Hq Hs) as (N' & -> & HN'). eapply (IH N'); [lia|by eapply runner_ok| |done].
    eapply in_mono; [by eapply TreeRunner.rlog_step|done]. }
  destruct (crashed (NRunner P s)) eqn:Hcr; [apply fin_bad; by left|].
  destruct (first_enabled (Runner.step P s) (rcand s)) as [Hno|(l & s1 & Hl & Hs)].
  - set (f := fun ev => match ev with Runner.EvKill g id w => Runner.step P s (Runner.LCore (Runner.KEnd g None)) | _ => None end).
    destruct (first_enabled f (RunnerSpec.rlog s)) as [Hno'|(ev & s1 & Hev & Hs)].
    + apply fin_dead. apply dead_log; [exact Hok|]. destruct Hok as (ls & Hrun & Hlost). apply (TreeRunner.all_done P s ls Hrun Hlost (or_introl Hd) Hcr (rcand_all P s Hno)). intros g id w e Hk. specialize (Hno' _ Hk). cbn in Hno'.
      revert Hno'. cbn [Runner.step Runner.own negb Runner.cstep]. by repeat case_match.
    + destruct ev; try done. unfold f in Hs.
      assert (He : forall e, exists s1, Runner.step P s (Runner.LCore (Runner.KEnd g e)) = Some s1) by (intros e; revert Hs; cbn [Runner.step Runner.own negb Runner.cstep]; repeat case_match; try done; by eexists).
      eapply (fin_child _ g (fun e => LRunner (Runner.LCore (Runner.KEnd g e))) (fun e => NRunner P (default s (Runner.step P s (Runner.LCore (Runner.KEnd g e)))))).
      * cbn. apply bool_decide_eq_true. change (map rkill (Runner.c_log (Runner.s_core s))) with (rkill <$> Runner.c_log (Runner.s_core s)). apply elem_of_list_fmap. by exists (Runner.EvKill g id w).
      * intros e. destruct (He e) as [s2 H2]. rewrite H2. split; [split; [done|]; by exists id, w|]. do 3 (split; [done|]). by apply runner_ok.
      * intros e. destruct (He e) as [s2 H2]. rewrite H2. by eapply (Hnext (Runner.LCore (Runner.KEnd g e))).
  - destruct (rcand_owed s (RunnerSpec.rlog s) l Hl) as (H1 & H2 & H3 & H4 & H5 & H6). eapply (fin_own _ (LRunner l)); try done; [by apply runner_ok|]. eapply Hnext; [|exact H5|exact H6|exact Hs]. apply H1.
Qed.
Lemma runner_fin1 N : forall P s, node_ok (NRunner P s) -> Runner.EvKilled ∈ RunnerSpec.rlog s -> RunnerLive.vmeasure s < N -> fin (NRunner P s).
Proof.
  induction N as [|N IH]; [lia|]. intros P s Hok Hk HN. pose proof (ok_runner P s Hok) as Hr.
  destruct (RunnerAnswers.stop_dec (RunnerSpec.rlog s)) as [Hst|Hst].
  { destruct (RunnerMore.shutdown_finite P s Hr Hst) as [M HM]. by apply (runner_fin2 M). }
  assert (Hstep : forall l s1, RunnerLiveSpec.works l = true -> RunnerProgressSpec.owed (RunnerSpec.rlog s) l -> harmless (LRunner l) -> hands_over (LRunner l) = [] -> waited (LRunner l) = None ->
    goexit (LRunner l) = false -> Runner.step P s l = Some s1 -> fin (NRunner P s)).
  { intros l s1 Hw Ho Hh Hha Hwa Hg Hs. destruct (runner_ok P s l s1 Hok Hg Hs) as [H1 H2]. eapply (fin_own _ (LRunner l)); try done. apply IH; [done| |].
    - eapply in_mono; [by eapply TreeRunner.rlog_step|done].
    - pose proof (RunnerLive.works_less P s l s1 Hr Hw Hs). lia. }
  assert (Hi : RunnerSpec.idle s \/ ~ RunnerSpec.idle s).
  { unfold RunnerSpec.idle. destruct (Runner.c_loop (Runner.s_core s)); first [left; by left | left; by right | right; by intros [?|?]]. }
  destruct Hi as [Hi|Hi].
  - destruct (RunnerProgress.killed_enabled P s Hr Hk Hst Hi) as (s1 & Hs & _). refine (Hstep _ _ _ _ _ _ _ _ Hs); by repeat split.
  - destruct (RunnerProgress.busy_enabled P s Hr Hi) as [[s1 Hs]|(i & [[s1 Hs]|[s1 Hs]])]; refine (Hstep _ _ _ _ _ _ _ _ Hs); by repeat split.
Qed.

(** Catacomb *)
Definition csecond (s : Catacomb.state) : nat :=
  (match Catacomb.x_work s with Catacomb.WkRun => 1 | _ => 0 end) +
  length (filter (fun k => Catacomb.x_ended s !! k = None) (omap ckill (Catacomb.x_log s))).
Lemma filter_less (l : list nat) (m : gmap nat (option err)) k e : k ∈ l -> m !! k = None ->
  length (filter (fun j => <[k := e]> m !! j = None) l) < length (filter (fun j => m !! j = None) l).
Proof.
  intros Hin Hm. assert (Hk : <[k := e]> m !! k <> None) by (by rewrite lookup_insert).
  assert (Hne : forall j, j <> k -> <[k := e]> m !! j = m !! j) by (intros j Hj; by apply lookup_insert_ne).
  assert (Hle : forall l, length (filter (fun j => <[k := e]> m !! j = None) l) <= length (filter (fun j => m !! j = None) l)).
  { intros l0. induction l0 as [|j l0 IHl]; [done|]. rewrite !filter_cons. destruct (decide (<[k := e]> m !! j = None)) as [Hj|Hj]; destruct (decide (m !! j = None)) as [Hj'|Hj']; cbn; try lia.
    destruct (decide (j = k)) as [-> |Hjk]; [done|]. by rewrite Hne in Hj. }
  induction l as [|j l0 IHl]; [by apply elem_of_nil in Hin|]. rewrite !filter_cons. destruct (decide (j = k)) as [-> |Hjk].
  - destruct (decide (<[k := e]> m !! k = None)) as [Hj|Hj]; [done|]. destruct (decide (m !! k = None)) as [Hj'|Hj']; [|done]. cbn. specialize (Hle l0). lia.
  - rewrite elem_of_cons in Hin. destruct Hin as [?|Hin]; [congruence|]. specialize (IHl Hin).
    destruct (decide (<[k := e]> m !! j = None)) as [Hj|Hj]; destruct (decide (m !! j = None)) as [Hj'|Hj']; cbn; try lia. by rewrite Hne in Hj.
Qed.
Lemma self_dec (log : list Catacomb.event) : (exists b, Catacomb.EvBind b Catacomb.WSelf ∈ log) \/ forall b, ~ Catacomb.EvBind b Catacomb.WSelf ∈ log.
Proof.
  induction log as [|ev log IH]; [right; intros b H; by apply elem_of_nil in H|]. destruct IH as [[b H]|IH]; [left; exists b; by right|].
  destruct ev; try (right; intros b' H; rewrite elem_of_cons in H; destruct H as [H|H]; [done|by apply (IH b')]).
  destruct w; [right; intros b' H; rewrite elem_of_cons in H; destruct H as [H|H]; [done|by apply (IH b')]|]. left. eexists. by left.
Qed.
Lemma catacomb_fin N : forall M me s, node_ok (NCatacomb me s) -> ready (NCatacomb me s) = true -> CatacombSpec.is_dying (Catacomb.x_log s) ->
  CatacombProgress.budget s < N -> csecond s < M -> fin (NCatacomb me s).
Proof.
  induction N as [|N IHN]; [lia|]. induction M as [|M IHM]; [lia|]. intros me s Hok Hrd Hdy HN HM. pose proof Hok as [Hr Hx].
  destruct (crashed (NCatacomb me s)) eqn:Hcr; [apply fin_bad; by left|].
  destruct (self_dec (Catacomb.x_log s)) as [Hself|Hself]; [apply fin_bad; by right|].
  assert (Hs1 : forall l s1, goexit (LCatacomb l) = false -> CatacombProgressSpec.request l = false -> Catacomb.step me s l = Some s1 ->
    nstep (NCatacomb me s) (LCatacomb l) = Some (NCatacomb me s1) /\ node_ok (NCatacomb me s1) /\ ready (NCatacomb me s1) = true /\ CatacombSpec.is_dying (Catacomb.x_log s1) /\
    (if CatacombProgressSpec.foreign l then CatacombProgress.budget s1 <= CatacombProgress.budget s else S (CatacombProgress.budget s1) <= CatacombProgress.budget s)).
  { intros l s1 Hg Hq Hs. assert (H : nstep (NCatacomb me s) (LCatacomb l) = Some (NCatacomb me s1)) by (unfold nstep; rewrite Hg; by rewrite Hs).
    destruct (nstep_ok _ _ _ Hok H) as (H1 & (_ & _ & H2) & _). split; [done|]. split; [done|]. split; [by apply H2|]. split.
    - destruct Hdy as (src & e & Hdy). exists src, e. by eapply TreeCatacomb.step_log.
    - destruct (CatacombTr.step_tr me s l s1 (CatacombInv.reach_cinv me s Hr) Hs) as [_ Ht]. by apply (CatacombProgress.budget_step me s l s1 (CatacombInv.reach_cinv me s Hr) Ht Hq). }
  destruct (CatacombMore.rest_or_step me s (CatacombInv.reach_cinv me s Hr)) as [Hrest|(l & s1 & Hi & Hs)].
  2:{ assert (Hq : CatacombProgressSpec.request l = false /\ CatacombProgressSpec.foreign l = false) by (unfold CatacombProgressSpec.internal in Hi; apply andb_prop in Hi as [H1 H2]; split; [by destruct (CatacombProgressSpec.request l)|by destruct (CatacombProgressSpec.foreign l)]).
      destruct Hq as [Hq Hf]. destruct (Hs1 l s1 ltac:(by destruct l) Hq Hs) as (H1 & H2 & H3 & H4 & H5). rewrite Hf in H5.
      eapply (fin_own _ (LCatacomb l)); [cbn; by destruct l|by destruct l|by destruct l|by destruct l|exact H1|]. apply (IHN (S (csecond s1))); try done; lia. }
  destruct (Catacomb.step me s (Catacomb.LWorkRet (Catacomb.WkReturn None))) as [s1|] eqn:Hw.
  { destruct (Hs1 (Catacomb.LWorkRet (Catacomb.WkReturn None)) s1 eq_refl eq_refl Hw) as (H1 & H2 & H3 & H4 & H5). cbn in H5.
    eapply (fin_own _ (LCatacomb (Catacomb.LWorkRet (Catacomb.WkReturn None)))); try done. apply IHM; try done; [lia|].
    assert (csecond s1 < csecond s); [|lia]. revert Hw. unfold Catacomb.step, csecond. cbn in Hcr. rewrite Hcr. cbn [Catacomb.step1]. destruct (Catacomb.x_work s); try done. cbn [Catacomb.honest]. intros [= <-]. cbn. lia. }
  set (f := fun ev => match ev with Catacomb.EvWKill _ (Catacomb.WExt k) => Catacomb.step me s (Catacomb.LEnd k None) | _ => None end).
  destruct (first_enabled f (Catacomb.x_log s)) as [Hno|(ev & s1 & Hev & Hs)].
  - apply fin_dead. apply dead_log; [exact Hok|]. apply (TreeCatacomb.all_done me s Hr Hx Hcr); [by apply (ready_work me s)|done..|]. intros who k Hk. apply (Hno _ Hk).
  - assert (Hw' : exists who k, ev = Catacomb.EvWKill who (Catacomb.WExt k)) by (destruct ev; try done; destruct w; try done; by eexists _, _). destruct Hw' as (who & k & ->). unfold f in Hs.
    assert (Hd : t_dying (Catacomb.x_tomb s) = true) by (by apply (CatacombLog.l_dying me s Hr)).
    assert (He : forall e, exists s1, Catacomb.step me s (Catacomb.LEnd k e) = Some s1 /\ csecond s1 < csecond s).
    { intros e. revert Hs. unfold Catacomb.step. cbn in Hcr. rewrite Hcr. cbn [Catacomb.step1]. destruct (Catacomb.x_ended s !! k) eqn:Ek; [done|]. intros _.
      assert (Hh : Catacomb.honest me e s = true) by (unfold Catacomb.honest; rewrite Hd; by destruct e). rewrite Hh. eexists. split; [done|]. unfold csecond. cbn.
      apply Nat.add_lt_mono_l. apply filter_less; [|done]. apply elem_of_list_omap. by exists (Catacomb.EvWKill who (Catacomb.WExt k)). }
    eapply (fin_child _ k (fun e => LCatacomb (Catacomb.LEnd k e)) (fun e => NCatacomb me (default s (Catacomb.step me s (Catacomb.LEnd k e))))).
    + cbn. apply bool_decide_eq_true. change (map ckill (Catacomb.x_log s)) with (ckill <$> Catacomb.x_log s). apply elem_of_list_fmap. by exists (Catacomb.EvWKill who (Catacomb.WExt k)).
    + intros e. destruct (He e) as (s2 & H2 & _). rewrite H2. split; [by exists who|]. do 3 (split; [done|]). by apply Hs1.
    + intros e. destruct (He e) as (s2 & H2 & H3). rewrite H2. change (default s (Some s2)) with s2. destruct (Hs1 (Catacomb.LEnd k e) s2 eq_refl eq_refl H2) as (K1 & K2 & K3 & K4 & K5). cbn [CatacombProgressSpec.foreign] in K5. apply IHM; try done; lia.
Qed.

Lemma fin_of nd : node_ok nd -> ready nd = true -> killed nd -> fin nd.
Proof.
  intros Hok Hrd Hk. destruct nd as [E s|P s|me s|k f]; cbn in Hk.
  - destruct (EngineMore.shutdown_terminates E s Hok Hk) as [N HN]. apply (engine_fin N E s Hok Hk). unfold ebound. intros ls s1 H. exact (proj1 (HN ls s1 H)).
  - by apply (runner_fin1 (S (RunnerLive.vmeasure s))); [..|lia].
  - by apply (catacomb_fin (S (CatacombProgress.budget s)) (S (csecond s))); [..|lia|lia].
  - destruct f as [e|]; [apply fin_dead; by eexists|]. apply (fin_own _ (LPlain None) (NPlain k (Some None))); try done. apply fin_dead. by eexists.
Qed.

(** ** All of them *)
Lemma told_killed nd : node_ok nd -> told nd -> crashed nd = false -> killed nd \/ dead nd.
Proof.
  intros Hok Ht Hc. destruct nd as [E s|P s|me s|kd f]; cbn in *; auto.
  - destruct Ht as [?|Ht]; [auto|]. right. by apply (dead_log (NRunner P s) Hok).
  - destruct Ht as [?|Ht]; [auto|congruence].
Qed.
Lemma now_killed_link F n old new c : now_killed F n old new c = true -> exists k, f_link F !! (n, k) = Some c.
Proof.
  unfold now_killed. rewrite existsb_exists. intros ([[n' k] c'] & Hin & H). cbn in H. rewrite !andb_true_iff in H. destruct H as [[[H1 H2] _] _].
  apply bool_decide_eq_true in H1, H2. subst. exists k. apply elem_of_list_In in Hin. by apply elem_of_map_to_list in Hin.
Qed.
Definition ranked (rank : nat -> nat) (F : forest) : Prop := forall n k c, f_link F !! (n, k) = Some c -> rank c < rank n.
Lemma step_at rank F n nd l nd' : ranked rank F -> f_nodes F !! n = Some nd -> hands_over l = [] ->
  (forall k e, waited l = Some (k, e) -> exists c ndc, f_link F !! (n, k) = Some c /\ f_nodes F !! c = Some ndc /\ nwait ndc = Some e) -> nstep nd l = Some nd' ->
  exists F', fstep F (FStep n l []) = Some F' /\ f_link F' = f_link F /\ f_nodes F' !! n = Some nd' /\ forall m, rank n < rank m -> f_nodes F' !! m = f_nodes F !! m.
Proof.
  intros Hrk Hn Hh Hw Hs. cbn [fstep]. rewrite Hn, Hh, Hs. cbn [length zip zip_with add_links]. rewrite bool_decide_eq_true_2 by done. cbn [negb].
  assert (Hg : match waited l with Some (k, e) => match f_link F !! (n, k) with Some c => bool_decide (f_nodes F !! c ≫= nwait = Some e) | None => false end | None => true end = true).
  { destruct (waited l) as [[k e]|]; [|done]. destruct (Hw k e eq_refl) as (c & ndc & -> & -> & H). cbn. rewrite H. by apply bool_decide_eq_true. }
  rewrite Hg. cbn [negb]. eexists. split; [done|]. split; [done|].
  assert (Hm : forall m, rank n <= rank m -> now_killed (F <| f_nodes ::= <[n := nd']> |>) n nd nd' m = false).
  { intros m Hle. destruct (now_killed _ n nd nd' m) eqn:E; [|done]. apply now_killed_link in E as [k E]. cbn in E. apply Hrk in E. lia. }
  split.
  - unfold pass_kills. cbn. rewrite map_lookup_imap, lookup_insert. cbn. by rewrite Hm.
  - intros m Hlt. unfold pass_kills. cbn. rewrite map_lookup_imap, lookup_insert_ne by (intros ->; lia). destruct (f_nodes F !! m); cbn; [|done]. by rewrite Hm by lia.
Qed.
Lemma frun_snoc ls : forall F F1 l F2, frun F ls = Some F1 -> fstep F1 l = Some F2 -> frun F (ls ++ [l]) = Some F2.
Proof.
  induction ls as [|l' ls IH]; intros F F1 l F2 H1 H2; cbn in *; [injection H1 as ->; by rewrite H2|]. destruct (fstep F l'); [|done]. by eapply IH.
Qed.
Lemma freach_step F n l cs F' : freachable F -> fstep F (FStep n l cs) = Some F' -> freachable F'.
Proof.
  intros (ls & Hok & Hrun) Hs. exists (ls ++ [FStep n l cs]). split; [|by eapply frun_snoc]. apply Forall_app. split; [done|]. by constructor.
Qed.
Lemma winds_app ls1 : forall ls2 F F1 F2 n, winds_down F n ls1 F1 -> winds_down F1 n ls2 F2 -> winds_down F n (ls1 ++ ls2) F2.
Proof.
  induction ls1 as [|l ls1 IH]; intros ls2 F F1 F2 n H1 H2; cbn in *; [by subst|]. destruct H1 as (H & F0 & H0 & H1). split; [done|]. exists F0. split; [done|]. by eapply IH.
Qed.
Lemma below_link F F' n m : f_link F' = f_link F -> below F n m -> below F' n m.
Proof. intros H Hb. unfold below in *. by rewrite H. Qed.
Lemma winds_link ls : forall F n F', winds_down F n ls F' -> f_link F' = f_link F.
Proof.
  induction ls as [|l ls IH]; intros F n F' H; cbn in H; [by subst|]. destruct H as ((m & nd & x & -> & _) & F1 & Hs & H). rewrite (IH _ _ _ H).
  cbn [fstep] in Hs. destruct (f_nodes F !! m) as [nd'|]; [|done]. destruct (negb _) eqn:Hh; [done|]. destruct (negb _) in Hs; [done|]. destruct (nstep nd' x); [|done].
  apply negb_false_iff, bool_decide_eq_true in Hh. cbn in Hh. destruct (hands_over x); [|done]. cbn in Hs. by injection Hs as <-.
Qed.
Lemma winds_up ls : forall F n c F', below F n c -> winds_down F c ls F' -> winds_down F n ls F'.
Proof.
  induction ls as [|l ls IH]; intros F n c F' Hb H; cbn in *; [done|]. destruct H as (Hl & F1 & Hs & H). split.
  - destruct Hl as (m & nd & x & -> & H1 & H2). exists m, nd, x. split; [done|]. split; [by etrans|done].
  - exists F1. split; [done|]. eapply (IH F1 n c); [|done]. eapply below_link; [|done].
    assert (Hw : winds_down F c [l] F1) by (cbn; split; [done|]; by exists F1). by apply winds_link in Hw.
Qed.
Definition over (F : forest) (n : nat) : Prop := (exists nd, f_nodes F !! n = Some nd /\ dead nd) \/ ~ sound F n.
Lemma unsound_up F n c : below F n c -> ~ sound F c -> ~ sound F n.
Proof. intros Hb H Hs. apply H. intros m nd Hm. apply Hs. by etrans. Qed.

Lemma wind rank r : forall n F nd, rank n = r -> freachable F -> ranked rank F -> f_nodes F !! n = Some nd -> fin nd ->
  exists ls F', winds_down F n ls F' /\ freachable F' /\ (forall m, rank n < rank m -> f_nodes F' !! m = f_nodes F !! m) /\ over F' n.
Proof.
  induction (lt_wf r) as [r _ IH]. intros n F nd Er Hr Hrk Hn Hfin. revert F Hr Hrk Hn.
  induction Hfin as [nd Hd|nd Hbad|nd l nd' Hb Hh Hha Hwa Hs Hfin IHf|nd k L N Hk HL Hfin IHf]; intros F Hr Hrk Hn.
  - exists [], F. do 3 (split; [done|]). left. by exists nd.
  - exists [], F. do 3 (split; [done|]). right. intros Hsd. destruct (Hsd n nd (rtc_refl _ _) Hn) as [H1 H2]. destruct Hbad as [H|H]; [congruence|done].
  - destruct (step_at rank F n nd l nd' Hrk Hn Hha ltac:(intros k e; by rewrite Hwa) Hs) as (F1 & H1 & H2 & H3 & H4).
    destruct (IHf F1) as (ls & F' & K1 & K2 & K3 & K4); [by eapply freach_step|unfold ranked; by rewrite H2|done|].
    exists (FStep n l [] :: ls), F'. split; [|split; [done|split; [|done]]].
    + cbn. split; [|by exists F1]. exists n, nd, l. split; [done|]. split; [apply rtc_refl|done].
    + intros m Hm. rewrite K3 by done. by apply H4.
  - pose proof (finv_reach F Hr) as V. pose proof (v_ok F V _ _ Hn) as Hok.
    destruct (v_known F V n nd k Hn (killed_known nd k Hok Hk)) as [c Hl]. destruct (v_link F V _ _ _ Hl) as (_ & ndc & Hndc & Hrdc).
    pose proof (v_killed F V _ _ _ _ _ Hn Hk Hl Hndc) as Ht. pose proof (v_ok F V _ _ Hndc) as Hokc. pose proof (Hrk _ _ _ Hl) as Hlt.
    assert (Hbc : below F n c) by (apply rtc_once; by exists k).
    assert (Hc : exists ls F', winds_down F c ls F' /\ freachable F' /\ (forall m, rank c < rank m -> f_nodes F' !! m = f_nodes F !! m) /\ over F' c).
    { destruct (crashed ndc) eqn:Hcr.
      - exists [], F. do 3 (split; [done|]). right. intros Hsd. destruct (Hsd c ndc (rtc_refl _ _) Hndc) as [H1 _]. congruence.
      - destruct (told_killed ndc Hokc Ht Hcr) as [Hkc|Hd]; [|exists [], F; do 3 (split; [done|]); left; by exists ndc].
        eapply (IH (rank c)); eauto; [lia|]. by apply fin_of. }
    destruct Hc as (ls & F1 & W1 & R1 & U1 & O1). pose proof (winds_link _ _ _ _ W1) as HL1.
    assert (Hn1 : f_nodes F1 !! n = Some nd) by (by rewrite U1).
    destruct O1 as [(ndc' & Hc1 & [e He])|Hns].
    2:{ exists ls, F1. split; [by eapply winds_up|]. split; [done|]. split; [intros m Hm; apply U1; lia|]. right. eapply unsound_up; [|done]. by eapply below_link. }
    destruct (HL e) as (B1 & B2 & B3 & B4 & B5).
    destruct (step_at rank F1 n nd (L e) (N e)) as (F2 & H1 & H2 & H3 & H4); [unfold ranked; by rewrite HL1|done|done| |done|].
    { intros k' e'. rewrite B4. intros [= <- <-]. exists c, ndc'. split; [by rewrite HL1|done]. }
    destruct (IHf e F2) as (ls' & F' & K1 & K2 & K3 & K4); [by eapply freach_step|unfold ranked; by rewrite H2, HL1|done|].
    exists (ls ++ FStep n (L e) [] :: ls'), F'. split; [|split; [done|split; [|done]]].
    + eapply winds_app; [by eapply winds_up|]. cbn. split; [|by exists F2]. exists n, nd, (L e). split; [done|]. split; [apply rtc_refl|done].
    + intros m Hm. rewrite K3, H4 by done. apply U1. lia.
Qed.
Lemma can_finish F n nd : freachable F -> acyclic F -> f_nodes F !! n = Some nd -> ready nd = true -> killed nd ->
  exists ls F', winds_down F n ls F' /\ ((exists nd', f_nodes F' !! n = Some nd' /\ dead nd') \/ ~ sound F' n).
Proof.
  intros Hr [rank Hrk] Hn Hrd Hk. pose proof (finv_reach F Hr) as V. destruct (wind rank (rank n) n F nd eq_refl Hr Hrk Hn) as (ls & F' & H1 & _ & _ & H2).
  - apply fin_of; [by eapply v_ok|done..].
  - by exists ls, F'.
Qed.
Lemma kill_kills F n F' nd' : freachable F -> fstep F (FKill n) = Some F' -> f_nodes F' !! n = Some nd' -> crashed nd' = false -> killed nd' \/ dead nd'.
Proof.
  intros Hr Hs Hn Hc. pose proof (finv_reach F Hr) as V. cbn in Hs. destruct (f_nodes F !! n) as [nd|] eqn:E; [|done]. injection Hs as <-. cbn in Hn. rewrite lookup_insert in Hn. injection Hn as <-.
  destruct (nkill_ok nd (v_ok F V _ _ E)) as (H1 & _ & H2 & _). by apply told_killed.
Qed.
Lemma kill_passed' F n nd k c ndc : freachable F -> f_nodes F !! n = Some nd -> has_killed nd k = true -> f_link F !! (n, k) = Some c -> f_nodes F !! c = Some ndc -> crashed ndc = false ->
  killed ndc \/ dead ndc.
Proof. intros Hr Hn Hk Hl Hc Hcr. pose proof (finv_reach F Hr) as V. apply told_killed; [by eapply v_ok|exact (v_killed F V n nd k c ndc Hn Hk Hl Hc)|done]. Qed.
Lemma killed_dying nd : killed nd -> dying nd.
Proof. destruct nd; cbn; auto. Qed.
Lemma kill_tells2 F n F' nd' : freachable F -> fstep F (FKill n) = Some F' -> f_nodes F' !! n = Some nd' -> crashed nd' = false -> (killed nd' /\ dying nd') \/ dead nd'.
Proof. intros H1 H2 H3 H4. destruct (kill_kills F n F' nd' H1 H2 H3 H4); [left; split; [done|]; by apply killed_dying|by right]. Qed.
Lemma kill_passed2 F n nd k c ndc : freachable F -> f_nodes F !! n = Some nd -> has_killed nd k = true -> f_link F !! (n, k) = Some c -> f_nodes F !! c = Some ndc -> crashed ndc = false ->
  (killed ndc /\ dying ndc) \/ dead ndc.
Proof. intros H1 H2 H3 H4 H5 H6. destruct (kill_passed' F n nd k c ndc H1 H2 H3 H4 H5 H6); [left; split; [done|]; by apply killed_dying|by right]. Qed.
