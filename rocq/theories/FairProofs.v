(** Infinite executions: shutdown comes to its end (C80). *)
From stdpp Require Import gmap strings list.
From Verif Require Import Err Tomb FairSpec.
From Verif Require Engine EngineSpec EngineProgressSpec EngineLog EngineProgress EngineMore
  Runner RunnerSpec RunnerProgressSpec RunnerInv RunnerHist RunnerThms RunnerCalls RunnerProgress RunnerLive TreeRunner
  Catacomb CatacombSpec CatacombProgressSpec CatacombInv CatacombTr CatacombLog CatacombProgress CatacombThms CatacombMore TreeCatacomb.

Lemma exec_inv {S L} (step : S -> L -> option S) tr lab (I : S -> Prop) : execution step tr lab -> forall i, I (tr i) ->
  (forall j l, i <= j -> lab j = Some l -> I (tr j) -> step (tr j) l = Some (tr (1 + j)) -> I (tr (1 + j))) -> forall j, i <= j -> I (tr j).
Proof.
  intros He i Hi Hs j Hj. induction Hj as [|j Hj IH]; [done|]. specialize (He j). destruct (lab j) as [l|] eqn:El; [by eapply Hs|]. change (1 + j) with (Datatypes.S j) in He. by rewrite He.
Qed.

(** A measure that never grows and goes down with the steps that are due: in the end none of these is possible. *)
Lemma settles_wf {S L A} (R : A -> A -> Prop) (step : S -> L -> option S) (due : S -> L -> Prop) (I : S -> Prop) (m : S -> A) tr lab i :
  wf R -> Transitive R -> execution step tr lab -> not_starved step due tr lab -> I (tr i) ->
  (forall j l, i <= j -> lab j = Some l -> I (tr j) -> step (tr j) l = Some (tr (1 + j)) -> I (tr (1 + j)) /\ (m (tr (1 + j)) = m (tr j) \/ R (m (tr (1 + j))) (m (tr j))) /\ (due (tr j) l -> R (m (tr (1 + j))) (m (tr j)))) ->
  exists j, i <= j /\ I (tr j) /\ forall l, due (tr j) l -> step (tr j) l = None.
Proof.
  intros Hwf HT He Hf HI Hs. remember (m (tr i)) as n eqn:En. revert i En HI Hs. induction (Hwf n) as [n _ IH]. intros i -> HI Hs.
  assert (Hinv : forall j, i <= j -> I (tr j) /\ (m (tr j) = m (tr i) \/ R (m (tr j)) (m (tr i)))).
  { intros j Hj. induction Hj as [|j Hj [IHI IHm]]; [by auto|]. pose proof (He j) as Hej. destruct (lab j) as [l|] eqn:El.
    - destruct (Hs j l Hj El IHI Hej) as (H1 & H2 & _). split; [done|]. change (1 + j) with (Datatypes.S j) in H2.
      destruct H2 as [-> |H2]; [done|]. right. destruct IHm as [<- |IHm]; [done|]. by etransitivity.
    - change (1 + j) with (Datatypes.S j) in Hej. by rewrite Hej. }
  destruct (Hf i) as (j & Hj & [(l & El & Hd)|Hno]); [|exists j; split; [done|]; split; [by apply Hinv|done]].
  destruct (Hinv j Hj) as [HIj Hmj]. pose proof (He j) as Hej. rewrite El in Hej. destruct (Hs j l Hj El HIj Hej) as (H1 & H2 & H3). specialize (H3 Hd).
  assert (R (m (tr (1 + j))) (m (tr i))) as Hlt by (destruct Hmj as [<- |Hmj]; [done|by etransitivity]).
  destruct (IH _ Hlt (1 + j) eq_refl H1) as (k & Hk & H4); [|exists k; split; [lia|done]]. intros j' l' Hj' El'. apply Hs; [lia|done].
Qed.
Lemma settles {S L} (step : S -> L -> option S) (due : S -> L -> Prop) (I : S -> Prop) (m : S -> nat) tr lab i : execution step tr lab -> not_starved step due tr lab ->
  I (tr i) ->
  (forall j l, i <= j -> lab j = Some l -> I (tr j) -> step (tr j) l = Some (tr (1 + j)) -> I (tr (1 + j)) /\ m (tr (1 + j)) <= m (tr j) /\ (due (tr j) l -> m (tr (1 + j)) < m (tr j))) ->
  exists j, i <= j /\ I (tr j) /\ forall l, due (tr j) l -> step (tr j) l = None.
Proof.
  intros He Hf HI Hs. apply (settles_wf lt step due I m tr lab i lt_wf); [intros x y z; lia|exact He|exact Hf|exact HI|].
  intros j l Hj El HIj Hst. destruct (Hs j l Hj El HIj Hst) as (H1 & H2 & H3). split; [done|]. split; [lia|done].
Qed.
(** First one number goes down, then the other. *)
Definition lexlt (x y : nat * nat) : Prop := x.1 < y.1 \/ (x.1 = y.1 /\ x.2 < y.2).
Lemma lexlt_wf : wf lexlt.
Proof.
  intros [a b]. revert b. induction (lt_wf a) as [a _ IHa]. intros b. induction (lt_wf b) as [b _ IHb]. constructor. intros [a' b'] [H|[H1 H2]]; cbn in *; [by apply IHa|]. subst. by apply IHb.
Qed.
Global Instance lexlt_trans : Transitive lexlt.
Proof. intros x y z. unfold lexlt. lia. Qed.

(** ** Engine *)
Lemma engine_dies E tr lab i : Engine.reachable E (tr 0) -> execution (Engine.step E) tr lab ->
  not_starved (Engine.step E) (fun s => EngineProgressSpec.owed (Engine.s_log s)) tr lab ->
  EngineSpec.is_dying (Engine.s_log (tr i)) -> exists j, i <= j /\ Engine.EvDead ∈ Engine.s_log (tr j).
Proof.
  intros Hr He Hf Hd.
  assert (Hra : forall j, Engine.reachable E (tr j)).
  { intros j. apply (exec_inv _ tr lab (Engine.reachable E) He 0 Hr); [|lia]. intros j' l _ _ H Hs. by eapply EngineProgress.reachable_step. }
  destruct (settles (Engine.step E) (fun s => EngineProgressSpec.owed (Engine.s_log s)) (fun s => EngineSpec.is_dying (Engine.s_log s)) EngineProgress.psi tr lab i He Hf Hd) as (j & Hj & Hdj & Hno).
  - intros j l Hj El Hdj Hs. assert (Hdy : Engine.dying (tr j) = true) by (by apply (EngineLog.l_dying E _ (proj2 (EngineLog.reachable_linv E _ (Hra j))))).
    pose proof (EngineProgress.psi_step E _ _ _ Hdy Hs) as Hp. split.
    + apply (EngineLog.l_dying E _ (proj2 (EngineLog.reachable_linv E _ (Hra (1 + j))))). exact (EngineProgress.step_dying_mono E _ _ _ (Hra j) Hs Hdy).
    + split; [lia|]. intros [Hi _]. rewrite Hi in Hp. lia.
  - exists j. split; [done|]. destruct (EngineMore.shutdown_terminates E (tr j) (Hra j) Hdj) as [N HN]. by apply (HN [] (tr j)).
Qed.

(** ** Runner *)
Lemma exec_run P tr lab : execution (Runner.step P) tr lab -> (forall j g, lab j <> Some (Runner.LCore (Runner.KLost g))) -> tr 0 = Runner.init ->
  forall j, exists ls, Runner.run P Runner.init ls = Some (tr j) /\ forall g, Runner.LCore (Runner.KLost g) ∉ ls.
Proof.
  intros He Hl H0 j. induction j as [|j (ls & Hrun & Hno)]; [exists []; split; [by rewrite H0|]; intros g H; by apply elem_of_nil in H|].
  pose proof (He j) as Hej. change (1 + j) with (S j) in Hej. destruct (lab j) as [l|] eqn:El.
  - exists (ls ++ [l]). split; [by rewrite RunnerCalls.run_snoc, Hrun|]. intros g. rewrite elem_of_app, elem_of_list_singleton. intros [H|H]; [by apply (Hno g)|]. apply (Hl j g). by rewrite El, H.
  - exists ls. by rewrite Hej.
Qed.
Lemma runner_dies P tr lab i : tr 0 = Runner.init -> execution (Runner.step P) tr lab ->
  (forall j g, lab j <> Some (Runner.LCore (Runner.KLost g))) ->
  (forall j l, i <= j -> lab j = Some l -> RunnerProgressSpec.request l = false) ->
  not_starved (Runner.step P) (fun s => RunnerProgressSpec.owed (RunnerSpec.rlog s)) tr lab ->
  RunnerSpec.stopping_all (RunnerSpec.rlog (tr i)) ->
  exists j, i <= j /\ (Runner.EvDead ∈ RunnerSpec.rlog (tr j) \/ (Runner.c_loop (Runner.s_core (tr j)) = Runner.LEnded /\ exists e, RunnerSpec.final_of P (RunnerSpec.rlog (tr j)) = Some e /\ (e = ETombStillAlive \/ e = ETombDying)) \/
    (RunnerProgressSpec.waits_for_clock (tr j) /\ Runner.EvKilled ∉ RunnerSpec.rlog (tr j))).
Proof.
  intros H0 He Hl Hq Hf Hst.
  assert (Hra : forall j, Runner.reachable P (tr j)) by (intros j; destruct (exec_run P tr lab He Hl H0 j) as (ls & H & _); by exists ls).
  destruct (settles (Runner.step P) (fun s => RunnerProgressSpec.owed (RunnerSpec.rlog s)) (fun s => RunnerSpec.stopping_all (RunnerSpec.rlog s)) RunnerProgress.measure tr lab i He Hf Hst) as (j & Hj & Hdj & Hno).
  - intros j l Hj El Hdj Hs. split; [|].
    + apply (RunnerProgress.stopping_grows P (tr j) [l]); [cbn; by rewrite Hs|done].
    + assert (V : RunnerInv.cinv (Runner.s_core (tr j))) by (apply (RunnerHist.a_inv P _ (RunnerThms.reach_all P _ (Hra j)))).
      assert (Hd : Runner.c_dying (Runner.s_core (tr j)) = true) by (by apply (RunnerThms.dying_all P _ (RunnerThms.reach_all P _ (Hra j)))).
      destruct (RunnerProgressSpec.internal l) eqn:Hi.
      * pose proof (RunnerProgress.internal_less P _ l _ V Hd Hi Hs). split; lia.
      * pose proof (RunnerProgress.other_le P _ l _ Hi (Hq j l Hj El) Hs). split; [done|]. intros [Hc _]. cbn in Hc. congruence.
  - exists j. split; [done|]. destruct (exec_run P tr lab He Hl H0 j) as (ls & H1 & H2). exact (RunnerProgress.settled P (tr j) ls H1 H2 Hdj Hno).
Qed.
