(** Lemmas about the catacomb for Tree.v. *)
From stdpp Require Import gmap strings list.
From Coq Require Import Lia.
From RecordUpdate Require Import RecordSet.
From Verif Require Import Err Tomb Sum Catacomb CatacombSpec CatacombProgressSpec CatacombInv CatacombTr CatacombLog CatacombHist CatacombProgress CatacombThms.
Import RecordSetNotations.

Ltac ccbni H := cbn -[gone_evs wk_evs wk_tomb tomb_kill tomb_go first_said bound_of accepted_of] in H.

Lemma tr_log me s l s' : tr me s l s' -> exists new, x_log s' = new ++ x_log s.
Proof.
  destruct 1; ccbn; try (by exists []); try (by eexists [_]); try (by eexists [_; _]); try (by eexists (wk_evs _ _)); try (by eexists (gone_evs _ _ _)).
Qed.
Lemma step_log me s l s' ev : reachable me s -> step me s l = Some s' -> ev ∈ x_log s -> ev ∈ x_log s'.
Proof.
  intros Hr Hs H. destruct (step_tr me s l s' (reach_cinv me s Hr) Hs) as [_ Ht]. destruct (tr_log _ _ _ _ Ht) as [new ->]. apply elem_of_app. by right.
Qed.

(** ** Where its workers come from *)
Definition known (log : list event) (w : wk) : Prop :=
  (exists i, EvAddCall i w ∈ log) \/ (exists i p, EvInvoke i p ∈ log /\ Some w ∈ p_init p).
Lemma known_mono log new w : known log w -> known (new ++ log) w.
Proof. intros [[i H]|(i & p & H & Hw)]; [left; exists i|right; exists i, p; split; [|done]]; apply elem_of_app; by right. Qed.

Definition pcws (pc : ipc) : list (option wk) :=
  match pc with
  | IValidate p | ICas p => p_init p
  | IAdd ws | IStop ws _ => ws
  | IStopWait w ws _ => Some w :: ws
  | _ => []
  end.
Record kinv (s : state) : Prop := {
  k_inv : forall i pc w, x_invs s !! i = Some pc -> Some w ∈ pcws pc -> known (x_log s) w;
  k_add : forall i a w, x_adds s !! i = Some a -> (exists ch, a = ASelect w ch) \/ a = AKill w \/ a = AWait w -> known (x_log s) w;
  k_lis : forall w, x_lis s = LiGot w -> known (x_log s) w;
  k_bind : forall b r, x_binds s !! b = Some r -> known (x_log s) (b_worker r)
}.
Lemma kinv_reach me s : reachable me s -> kinv s.
Proof.
  revert s. apply (reach_tr me kinv).
  - split; [intros ? ? ? H|intros ? ? ? H|intros ? H|intros ? ? H]; done.
  - intros s l s' Hr V Hc K Ht. destruct (tr_log _ _ _ _ Ht) as [new Hnew]. destruct K as [K1 K2 K3 K4].
    assert (Hm : forall w, known (x_log s) w -> known (x_log s') w) by (intros w Hw; rewrite Hnew; by apply known_mono).
    split.
    + intros j pc w Hj Hw.
      destruct Ht; ccbni Hj; try (apply Hm; by eauto); (destruct (decide (i = j)) as [-> |]; [rewrite lookup_insert in Hj|rewrite lookup_insert_ne in Hj by done; apply Hm; by eauto]); injection Hj as <-; cbn in Hw;
        try (by apply elem_of_nil in Hw); try (apply Hm; eapply K1; [eassumption|cbn; rewrite ?elem_of_cons in *; by auto]).
      right. exists j, p. split; [by left|done].
    + intros j a w Hj Hw. destruct Ht; ccbni Hj; try (apply Hm; by eauto); (destruct (decide (i = j)) as [-> |]; [rewrite lookup_insert in Hj|rewrite lookup_insert_ne in Hj by done; apply Hm; by eauto]); injection Hj as <-.
      all: try (destruct Hw as [[ch [=]]|[[=]|[=]]]; subst; apply Hm; by eauto).
      all: destruct Hw as [[ch' [=]]|[[=]|[=]]]; subst.
      * left. exists j. by left.
      * apply Hm. eapply K2; [eassumption|]. left. by eexists.
    + intros w Hj. destruct Ht; ccbni Hj; try (apply Hm; by eauto); try done. apply Hm. injection Hj as <-. eauto.
    + intros b0 r Hb. destruct Ht; ccbni Hb; try (apply Hm; by eauto).
      all: try (destruct (decide (b = b0)) as [-> |]; [rewrite lookup_insert in Hb|rewrite lookup_insert_ne in Hb by done; apply Hm; by eauto]; injection Hb as <-; cbn; apply Hm; match goal with H : x_binds _ !! _ = Some _ , K : forall b r, x_binds _ !! b = Some r -> known _ _ |- _ => exact (K _ _ H) end).
      all: destruct (decide (x_next s = b0)) as [<- |]; [rewrite lookup_insert in Hb|rewrite lookup_insert_ne in Hb by done; apply Hm; by eauto]; injection Hb as <-; cbn; apply Hm; (by eauto) || (eapply K1; [eassumption|]; by left).
Qed.
Lemma kill_known me s who w : reachable me s -> EvWKill who w ∈ x_log s -> known (x_log s) w.
Proof.
  intros Hr H. destruct (good_in me s _ Hr H) as (pre & post & Hl & Hg). destruct who as [b|i|i]; cbn in Hg.
  - destruct Hg as [_ Hb]. assert (Hb' : EvBind b w ∈ x_log s) by (rewrite Hl; by apply in_later). apply (l_bind me s Hr) in Hb' as (v & p & Hb'). exact (k_bind s (kinv_reach me s Hr) _ _ Hb').
  - destruct Hg as [_ Hg]. left. exists i. rewrite Hl. by apply in_later.
  - destruct Hg as (_ & p & r & H1 & H2 & _). right. exists i, p. split; [|done]. rewrite Hl. by apply in_later.
Qed.
Lemma bind_known me s b w : reachable me s -> EvBind b w ∈ x_log s -> known (x_log s) w.
Proof. intros Hr Hb. apply (l_bind me s Hr) in Hb as (v & p & Hb). exact (k_bind s (kinv_reach me s Hr) _ _ Hb). Qed.
Lemma add_known me s i w r : reachable me s -> EvAddRet i w r ∈ x_log s -> known (x_log s) w.
Proof. intros Hr H. destruct (good_in me s _ Hr H) as (pre & post & Hl & Hg & _). left. exists i. rewrite Hl. by apply in_later. Qed.

(** New ones only by calls of Add and Invoke. *)
Lemma known_step me s l s' w : reachable me s -> step me s l = Some s' -> known (x_log s') w ->
  known (x_log s) w \/ (exists i, l = LAdd i w) \/ (exists i p, l = LInvoke i p /\ Some w ∈ p_init p).
Proof.
  intros Hr Hs Hk. destruct (step_tr me s l s' (reach_cinv me s Hr) Hs) as [_ Ht]. destruct Hk as [[i0 Hk]|(i0 & p0 & Hk & Hw)].
  - assert (E : EvAddCall i0 w ∈ x_log s \/ l = LAdd i0 w); [|destruct E as [?| ->]; [left; left; eauto|right; left; eauto]].
    destruct Ht; ccbni Hk; soft_done; auto; revert Hk; soft_done; rewrite ?elem_of_cons; try (by auto); try (by intros [?|?]; auto); try (by intros [?|[?|?]]; auto); try (by intros [[= -> ->]|?]; auto).
  - assert (E : EvInvoke i0 p0 ∈ x_log s \/ l = LInvoke i0 p0); [|destruct E as [?| ->]; [left; right; eauto|right; right; eauto]].
    destruct Ht; ccbni Hk; soft_done; auto; revert Hk; soft_done; rewrite ?elem_of_cons; try (by auto); try (by intros [?|?]; auto); try (by intros [?|[?|?]]; auto); try (by intros [[= -> ->]|?]; auto).
Qed.
Lemma end_step me s l s' k e : reachable me s -> step me s l = Some s' -> x_ended s' !! k = Some e -> x_ended s !! k = Some e \/ l = LEnd k e.
Proof.
  intros Hr Hs H. destruct (step_tr me s l s' (reach_cinv me s Hr) Hs) as [_ Ht]. destruct Ht; ccbni H; auto. destruct (decide (n = k)) as [-> |]; [|rewrite lookup_insert_ne in H by done; auto]. rewrite lookup_insert in H. injection H as ->. auto.
Qed.

(** ** Work was started *)
Lemma work_step me s l s' : reachable me s -> step me s l = Some s' -> x_work s <> WkNone -> x_work s' <> WkNone.
Proof.
  intros Hr Hs H. destruct (step_tr me s l s' (reach_cinv me s Hr) Hs) as [_ Ht]. destruct Ht; ccbn; try done. by destruct g.
Qed.
Lemma work_used me s : reachable me s -> x_work s <> WkNone -> exists i, EvUsed i ∈ x_log s.
Proof.
  intros Hr H. apply (li_dirty _ _ (l_linv me s Hr)). destruct (x_dirty s) eqn:E; [done|]. by destruct (c_clean s (reach_cinv me s Hr) E).
Qed.
(** runtime.Goexit in Work. *)
Definition no_exit (s : state) : Prop := x_work s <> WkWg true /\ x_work s <> WkLost.
Lemma no_exit_step me s l s' : reachable me s -> step me s l = Some s' -> l <> LWorkRet WkGoexit -> no_exit s -> no_exit s'.
Proof.
  intros Hr Hs Hl [H1 H2]. destruct (step_tr me s l s' (reach_cinv me s Hr) Hs) as [_ Ht]. destruct Ht; unfold no_exit; ccbn; try done. destruct g; [by rewrite H in H1|done].
Qed.
Lemma no_exit_log me s : reachable me s -> no_exit s -> ~ EvWorkRet WkGoexit ∈ x_log s.
Proof.
  intros Hr [H1 H2] H. pose proof (l_work me s Hr) as W. unfold wfact in W. destruct (x_work s) as [| | |[]| | |]; try done.
  all: try (destruct W as [_ W]; destruct W; by exists WkGoexit).
  all: try (destruct W as (_ & r & W); destruct W as (e' & W1 & W2 & _) || destruct W as (W1 & W2); apply W1 in H; subst; done).
Qed.

(** ** Kill *)
Lemma is_dead me s : reachable me s -> t_dead (x_tomb s) = true <-> EvDead ∈ x_log s.
Proof. intros Hr. rewrite (c_dead s (reach_cinv me s Hr)). symmetry. by apply (l_dead me). Qed.
Lemma tell_dying me s s' : reachable me s -> step me s (LKill None) = Some s' -> is_dying (x_log s').
Proof. intros Hr Hs. destruct (kill_call me s None s' Hr Hs) as [_ H]. exists FromClient, None. rewrite H by done. by left. Qed.
Lemma kill_can me s : x_crash s = false -> step me s (LKill None) <> None.
Proof. intros Hc. unfold step. rewrite Hc. cbn [step1]. unfold honest. cbn. done. Qed.

(** ** At rest *)
Lemma all_done me s : reachable me s -> no_exit s -> x_crash s = false -> x_work s <> WkNone -> is_dying (x_log s) -> (forall b, ~ EvBind b WSelf ∈ x_log s) ->
  (forall l, internal l = true -> step me s l = None) -> step me s (LWorkRet (WkReturn None)) = None ->
  (forall who k, EvWKill who (WExt k) ∈ x_log s -> step me s (LEnd k None) = None) -> EvDead ∈ x_log s.
Proof.
  intros Hr Hx Hc Hw Hd Hself Hq Hret Hend.
  destruct (shutdown_rest me s Hr Hc Hq Hd (work_used me s Hr Hw)) as [?|[[H1 H2]|[H|(b & w & H1 & H2 & H3)]]]; [done| | |].
  - destruct (x_work s) as [| |e|g| | |] eqn:E; try done; pose proof (l_work me s Hr) as W; unfold wfact in W; rewrite E in W.
    + unfold step in Hret. rewrite Hc in Hret. cbn in Hret. by rewrite E in Hret.
    + destruct H2. destruct W as (_ & r & W & _). exists r. by apply W.
    + destruct H2. destruct g; destruct W as (_ & W); [exists WkGoexit; by apply W|]. destruct W as (r & e & W & _). exists r. by apply W.
    + destruct H2. destruct W as (_ & r & e & W & _). exists r. by apply W.
    + destruct H2. destruct W as (_ & r & e & W & _). exists r. by apply W.
    + destruct H2. destruct W as (_ & W). exists WkGoexit. by apply W.
  - by apply (no_exit_log me s Hr Hx) in H.
  - destruct w as [k|]; [|by apply Hself in H1]. specialize (Hend _ _ H2). unfold step in Hend. rewrite Hc in Hend. cbn in Hend.
    destruct (x_ended s !! k) as [e|] eqn:E; [|done]. destruct H3. exists e. by apply (l_end me s Hr).
Qed.
