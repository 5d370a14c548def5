(** More facts about the catacomb: rest is reached, finished workers, panics, the tomb. *)
From stdpp Require Import gmap strings list.
From Coq Require Import Lia.
From RecordUpdate Require Import RecordSet.
From Verif Require Import Err Tomb Sum Catacomb CatacombSpec CatacombProgressSpec CatacombInv CatacombTr CatacombLog CatacombHist CatacombProgress CatacombThms.
Import RecordSetNotations.

(** ** Rest is reached *)
Definition keys {A} (m : gmap nat A) : list nat := (map_to_list m).*1.
Lemma keys_in {A} (m : gmap nat A) k x : m !! k = Some x -> k ∈ keys m.
Proof. intros H. apply elem_of_list_fmap. exists (k, x). split; [done|]. by apply elem_of_map_to_list. Qed.
Definition enabled_labels (s : state) : list label :=
  [LAdded; LLisDying; LWorkKill; LWgWaited; LTombDone] ++ (LInv <$> keys (x_invs s)) ++
  (keys (x_adds s) ≫= fun i => [LHand i; LAddDying i; LAddKill i; LAddWaited i]) ++
  (keys (x_binds s) ≫= fun b => [LWaitRet b; LWaitKill b; LWaitClose b; LWaitExit b; LStopDying b; LStopDone b; LStopKill b; LStopWaited b; LStopExit b]).
Lemma enabled_in me s l s' : cinv s -> step me s l = Some s' -> internal l = true -> l ∈ enabled_labels s.
Proof.
  intros V Hs Hi. destruct (step_tr me s l s' V Hs) as [_ Ht]. unfold enabled_labels.
  assert (HI : forall i pc, x_invs s !! i = Some pc -> LInv i ∈ enabled_labels s).
  { intros i pc H. apply elem_of_app. right. apply elem_of_app. left. apply elem_of_list_fmap. exists i. split; [done|]. by eapply keys_in. }
  assert (HA : forall i a l, x_adds s !! i = Some a -> l ∈ [LHand i; LAddDying i; LAddKill i; LAddWaited i] -> l ∈ enabled_labels s).
  { intros i a l' H Hl. apply elem_of_app. right. apply elem_of_app. right. apply elem_of_app. left. apply elem_of_list_bind. exists i. split; [done|]. by eapply keys_in. }
  assert (HB : forall b r l, x_binds s !! b = Some r ->
    l ∈ [LWaitRet b; LWaitKill b; LWaitClose b; LWaitExit b; LStopDying b; LStopDone b; LStopKill b; LStopWaited b; LStopExit b] -> l ∈ enabled_labels s).
  { intros b r l' H Hl. apply elem_of_app. right. apply elem_of_app. right. apply elem_of_app. right. apply elem_of_list_bind. exists b. split; [done|]. by eapply keys_in. }
  destruct Ht; try done; try (by eapply HI); try (eapply HA; [eassumption|repeat first [by left|right]]); try (eapply HB; [eassumption|repeat first [by left|right]]);
    apply elem_of_app; left; repeat first [by left|right].
Qed.
Lemma rest_or_step me s : cinv s -> at_rest me s \/ exists l s', internal l = true /\ step me s l = Some s'.
Proof.
  intros V. assert (H : forall L : list label, (forall l, l ∈ L -> internal l = true -> step me s l = None) \/ exists l s', internal l = true /\ step me s l = Some s').
  { induction L as [|l L IH]; [left; intros l H; by apply elem_of_nil in H|]. destruct IH as [IH|IH]; [|by right]. destruct (internal l) eqn:Hi.
    - destruct (step me s l) as [s'|] eqn:E; [right; by exists l, s'|]. left. intros l' Hl. apply elem_of_cons in Hl as [->|Hl]; auto.
    - left. intros l' Hl Hl'. apply elem_of_cons in Hl as [->|Hl]; [congruence|auto]. }
  destruct (H (enabled_labels s)) as [H'|H']; [left|by right]. intros l Hi. destruct (step me s l) as [s'|] eqn:E; [|done]. rewrite <- E. apply H'; [|done]. by eapply enabled_in.
Qed.
Lemma settles me s : reachable me s -> exists ls s', Forall (fun l => internal l = true) ls /\ run me s ls = Some s' /\ at_rest me s'.
Proof.
  remember (budget s) as n eqn:Hn. assert (Hle : budget s <= n) by lia. clear Hn. revert s Hle. induction n as [|n IH]; intros s Hle Hr.
  - exists [], s. split; [done|]. split; [done|]. destruct (rest_or_step me s (reach_cinv me s Hr)) as [?|(l & s' & Hi & Hs)]; [done|]. exfalso.
    destruct (step_tr me s l s' (reach_cinv me s Hr) Hs) as [_ Ht]. assert (Hq : request l = false) by (unfold internal in Hi; by destruct (request l)).
    pose proof (budget_step me s l s' (reach_cinv me s Hr) Ht Hq) as H. unfold internal in Hi. rewrite Hq in Hi. destruct (foreign l); [done|]. lia.
  - destruct (rest_or_step me s (reach_cinv me s Hr)) as [?|(l & s' & Hi & Hs)]; [by exists [], s|].
    destruct (step_tr me s l s' (reach_cinv me s Hr) Hs) as [_ Ht]. assert (Hq : request l = false) by (unfold internal in Hi; by destruct (request l)).
    pose proof (budget_step me s l s' (reach_cinv me s Hr) Ht Hq) as H. assert (Hfo : foreign l = false) by (unfold internal in Hi; rewrite Hq in Hi; by destruct (foreign l)). rewrite Hfo in H.
    destruct (IH s' ltac:(lia) (reach_step me s l s' Hr Hs)) as (ls & s2 & H1 & H2 & H3). exists (l :: ls), s2. split; [by constructor|]. split; [cbn; by rewrite Hs|done].
Qed.
Lemma shutdown_finite me s : reachable me s -> exists n, forall ls s', run me s ls = Some s' -> Forall (fun l => request l = false) ls -> length (filter (fun l => internal l = true) ls) <= n.
Proof. intros Hr. exists (budget s). intros ls s' Hls Hf. by eapply budget_run. Qed.

(** ** C52 *)
Lemma bind_progress me s b n v p : reachable me s -> x_crash s = false -> x_binds s !! b = Some (mkBind (WExt n) v p) -> x_ended s !! n = Some None -> ~ (v = VGone /\ p = SGone) ->
  exists l s' v' p', of_binding b l = true /\ step me s l = Some s' /\ x_tomb s' = x_tomb s /\ x_crash s' = false /\ x_ended s' = x_ended s /\
    x_binds s' !! b = Some (mkBind (WExt n) v' p') /\ wv v' + ws p' < wv v + ws p.
Proof.
  intros Hr Hc Hb He Hn. destruct (l_bfact me s Hr _ _ _ _ Hb) as [Hv _]. pose proof (bound_wg s b _ (reach_cinv me s Hr) Hb) as Hwg. unfold bc in Hwg. cbn in Hwg. unfold step. rewrite Hc.
  assert (Hg : forall s0, x_tomb (gone b s0) = x_tomb s0 /\ x_crash (gone b s0) = x_crash s0 /\ x_ended (gone b s0) = x_ended s0 /\ x_binds (gone b s0) = x_binds s0).
  { intros s0. unfold gone. destruct (x_binds s0 !! b) as [[w [] []]|]; done. }
  assert (Hd : forall s0, x_tomb (wg_done s0) = x_tomb s0 /\ x_crash (wg_done s0) = x_crash s0 /\ x_ended (wg_done s0) = x_ended s0 /\ x_binds (wg_done s0) = x_binds s0).
  { intros s0. unfold wg_done. by destruct (x_wg s0). }
  destruct v as [|e| | |].
  - exists (LWaitRet b). cbn. rewrite Hb. cbn. rewrite He. eexists _, VClose, p. rewrite bool_decide_eq_true_2 by done. split; [done|]. split; [reflexivity|]. cbn. rewrite lookup_insert. repeat (split; [done|]). lia.
  - cbn in Hv. destruct Hv as (n' & [= <-] & Hx). congruence.
  - exists (LWaitClose b). cbn. rewrite Hb. eexists _, VWg, p. rewrite bool_decide_eq_true_2 by done. split; [done|]. split; [reflexivity|]. cbn. rewrite lookup_insert. repeat (split; [done|]). lia.
  - exists (LWaitExit b). cbn -[gone wg_done put]. rewrite Hb. eexists _, VGone, p. rewrite bool_decide_eq_true_2 by done. split; [done|]. split; [reflexivity|].
    destruct (Hg (wg_done (put b (mkBind (WExt n) VGone p) s))) as (-> & -> & -> & ->). destruct (Hd (put b (mkBind (WExt n) VGone p) s)) as (-> & -> & -> & ->). cbn. rewrite lookup_insert. repeat (split; [done|]). lia.
  - destruct p.
    + exists (LStopDone b). cbn. rewrite Hb. eexists _, VGone, SWg. rewrite bool_decide_eq_true_2 by done. split; [done|]. split; [reflexivity|]. cbn. rewrite lookup_insert. repeat (split; [done|]). lia.
    + exists (LStopKill b). cbn. rewrite Hb. eexists _, VGone, SWait. rewrite bool_decide_eq_true_2 by done. split; [done|]. split; [reflexivity|]. cbn. rewrite lookup_insert. repeat (split; [done|]). lia.
    + exists (LStopWaited b). cbn. rewrite Hb. cbn. rewrite He. eexists _, VGone, SWg. rewrite bool_decide_eq_true_2 by done. split; [done|]. split; [reflexivity|]. cbn. rewrite lookup_insert. repeat (split; [done|]). lia.
    + exists (LStopExit b). cbn -[gone wg_done put]. rewrite Hb. eexists _, VGone, SGone. rewrite bool_decide_eq_true_2 by done. split; [done|]. split; [reflexivity|].
      destruct (Hg (wg_done (put b (mkBind (WExt n) VGone SGone) s))) as (-> & -> & -> & ->). destruct (Hd (put b (mkBind (WExt n) VGone SGone) s)) as (-> & -> & -> & ->). cbn. rewrite lookup_insert. repeat (split; [done|]). lia.
    + by destruct Hn.
Qed.
Lemma finished_can_go me s b n : reachable me s -> x_crash s = false -> EvBind b (WExt n) ∈ x_log s -> EvEnd n None ∈ x_log s ->
  exists ls s', Forall (fun l => of_binding b l = true) ls /\ run me s ls = Some s' /\ x_tomb s' = x_tomb s /\ EvGone b ∈ x_log s'.
Proof.
  intros Hr Hc Hb He. apply (l_bind me s Hr) in Hb as (v & p & Hb). apply (l_end me s Hr) in He.
  remember (wv v + ws p) as k eqn:Hk. assert (Hle : wv v + ws p <= k) by lia. clear Hk. revert s v p Hle Hr Hc Hb He. induction k as [|k IH]; intros s v p Hle Hr Hc Hb He.
  - exists [], s. split; [done|]. split; [done|]. split; [done|]. apply (l_gone me s Hr). exists (WExt n). rewrite Hb. destruct v, p; cbn in Hle; try lia. done.
  - assert ((v = VGone /\ p = SGone) \/ ~ (v = VGone /\ p = SGone)) as [[-> ->]|Hn] by (destruct v, p; naive_solver).
    + exists [], s. split; [done|]. split; [done|]. split; [done|]. apply (l_gone me s Hr). by exists (WExt n).
    + destruct (bind_progress me s b n v p Hr Hc Hb He Hn) as (l & s' & v' & p' & H1 & H2 & H3 & H4 & H5 & H6 & H7).
      destruct (IH s' v' p' ltac:(lia) (reach_step me s l s' Hr H2) H4 H6 ltac:(by rewrite H5)) as (ls & s2 & K1 & K2 & K3 & K4).
      exists (l :: ls), s2. split; [by constructor|]. split; [cbn; by rewrite H2|]. split; [congruence|done].
Qed.
Lemma finished_gone me s b n e : reachable me s -> x_crash s = false -> at_rest me s -> EvBind b (WExt n) ∈ x_log s -> EvEnd n e ∈ x_log s -> EvGone b ∈ x_log s.
Proof. intros Hr Hc Hq Hb He. by apply (rest_finished me s b n e Hr Hc Hq Hb He). Qed.
Lemma gone_finished me s b : reachable me s -> EvGone b ∈ x_log s -> exists n e, EvBind b (WExt n) ∈ x_log s /\ EvEnd n e ∈ x_log s.
Proof. intros Hr H. destruct (good_in me s _ Hr H) as (pre & post & Hl & n & e & K1 & K2). exists n, e. rewrite Hl. split; by apply in_later. Qed.

(** ** C53 *)
Lemma work_ret_one me s r r' : reachable me s -> EvWorkRet r ∈ x_log s -> EvWorkRet r' ∈ x_log s -> r = r'.
Proof.
  intros Hr H1 H2. assert (EvWorkRet r = EvWorkRet r') as E; [|by injection E].
  eapply (at_most_one me s (fun ev => match ev with EvWorkRet _ => True | _ => False end)); eauto; try done. intros ev post Hev Hg ev' Hev' Hin. destruct ev, ev'; try done. destruct Hg as [_ Hg]. apply Hg. by eexists.
Qed.
Lemma work_kill_said me s r e : reachable me s -> x_crash s = false -> EvWorkRet r ∈ x_log s -> outcome r = Some e ->
  EvKill FromWork e ∈ x_log s \/ exists s', step me s LWorkKill = Some s' /\ (e <> Some ETombStillAlive -> EvKill FromWork e ∈ x_log s' /\ x_crash s' = false).
Proof.
  intros Hr Hc Hw Ho. pose proof (l_work me s Hr) as W. unfold wfact in W.
  assert (Hdone : (exists r0 e0, (forall r', EvWorkRet r' ∈ x_log s <-> r' = r0) /\ outcome r0 = Some e0 /\ (x_crash s = false -> EvKill FromWork e0 ∈ x_log s)) -> EvKill FromWork e ∈ x_log s).
  { intros (r0 & e0 & W1 & W2 & W3). apply W1 in Hw. subst r0. assert (e0 = e) as -> by congruence. auto. }
  destruct (x_work s) as [| |e0|[]| | |] eqn:E; try (left; apply Hdone, W).
  - destruct W as [_ W]. destruct W. by exists r.
  - destruct W as [_ W]. destruct W. by exists r.
  - right. destruct W as (_ & r0 & W1 & W2). apply W1 in Hw. subst r0. assert (e0 = e) as -> by congruence.
    unfold step. rewrite Hc. cbn -[kill_or_crash]. rewrite E. eexists. split; [reflexivity|]. intros Hne. unfold kill_or_crash.
    destruct (kill_cases me FromWork e (s <| x_work := WkWg false |>)) as [[-> K]|[-> K]].
    + destruct Hne. eapply (panic_still me e s); [apply (c_panic s (reach_cinv me s Hr))|by apply (l_hon me s Hr)|done].
    + split; [by left|done].
  - apply W in Hw. by subst.
  - apply W in Hw. by subst.
Qed.
Lemma rest_work_said me s r e : reachable me s -> x_crash s = false -> at_rest me s -> EvWorkRet r ∈ x_log s -> outcome r = Some e -> EvKill FromWork e ∈ x_log s.
Proof.
  intros Hr Hc Hq Hw Ho. destruct (work_kill_said me s r e Hr Hc Hw Ho) as [?|(s' & Hs & _)]; [done|]. rewrite (Hq LWorkKill eq_refl) in Hs. done.
Qed.
Lemma panic_reported me s pre e post v : reachable me s -> x_log s = pre ++ EvWait e :: post -> EvWorkRet (WkPanic v) ∈ x_log s ->
  EvKill FromWork (Some (EMsg (MsgPanicked v))) ∈ post /\ e <> None /\
  ((forall src x, EvKill src x ∈ post -> src = FromWork \/ says me x = None) -> e = Some (EMsg (MsgPanicked v))).
Proof.
  intros Hr Hl Hw. destruct (wait_result me s pre e post Hr Hl) as [Hd He].
  assert (Hk : EvKill FromWork (Some (EMsg (MsgPanicked v))) ∈ post).
  { apply elem_of_list_split in Hd as (l1 & l2 & Hd). assert (Hl' : x_log s = (pre ++ EvWait e :: l1) ++ EvDead :: l2) by (rewrite Hl, Hd; by rewrite <- app_assoc).
    destruct (at_event me s _ _ _ Hr Hl') as (_ & _ & (r & x & K1 & K2 & K3) & _). assert (r = WkPanic v) as ->. { eapply (work_ret_one me s); eauto. rewrite Hl'. by apply in_later. }
    injection K2 as <-. rewrite Hd. by apply in_later. }
  assert (Hfs : forall log, EvKill FromWork (Some (EMsg (MsgPanicked v))) ∈ log -> first_said me log <> None /\
    ((forall src x, EvKill src x ∈ log -> src = FromWork /\ x = Some (EMsg (MsgPanicked v)) \/ says me x = None) -> first_said me log = Some (EMsg (MsgPanicked v)))).
  { clear. induction log as [|ev log IH]; intros H; [by apply elem_of_nil in H|].
    assert (Hold : EvKill FromWork (Some (EMsg (MsgPanicked v))) ∈ log -> first_said me (ev :: log) <> None /\
      ((forall src x, EvKill src x ∈ ev :: log -> src = FromWork /\ x = Some (EMsg (MsgPanicked v)) \/ says me x = None) -> first_said me (ev :: log) = Some (EMsg (MsgPanicked v)))).
    { intros H'. destruct (IH H') as [K1 K2]. destruct (first_said me log) as [x|] eqn:E; [|done]. pose proof (said_app me [ev] log x E) as Ha. cbn [app] in Ha. rewrite Ha. split; [done|].
      intros Hs. apply K2. intros src y Hy. apply (Hs src y). by right. }
    apply el_cons in H as [<-|H]; [|auto]. cbn. destruct (first_said me log) as [x|] eqn:E.
    - split; [done|]. intros Hs. assert (Hq : (forall src y, EvKill src y ∈ log -> src = FromWork /\ y = Some (EMsg (MsgPanicked v)) \/ says me y = None)) by (intros src y Hy; apply (Hs src y); by right).
      clear -E Hq. induction log as [|ev log IH]; [done|].
      assert (Hq' : (forall src y, EvKill src y ∈ log -> src = FromWork /\ y = Some (EMsg (MsgPanicked v)) \/ says me y = None)) by (intros src y Hy; apply (Hq src y); by right).
      destruct ev; cbn in E; auto. destruct (first_said me log) eqn:E2; [by apply IH|]. destruct (Hq src e ltac:(by left)) as [[_ ->]|Hn]; [by rewrite <- E|congruence].
    - split; [done|]. done. }
  destruct (Hfs post Hk) as [H1 H2]. split; [done|]. split; [by rewrite He|]. intros Hs. rewrite He. apply H2. intros src x Hx. destruct (Hs src x Hx) as [->|?]; [|by right]. left. split; [done|].
  apply elem_of_list_split in Hx as (l1 & l2 & Hx). assert (Hl' : x_log s = (pre ++ EvWait e :: l1) ++ EvKill FromWork x :: l2) by (rewrite Hl, Hx; by rewrite <- app_assoc).
  destruct (at_event me s _ _ _ Hr Hl') as (r & K1 & K2). assert (r = WkPanic v) as ->. { eapply (work_ret_one me s); eauto. rewrite Hl'. by apply in_later. } cbn in K2. congruence.
Qed.

(** ** C58 *)
Lemma kres_reason me src e t t' p ev x : kres me src e t t' p ev -> t_reason t = Reason (Some x) -> t_reason t' = Reason (Some x).
Proof. intros Hk Hx. destruct Hk; [|done]. unfold tomb_kill. rewrite Hx. destruct (translate me e) as [[]|]; done. Qed.
Lemma reason_mono me s l s' x : cinv s -> tr me s l s' -> t_reason (x_tomb s) = Reason (Some x) -> t_reason (x_tomb s') = Reason (Some x).
Proof.
  intros V Ht Hx. assert (Hnil : forall t, t_reason t = Reason (Some x) -> t_reason (tomb_kill t None) = Reason (Some x)) by (intros t H; unfold tomb_kill; by rewrite H).
  assert (Hwk : forall w, t_reason (wk_tomb w (x_tomb s)) = Reason (Some x)) by (intros w; destruct w; cbn -[tomb_kill]; auto).
  destruct Ht; ccbn; try done; try (by eapply kres_reason); try apply Hwk.
  - unfold tomb_go. by destruct (t_dead _).
  - change (t_reason (tomb_kill (x_tomb s <| t_alive := 0 |>) None <| t_dead := true |>)) with (t_reason (tomb_kill (x_tomb s <| t_alive := 0 |>) None)). by apply Hnil.
Qed.
Lemma dead_mono me s l s' : cinv s -> tr me s l s' -> t_dead (x_tomb s) = true -> t_dead (x_tomb s') = true.
Proof.
  intros V Ht Hd. assert (Hk : forall t e, t_dead (tomb_kill t e) = t_dead t) by (intros t e; unfold tomb_kill; repeat case_match; done).
  destruct Ht; ccbn; try done; try (by destruct w; cbn -[tomb_kill]; rewrite ?Hk); try (by destruct H0; rewrite ?Hk).
  unfold tomb_go. rewrite Hd. done.
Qed.
Lemma catacomb_tomb me s ls s' : reachable me s -> run me s ls = Some s' ->
  (t_dead (x_tomb s) = true -> t_dying (x_tomb s) = true) /\
  (t_dying (x_tomb s) = true -> t_dying (x_tomb s') = true) /\
  (t_dead (x_tomb s) = true -> t_dead (x_tomb s') = true) /\
  (forall e, t_reason (x_tomb s) = Reason (Some e) -> t_reason (x_tomb s') = Reason (Some e)).
Proof.
  intros Hr Hls. split; [intros H; apply (c_over s (reach_cinv me s Hr)); by apply (c_dead s (reach_cinv me s Hr))|].
  revert s Hr Hls. induction ls as [|l ls IH]; intros s Hr Hls; [injection Hls as <-; done|]. cbn in Hls. destruct (step me s l) as [s1|] eqn:E; [|done].
  pose proof (reach_cinv me s Hr) as V. destruct (step_tr me s l s1 V E) as [_ Ht]. destruct (IH s1 (reach_step me s l s1 Hr E) Hls) as (K1 & K2 & K3).
  split; [intros H; apply K1; by eapply dying_mono|]. split; [intros H; apply K2; by eapply dead_mono|]. intros e H. apply K3. by eapply reason_mono.
Qed.

(** ** C61, C62 *)
Lemma self_never_dead me s b : reachable me s -> EvBind b WSelf ∈ x_log s -> ~ EvDead ∈ x_log s.
Proof.
  intros Hr Hb Hd. pose proof (reach_cinv me s Hr) as V. apply (l_dead me s Hr) in Hd. pose proof (c_wait s V) as Hz. rewrite Hd in Hz. apply (l_bind me s Hr) in Hb as (v & p & Hb).
  destruct (bound_all_gone s b _ V Hz Hb) as [E1 E2]. cbn in E1, E2. subst. destruct (l_bfact me s Hr _ _ _ _ Hb) as [(n & e & H & _) _]. done.
Qed.
Lemma goexit_never_dead me s : reachable me s -> EvWorkRet WkGoexit ∈ x_log s -> ~ EvDead ∈ x_log s /\ forall e, ~ EvKill FromWork e ∈ x_log s.
Proof.
  intros Hr Hw. split.
  - intros Hd. destruct (good_in me s _ Hr Hd) as (pre & post & Hl & _ & _ & (r & e & K1 & K2 & _) & _). assert (r = WkGoexit) as ->; [|done]. eapply (work_ret_one me s); eauto. rewrite Hl. by apply in_later.
  - intros e Hk. destruct (good_in me s _ Hr Hk) as (pre & post & Hl & r & K1 & K2). assert (r = WkGoexit) as ->; [|done]. eapply (work_ret_one me s); eauto. rewrite Hl. by apply in_later.
Qed.
(** An Add that was made before the catacomb was used never hands over its worker. *)
Definition early (log : list event) (i : nat) : Prop := exists pre w post, log = pre ++ EvAddCall i w :: post /\ forall j, ~ EvUsed j ∈ post.
Lemma early_add me s : reachable me s -> forall i, early (x_log s) i -> (forall w, x_adds s !! i <> Some (ASelect w true)) /\ forall w, ~ EvAddRet i w None ∈ x_log s.
Proof.
  apply (reach_tr me (fun s => forall i, early (x_log s) i -> (forall w, x_adds s !! i <> Some (ASelect w true)) /\ forall w, ~ EvAddRet i w None ∈ x_log s)).
  { intros i (pre & w & post & H & _). by destruct pre. }
  clear s. intros s l s' Hr V _ IH Ht i Hearly. pose proof (l_adds me s Hr i) as Ha.
  assert (Hcase : (exists w, s' = s <| x_adds ::= <[i := ASelect w (x_dirty s)]> |> <| x_log ::= app [EvAddCall i w] |> /\ x_adds s !! i = None) \/
    exists evs, x_log s' = evs ++ x_log s /\ forall w, ~ EvAddCall i w ∈ evs).
  { assert (H1 : forall x : event, match x with EvAddCall j _ => j <> i | _ => True end -> forall w, ~ EvAddCall i w ∈ [x]).
    { intros x Hx w H. apply elem_of_list_singleton in H. subst. done. }
    assert (Hk : forall src e t t' p ev w, kres me src e t t' p ev -> ~ EvAddCall i w ∈ [ev]).
    { intros src e t t' p ev w Hk H. apply elem_of_list_singleton in H. subst. inversion Hk. }
    clear IH Hearly Ha. destruct Ht; ccbn; try (right; eexists []; split; [reflexivity|]; intros w1 Hw1; by apply elem_of_nil in Hw1);
      try (right; eexists [_]; split; [reflexivity|]; first [by apply H1|intros w1; by eapply Hk]).
    - right. exists [EvInvoked i0 None; EvWork]. split; [done|]. intros w1 Hw1. apply el_cons in Hw1 as [?|Hw1]; [done|]. by apply elem_of_list_singleton in Hw1.
    - right. exists (wk_evs (ByInvoke i0) w). split; [done|]. intros w1 Hw1. rewrite <- (app_nil_r (wk_evs _ _)) in Hw1. apply soft_wk in Hw1; [|done]. by apply elem_of_nil in Hw1.
    - destruct (decide (i0 = i)) as [->|Hne]; [left; by exists w|]. right. exists [EvAddCall i0 w]. split; [done|]. by apply H1.
    - right. exists (wk_evs (ByAdd i0) w). split; [done|]. intros w1 Hw1. rewrite <- (app_nil_r (wk_evs _ _)) in Hw1. apply soft_wk in Hw1; [|done]. by apply elem_of_nil in Hw1.
    - right. exists (gone_evs b VGone p). split; [done|]. intros w1 Hw1. rewrite <- (app_nil_r (gone_evs _ _ _)) in Hw1. apply soft_gone in Hw1; [|done]. by apply elem_of_nil in Hw1.
    - right. exists (wk_evs (ByBind b) w). split; [done|]. intros w1 Hw1. rewrite <- (app_nil_r (wk_evs _ _)) in Hw1. apply soft_wk in Hw1; [|done]. by apply elem_of_nil in Hw1.
    - right. exists (gone_evs b v SGone). split; [done|]. intros w1 Hw1. rewrite <- (app_nil_r (gone_evs _ _ _)) in Hw1. apply soft_gone in Hw1; [|done]. by apply elem_of_nil in Hw1. }
  destruct Hcase as [(w & -> & Hn)|(evs & Hevs & Hno)].
  - rewrite Hn in Ha. destruct Ha as [Ha1 Ha2]. destruct Hearly as (pre & w' & post & Hl & Hu). ccbn. 
    assert (Hd : x_dirty s = false).
    { destruct (x_dirty s) eqn:Hd; [|done]. apply (li_dirty _ _ (l_linv me s Hr)) in Hd as [j Hj]. exfalso. apply (Hu j). cbn in Hl. destruct pre as [|x pre]; cbn in Hl; [by injection Hl as _ <-|].
      injection Hl as _ Hl. exfalso. apply (Ha1 w'). rewrite Hl. apply elem_of_app. right. by left. }
    split; [intros w0; rewrite lookup_insert; congruence|]. intros w0. rewrite other_ev by done. apply Ha2.
  - assert (Hc : early (x_log s) i).
    { destruct Hearly as (pre & w & post & Hl & Hn). rewrite Hevs in Hl. apply app_eq_app in Hl as (k & [[E1 E2]|[E1 E2]]).
      - destruct k as [|x k]; [exists [], w, post; split; [by rewrite E2|done]|]. injection E2 as <- E2. exfalso. apply (Hno w). rewrite E1. apply elem_of_app. right. by left.
      - exists k, w, post. done. }
    destruct (IH i Hc) as [K1 K2]. destruct Hc as (pre & w & post & Hl & Hn).
    assert (Hcall : EvAddCall i w ∈ x_log s) by (rewrite Hl; apply elem_of_app; right; by left). clear Hevs Hl Hno.
    split.
    + intros w0. destruct Ht; ccbn; try apply K1; (destruct (decide (i0 = i)) as [->|Hne]; [rewrite lookup_insert|rewrite lookup_insert_ne by done; apply K1]); try done.
      rewrite H in Ha. by apply Ha in Hcall.
    + intros w0. destruct Ht; ccbn; soft_done; try apply K2.
      * rewrite elem_of_cons. intros [[= -> ->]|?]; [by eapply K1|by eapply K2].
      * rewrite elem_of_cons. intros [E|?]; [|by eapply K2]. injection E as _ _ E. destruct e; [done|]. unfold err_dying in E. by destruct (t_dying _).
Qed.
Lemma early_add_refused me s pre i w post w' : reachable me s -> x_log s = pre ++ EvAddCall i w :: post -> (forall j, ~ EvUsed j ∈ post) -> ~ EvAddRet i w' None ∈ x_log s.
Proof. intros Hr Hl Hn. apply (early_add me s Hr i). by exists pre, w, post. Qed.

Lemma errdying_result me s pre e post : reachable me s -> x_log s = pre ++ EvErrDying e :: post ->
  (is_dying post /\ e = Some (ECatacombDying me)) \/ (~ is_dying post /\ e = Some (EMsg MsgStillAlive)).
Proof. intros Hr Hl. apply (at_event me s pre _ post Hr Hl). Qed.
(** Killing with the catacomb's own ErrDying, traced or not, changes nothing. *)
Lemma errdying_kill me s src e : reachable me s -> is_dying (x_log s) -> as_dying e = Some me -> kill me src (Some e) s = (emit (EvKill src (Some e)) s, false).
Proof.
  intros Hr Hd He. apply (l_dying me s Hr) in Hd. pose proof (c_panic s (reach_cinv me s Hr)) as Hp. unfold kill.
  assert (translate me (Some e) = Some ETombDying) as ->.
  { unfold translate. rewrite bool_decide_eq_false_2 by (intros [= ->]; done). rewrite He. by rewrite bool_decide_eq_true_2. }
  assert (tomb_kill (x_tomb s) (Some ETombDying) = x_tomb s) as ->. { unfold tomb_kill. unfold t_dying in Hd. by destruct (t_reason (x_tomb s)). }
  rewrite Hp. by destruct s.
Qed.
Lemma errdying_harmless me s e s' : reachable me s -> is_dying (x_log s) -> as_dying e = Some me -> step me s (LKill (Some e)) = Some s' -> s' = s <| x_log := EvKill FromClient (Some e) :: x_log s |>.
Proof.
  intros Hr Hd He Hs. unfold step in Hs. destruct (x_crash s); [done|]. cbn [step1] in Hs. destruct (honest _ _ _); [|done]. injection Hs as <-. rewrite (errdying_kill me s FromClient e Hr Hd He). done.
Qed.

(** ** C50, without the flag *)
Lemma bsum_size m : bsum m = size (filter (fun p : nat * bind => waiting_bind p.2 = true) m) + size (filter (fun p : nat * bind => stopping_bind p.2 = true) m).
Proof.
  unfold bsum. induction m as [|b r m Hb IH] using map_ind; [by rewrite !map_filter_empty, map_size_empty|].
  rewrite msum_new by done. cbn. rewrite IH. clear IH.
  assert (forall f : bind -> bool, size (filter (fun p : nat * bind => f p.2 = true) (<[b := r]> m)) = (if f r then 1 else 0) + size (filter (fun p : nat * bind => f p.2 = true) m)) as Hx.
  { intros f. destruct (f r) eqn:Hf.
    - rewrite map_filter_insert_True by done. rewrite map_size_insert_None; [done|]. apply map_filter_lookup_None. by left.
    - rewrite map_filter_insert_not'; [done|cbn; congruence|]. intros y Hy. congruence. }
  rewrite !Hx. unfold bc, waiting_bind, stopping_bind. destruct (b_wait r), (b_stop r); lia.
Qed.
Lemma wg_counter me s : reachable me s -> x_wg s = goroutines s.
Proof. intros Hr. rewrite (c_wg s (reach_cinv me s Hr)), bsum_size. unfold goroutines, lc. destruct (x_lis s); lia. Qed.
Lemma kill_wg me src e s : x_wg (fst (kill me src e s)) = x_wg s.
Proof. unfold kill. by destruct (t_panic _). Qed.
Lemma kill_crash_wg me src e s : x_wg (kill_or_crash me src e s) = x_wg s.
Proof. unfold kill_or_crash, kill. by destruct (t_panic _). Qed.
Lemma worker_kill_wg me k w s : x_wg (worker_kill me k w s) = x_wg s.
Proof. unfold worker_kill. destruct w; [done|]. by rewrite kill_wg. Qed.
Lemma wg_done_le s : x_wg (wg_done s) <= x_wg s.
Proof. unfold wg_done. destruct (x_wg s) eqn:H; cbn; lia. Qed.
Lemma gone_wg b s : x_wg (gone b s) = x_wg s.
Proof. unfold gone. by destruct (x_binds s !! b) as [[? [] []]|]. Qed.
(** Whoever adds to the WaitGroup does so before anybody can wait for it, or while it is not zero. *)
Lemma wg_new me s l s' : reachable me s -> step me s l = Some s' -> x_wg s < x_wg s' -> x_wg s <> 0 \/ x_work s = WkNone.
Proof.
  intros Hr Hs Hlt. pose proof (reach_cinv me s Hr) as V. destruct (decide (x_wg s = 0)) as [H0|]; [right|by left].
  assert (Hl : lc (x_lis s) = 0) by (pose proof (c_wg s V); lia). assert (Hn : forall s1, x_wg s1 <= x_wg s -> s' = s1 -> False) by (intros s1 H1 ->; lia).
  unfold step in Hs. destruct (x_crash s); [done|]. destruct l; cbn in Hs.
  2: { destruct (x_invs s !! i) as [pc|] eqn:Hi; [|done]. destruct pc; cbn in Hs;
       try (by apply (c_act s V _ _ Hi)); exfalso.
       - destruct (validate p); injection Hs as <-; cbn in Hlt; lia.
       - destruct (x_dirty s); injection Hs as <-; cbn in Hlt; lia.
       - destruct ws as [|[w|] ws]; injection Hs as <-; [cbn in Hlt; lia|rewrite worker_kill_wg in Hlt; cbn in Hlt; lia|cbn in Hlt; lia].
       - destruct (worker_wait w s); [|done]. injection Hs as <-. cbn in Hlt. lia. }
  all: exfalso.
  - destruct (x_invs s !! i); [done|]. injection Hs as <-. cbn in Hlt. lia.
  - destruct (x_adds s !! i); [done|]. injection Hs as <-. cbn in Hlt. lia.
  - destruct (x_adds s !! i) as [[? []| | |]|]; try done. destruct (x_lis s); try done.
  - destruct (x_adds s !! i) as [[]|]; try done. destruct (t_dying _); [|done]. injection Hs as <-. cbn in Hlt. lia.
  - destruct (x_adds s !! i) as [[]|]; try done. injection Hs as <-. rewrite worker_kill_wg in Hlt. cbn in Hlt. lia.
  - destruct (x_adds s !! i) as [[]|]; try done. destruct (worker_wait _ _); [|done]. injection Hs as <-. cbn in Hlt. lia.
  - destruct (honest _ _ _); [|done]. injection Hs as <-. rewrite kill_wg in Hlt. lia.
  - destruct (x_lis s); done.
  - destruct (x_lis s); try done.
  - destruct (x_work s); try done. destruct (match r with WkReturn _ => _ | _ => _ end); [|done]. injection Hs as <-. cbn in Hlt. lia.
  - destruct (x_work s); try done. injection Hs as <-. rewrite kill_crash_wg in Hlt. cbn in Hlt. lia.
  - destruct (x_work s); try done. destruct (bool_decide _); [|done]. injection Hs as <-. cbn in Hlt. lia.
  - destruct (x_work s); try done. injection Hs as <-. destruct (t_dead _); cbn in Hlt; lia.
  - destruct (x_binds s !! b) as [[? [] ?]|]; try done. destruct (worker_wait _ _) as [[]|]; try done; injection Hs as <-; cbn in Hlt; lia.
  - destruct (x_binds s !! b) as [[? [] ?]|]; try done. injection Hs as <-. rewrite kill_crash_wg in Hlt. cbn in Hlt. lia.
  - destruct (x_binds s !! b) as [[? [] ?]|]; try done. injection Hs as <-. cbn in Hlt. lia.
  - destruct (x_binds s !! b) as [[? [] ?]|]; try done. injection Hs as <-. rewrite gone_wg in Hlt. pose proof (wg_done_le (put b (mkBind b_worker VGone b_stop) s)) as Hd. cbn in Hd. lia.
  - destruct (x_binds s !! b) as [[? ? []]|]; try done. destruct (t_dying _); [|done]. injection Hs as <-. cbn in Hlt. lia.
  - destruct (x_binds s !! b) as [[? [] []]|]; try done; injection Hs as <-; cbn in Hlt; lia.
  - destruct (x_binds s !! b) as [[? ? []]|]; try done. injection Hs as <-. rewrite worker_kill_wg in Hlt. cbn in Hlt. lia.
  - destruct (x_binds s !! b) as [[? ? []]|]; try done. destruct (worker_wait _ _); [|done]. injection Hs as <-. cbn in Hlt. lia.
  - destruct (x_binds s !! b) as [[? ? []]|]; try done. injection Hs as <-. rewrite gone_wg in Hlt. pose proof (wg_done_le (put b (mkBind b_worker b_wait SGone) s)) as Hd. cbn in Hd. lia.
  - destruct (x_ended s !! n); [done|]. destruct (honest _ _ _); [|done]. injection Hs as <-. cbn in Hlt. lia.
  - destruct (tomb_wait _); [|done]. injection Hs as <-. cbn in Hlt. lia.
  - injection Hs as <-. cbn in Hlt. lia.
Qed.
