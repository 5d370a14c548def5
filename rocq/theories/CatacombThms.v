(** Facts about the catacomb in the words of the properties. *)
From stdpp Require Import gmap strings list.
From Coq Require Import Lia.
From RecordUpdate Require Import RecordSet.
From Verif Require Import Err Tomb Sum Catacomb CatacombSpec CatacombProgressSpec CatacombInv CatacombTr CatacombLog CatacombHist CatacombProgress.
Import RecordSetNotations.

Lemma nil_item_ok l k : nil_item l k = None <-> ~ None ∈ l.
Proof.
  revert k. induction l as [|[w|] l IH]; intros k; cbn.
  - split; [|done]. intros _ H. by apply elem_of_nil in H.
  - rewrite IH, elem_of_cons. naive_solver.
  - split; [done|]. intros H. destruct H. by left.
Qed.
Lemma validate_valid p : validate p = None <-> valid_plan p.
Proof.
  unfold validate, valid_plan. case_bool_decide as H1; [naive_solver|]. destruct (p_site p); [|naive_solver]. destruct (p_work p); [|naive_solver]. cbn.
  rewrite <- (nil_item_ok _ 0). destruct (nil_item _ _); naive_solver.
Qed.
Lemma failed_why log i p r : why_failed log i p r -> failure log i p r.
Proof.
  intros [(e & H1 & ->)|(H1 & H2)]; [left|right; by rewrite <- validate_valid]. rewrite <- validate_valid, H1. split; [done|].
  revert H1. unfold validate. case_bool_decide; [intros [= <-]; eauto|]. destruct (p_site p); [|intros [= <-]; eauto]. destruct (p_work p); [|intros [= <-]; eauto].
  destruct (nil_item _ _); cbn; [intros [= <-]; eauto|done].
Qed.
Lemma split_at (ev : event) log : ev ∈ log -> exists pre post, log = pre ++ ev :: post.
Proof. intros H. by apply elem_of_list_split in H as (a & b & ->); eauto. Qed.
Lemma in_later (ev x : event) pre post : ev ∈ post -> ev ∈ pre ++ x :: post.
Proof. intros H. apply elem_of_app. right. by right. Qed.
Lemma good_in me s ev : reachable me s -> ev ∈ x_log s -> exists pre post, x_log s = pre ++ ev :: post /\ good me ev post.
Proof. intros Hr H. destruct (split_at _ _ H) as (pre & post & Hl). exists pre, post. split; [done|]. by eapply at_event. Qed.
(** Two occurrences of events of which there is at most one. *)
Lemma at_most_one me s (P : event -> Prop) : reachable me s -> (forall ev post, P ev -> good me ev post -> forall ev', P ev' -> ~ ev' ∈ post) ->
  forall ev ev', P ev -> P ev' -> ev ∈ x_log s -> ev' ∈ x_log s -> ev = ev'.
Proof.
  intros Hr HP. pose proof (l_good me s Hr) as H. induction (x_log s) as [|x log IH]; intros ev ev' H1 H2 H3 H4; [by apply elem_of_nil in H3|]. cbn in H. destruct H as [Hx H].
  apply el_cons in H3 as [->|H3]; apply el_cons in H4 as [->|H4]; [done|by destruct (HP x log H1 Hx ev' H2)|by destruct (HP x log H2 Hx ev H1)|by apply IH].
Qed.
Lemma app_cut {A} (P : A -> Prop) (l1 l2 : list A) x y m1 m2 : l1 ++ x :: l2 = m1 ++ y :: m2 -> x = y /\ l2 = m2 \/ y ∈ l2 \/ x ∈ m2.
Proof.
  revert m1. induction l1 as [|a l1 IH]; intros [|b m1] H; cbn in H; simplify_eq.
  - by left.
  - right; left. apply elem_of_app. right. by left.
  - right; right. apply elem_of_app. right. by left.
  - by apply (IH m1).
Qed.

(** ** C43 *)
Lemma invoke_call me s i p p' : reachable me s -> EvInvoke i p ∈ x_log s -> EvInvoke i p' ∈ x_log s -> p = p'.
Proof. intros Hr H1 H2. by apply (inv_once me s Hr i p p' H1 H2). Qed.
Lemma used_once me s i j : reachable me s -> EvUsed i ∈ x_log s -> EvUsed j ∈ x_log s -> i = j.
Proof. intros Hr. apply (li_one me s (l_linv me s Hr)). Qed.
Lemma invoke_answer me s pre i r post p : reachable me s -> x_log s = pre ++ EvInvoked i r :: post -> EvInvoke i p ∈ x_log s ->
  match r with
  | None => valid_plan p /\ (forall j, EvUsed j ∈ x_log s <-> j = i) /\ EvWork ∈ post /\ forall w, Some w ∈ p_init p -> exists b, EvBind b w ∈ post
  | Some e => ~ EvUsed i ∈ x_log s /\ failure post i p e /\ forall w, Some w ∈ p_init p -> stopped post i w
  end.
Proof.
  intros Hr Hl Hp. destruct (at_event me s pre _ post Hr Hl) as (Hn & p' & H1 & H2).
  assert (p' = p) as -> by (eapply (invoke_call me s i); eauto; rewrite Hl; by apply in_later). destruct r as [e|].
  - destruct H2 as (K1 & K2%failed_why & K3). split; [|done]. intros Hu. pose proof (li_inv _ _ (l_linv me s Hr) i) as Hi.
    assert (Hin : EvInvoked i (Some e) ∈ x_log s) by (rewrite Hl; apply elem_of_app; right; by left).
    destruct (used_back me s i (l_linv me s Hr) Hu) as (pc & Hpc & Ha). rewrite Hpc in Hi. destruct Ha as [Ha|[-> _]].
    + destruct pc; try done; [destruct Hi as (? & ? & ? & ? & Hi & _)|destruct Hi as (? & ? & ? & Hi & _)|destruct Hi as (? & ? & ? & Hi & _)]; by apply Hi in Hin.
    + destruct Hi as (? & _ & [(_ & Hi & _)|(Hi & _)]); [by apply Hi in Hin|done].
  - destruct H2 as (K1 & K2 & K3 & acc & K4). split; [by apply validate_valid|]. assert (Hu : EvUsed i ∈ x_log s) by (rewrite Hl; by apply in_later).
    split; [intros j; split; [intros Hj; by eapply used_once|by intros ->]|]. split; [done|]. intros w Hw.
    assert (Hb : forall log w, w ∈ bound_of log -> exists b, EvBind b w ∈ log).
    { clear. induction log as [|ev log IH]; intros w Hw; [by apply elem_of_nil in Hw|].
      assert (Ho : w ∈ bound_of log -> exists b, EvBind b w ∈ ev :: log) by (intros H; destruct (IH w H) as [b Hb]; exists b; by right).
      destruct ev; cbn in Hw; auto. apply elem_of_app in Hw as [Hw|Hw]; [auto|]. apply elem_of_list_singleton in Hw as ->. exists b. by left. }
    apply Hb. rewrite K4. apply elem_of_app. left. unfold inits. apply elem_of_list_omap. by exists (Some w).
Qed.
Lemma invoke_success_once me s i j : reachable me s -> EvInvoked i None ∈ x_log s -> EvInvoked j None ∈ x_log s -> i = j.
Proof.
  intros Hr H1 H2. assert (Hu : forall i, EvInvoked i None ∈ x_log s -> EvUsed i ∈ x_log s).
  { intros k Hk. destruct (good_in me s _ Hr Hk) as (pre & post & Hl & _ & p & _ & _ & Hu & _). rewrite Hl. by apply in_later. }
  eapply used_once; eauto.
Qed.
Lemma invoke_invalid_unused me s i p : reachable me s -> EvInvoke i p ∈ x_log s -> ~ valid_plan p -> ~ EvUsed i ∈ x_log s.
Proof.
  intros Hr Hp Hv Hu. destruct (good_in me s _ Hr Hu) as (pre & post & Hl & _ & p' & H1 & H2). apply Hv, validate_valid.
  assert (p' = p) as <- by (eapply (invoke_call me s i); eauto; rewrite Hl; by apply in_later). done.
Qed.
Lemma dirty_used me s : reachable me s -> x_dirty s = true <-> exists i p, EvUsed i ∈ x_log s /\ EvInvoke i p ∈ x_log s /\ valid_plan p.
Proof.
  intros Hr. rewrite (li_dirty _ _ (l_linv me s Hr)). split; [|naive_solver]. intros [i Hu]. destruct (good_in me s _ Hr Hu) as (pre & post & Hl & _ & p & H1 & H2).
  exists i, p. split; [done|]. split; [rewrite Hl; by apply in_later|by apply validate_valid].
Qed.
(** Calls come to an end. *)
Lemma wk_waited me s w : reachable me s -> worker_wait w s = None <-> ~ finished (x_log s) w.
Proof.
  intros Hr. pose proof (reach_cinv me s Hr) as V. destruct w as [n|]; cbn.
  - setoid_rewrite (l_end me s Hr). destruct (x_ended s !! n); naive_solver.
  - rewrite (l_dead me s Hr), <- (c_dead s V). unfold tomb_wait. destruct (t_dead (x_tomb s)); naive_solver.
Qed.
Lemma invoke_ends me s i p : reachable me s -> x_crash s = false -> at_rest me s -> EvInvoke i p ∈ x_log s ->
  (exists r, EvInvoked i r ∈ x_log s) \/ (exists w r, Some w ∈ p_init p /\ failure (x_log s) i p r /\ EvWKill (ByInvoke i) w ∈ x_log s /\ ~ finished (x_log s) w).
Proof.
  intros Hr Hc Hq Hp. pose proof (rest_rested me s Hc Hq) as R. destruct (inv_once me s Hr i p p Hp Hp) as [_ [pc Hpc]]. pose proof (r_invs s R i pc Hpc) as Hi.
  pose proof (li_inv _ _ (l_linv me s Hr) i) as Hf. rewrite Hpc in Hf. destruct pc; try done.
  - right. destruct Hf as (p' & dn & K1 & K2 & K3 & K4 & K5 & K6 & K7). assert (p' = p) as -> by (by eapply (invoke_call me s i)). exists w, r.
    split; [rewrite K4; apply elem_of_app; right; by left|]. split; [by apply failed_why|]. split; [done|]. by eapply wk_waited.
  - left. destruct Hf as (p' & _ & [(_ & K & _)|(_ & r & K & _)]); [exists None|exists (Some r)]; by apply K.
Qed.

(** ** C44 *)
Lemma add_call me s i w w' : reachable me s -> EvAddCall i w ∈ x_log s -> EvAddCall i w' ∈ x_log s -> w = w'.
Proof.
  intros Hr H1 H2. assert (EvAddCall i w = EvAddCall i w') as E; [|by injection E].
  eapply (at_most_one me s (fun ev => match ev with EvAddCall j _ => j = i | _ => False end)); eauto; try done. intros ev post Hev Hg ev' Hev'. destruct ev, ev'; try done. subst. apply Hg.
Qed.
Lemma add_answer me s pre i w r post : reachable me s -> x_log s = pre ++ EvAddRet i w r :: post ->
  EvAddCall i w ∈ post /\ (forall w' r', ~ EvAddRet i w' r' ∈ post) /\
  match r with
  | None => (exists j, EvUsed j ∈ post) /\ ~ EvDead ∈ post
  | Some x => is_dying post /\ EvWKill (ByAdd i) w ∈ post /\ exists e, finished_with me post w e /\ x = match e with Some y => EWrap MsgTrace y | None => ECatacombDying me end
  end.
Proof. intros Hr Hl. apply (at_event me s pre _ post Hr Hl). Qed.
Lemma add_early me s : reachable me s -> forall i w, x_adds s !! i = Some (ASelect w false) -> exists pre post, x_log s = pre ++ EvAddCall i w :: post /\ forall j, ~ EvUsed j ∈ post.
Proof.
  apply (reach_tr me (fun s => forall i w, x_adds s !! i = Some (ASelect w false) -> exists pre post, x_log s = pre ++ EvAddCall i w :: post /\ forall j, ~ EvUsed j ∈ post)).
  { intros i w H. change (x_adds init) with (∅ : gmap nat apc) in H. by rewrite lookup_empty in H. }
  clear s. intros s l s' Hr V _ IH Ht i w.
  assert (Hsame : x_adds s !! i = Some (ASelect w false) -> exists pre post, x_log s' = pre ++ EvAddCall i w :: post /\ forall j, ~ EvUsed j ∈ post).
  { intros H. destruct (IH i w H) as (pre & post & Hl & Hn). destruct (tr_log _ _ _ _ Ht) as [evs ->]. exists (evs ++ pre), post. rewrite Hl, app_assoc. done. }
  destruct Ht; ccbn; try apply Hsame; intros Hx; (destruct (decide (i0 = i)) as [->|Hne]; [rewrite lookup_insert in Hx|rewrite lookup_insert_ne in Hx by done; by apply Hsame]); try done.
  injection Hx as -> Hd. exists [], (x_log s). split; [done|]. intros j Hj. assert (x_dirty s = true) by (apply (li_dirty _ _ (l_linv me s Hr)); eauto). congruence.
Qed.
Lemma add_ends me s i w : reachable me s -> x_crash s = false -> at_rest me s -> EvAddCall i w ∈ x_log s ->
  (exists r, EvAddRet i w r ∈ x_log s) \/
  (is_dying (x_log s) /\ EvWKill (ByAdd i) w ∈ x_log s /\ ~ finished (x_log s) w) \/
  (~ is_dying (x_log s) /\ exists pre post, x_log s = pre ++ EvAddCall i w :: post /\ forall j, ~ EvUsed j ∈ post).
Proof.
  intros Hr Hc Hq Hp. pose proof (rest_rested me s Hc Hq) as R. pose proof (reach_cinv me s Hr) as V. pose proof (l_adds me s Hr i) as Ha. destruct (x_adds s !! i) as [a|] eqn:E; [|by apply Ha in Hp].
  pose proof (r_adds s R i a E) as Hi. destruct a; try done.
  - right; right. destruct Ha as (K1 & K2 & K3). assert (w0 = w) as -> by (by eapply add_call). destruct Hi as [Hd Hl]. split; [rewrite (l_dying me s Hr); congruence|].
    destruct ch; [exfalso|by apply (add_early me s Hr)]. specialize (K3 eq_refl). specialize (Hl eq_refl). pose proof (r_lis s R) as RL. assert (x_work s = WkNone \/ x_work s <> WkNone) as [Hw|Hw] by (destruct (x_work s); auto).
    + destruct (c_has s V K3 Hw) as (j & pc & Hj & Hact). pose proof (r_invs s R j pc Hj). by destruct pc.
    + pose proof (c_lis s V Hw) as HL. pose proof (c_gone s V) as HG. destruct (x_lis s); try done. specialize (HG eq_refl). congruence.
  - right; left. destruct Ha as (K1 & K2 & K3 & K4). assert (w0 = w) as -> by (by eapply add_call). split; [done|]. split; [done|]. by eapply wk_waited.
  - left. destruct Ha as (w' & r & K). exists r. destruct (good_in me s _ Hr K) as (pre & post & Hl & Hc' & _). assert (w' = w) as <-; [|done]. eapply (add_call me s i); eauto. rewrite Hl. by apply in_later.
Qed.
(** All bound workers are Init workers or were added, and nobody is forgotten: at most the last one is still to be bound. *)
Lemma bound_seq me s i p : reachable me s -> EvInvoked i None ∈ x_log s -> EvInvoke i p ∈ x_log s ->
  exists acc rest, accepted_of (x_log s) = acc ++ rest /\ bound_of (x_log s) = inits p ++ acc /\ length rest <= 1 /\ (x_crash s = false -> at_rest me s -> rest = []).
Proof.
  intros Hr Hi Hp. destruct (good_in me s _ Hr Hi) as (pre & post & Hl & _ & p' & _ & _ & Hu & _). assert (Hu' : EvUsed i ∈ x_log s) by (rewrite Hl; by apply in_later).
  destruct (used_back me s i (l_linv me s Hr) Hu') as (pc & Hpc & [Ha|(-> & q & Q1 & Q2 & acc & Q3 & Q4)]).
  - exfalso. pose proof (li_inv _ _ (l_linv me s Hr) i) as Hf. rewrite Hpc in Hf. destruct pc; try done; [destruct Hf as (? & ? & ? & ? & Hf & _)|destruct Hf as (? & ? & ? & Hf & _)|destruct Hf as (? & ? & ? & Hf & _)]; by apply Hf in Hi.
  - assert (q = p) as -> by (by eapply (invoke_call me s i)). exists acc, (pend (x_lis s)). split; [done|]. split; [done|]. split; [destruct (x_lis s); cbn; lia|].
    intros Hc Hq. pose proof (r_lis s (rest_rested me s Hc Hq)) as RL. by destruct (x_lis s).
Qed.

(** ** C45 *)
Lemma bound_in log w : w ∈ bound_of log -> exists b, EvBind b w ∈ log.
Proof.
  induction log as [|ev log IH]; intros Hw; [by apply elem_of_nil in Hw|].
  assert (Ho : w ∈ bound_of log -> exists b, EvBind b w ∈ ev :: log) by (intros H; destruct (IH H) as [b Hb]; exists b; by right).
  destruct ev; cbn in Hw; auto. apply elem_of_app in Hw as [Hw|Hw]; [auto|]. apply elem_of_list_singleton in Hw as ->. exists b. by left.
Qed.
Lemma accepted_in log i w : EvAddRet i w None ∈ log -> w ∈ accepted_of log.
Proof.
  induction log as [|ev log IH]; intros Hw; [by apply elem_of_nil in Hw|]. apply el_cons in Hw as [<-|Hw]; [cbn; apply elem_of_app; right; by left|]. specialize (IH Hw).
  destruct ev; cbn; try done. destruct r; [done|]. apply elem_of_app. by left.
Qed.
Lemma dead_finished me s pre post : reachable me s -> x_log s = pre ++ EvDead :: post ->
  work_returned post /\
  (forall b w, EvBind b w ∈ x_log s -> EvBind b w ∈ post /\ finished post w) /\
  (forall i w, EvAddRet i w None ∈ x_log s -> EvAddRet i w None ∈ post /\ finished post w) /\
  (forall i p w, EvInvoked i None ∈ x_log s -> EvInvoke i p ∈ x_log s -> Some w ∈ p_init p -> finished post w).
Proof.
  intros Hr Hl. destruct (at_event me s pre _ post Hr Hl) as (H1 & H2 & (r & e & H3 & H3') & H4 & (i0 & p0 & H5 & H6 & H7)).
  assert (Hlate : forall ev, ev ∈ pre -> exists pre' post', x_log s = pre' ++ ev :: post' /\ EvDead ∈ post').
  { intros ev Hev. apply elem_of_list_split in Hev as (l1 & l2 & ->). exists l1, (l2 ++ EvDead :: post). split; [by rewrite Hl, <- app_assoc|]. apply elem_of_app. right. by left. }
  assert (Hnb : forall b w, ~ EvBind b w ∈ pre).
  { intros b w Hev. destruct (Hlate _ Hev) as (pre' & post' & Hl' & Hd). destruct (at_event me s pre' _ post' Hr Hl') as (_ & K & _). done. }
  assert (Hna : forall i w, ~ EvAddRet i w None ∈ pre).
  { intros i w Hev. destruct (Hlate _ Hev) as (pre' & post' & Hl' & Hd). destruct (at_event me s pre' _ post' Hr Hl') as (_ & _ & _ & K). done. }
  assert (Hb : forall w, w ∈ bound_of post -> finished post w) by (intros w Hw; destruct (bound_in post w Hw) as [b Hb]; by eapply H4).
  split; [by exists r|]. split; [|split].
  - intros b w Hbw. rewrite Hl in Hbw. apply elem_of_app in Hbw as [Hbw|Hbw]; [by apply Hnb in Hbw|]. apply el_cons in Hbw as [?|Hbw]; [done|]. split; [done|]. by eapply H4.
  - intros i w Hiw. rewrite Hl in Hiw. apply elem_of_app in Hiw as [Hiw|Hiw]; [by apply Hna in Hiw|]. apply el_cons in Hiw as [?|Hiw]; [done|]. split; [done|]. apply Hb. rewrite H7. apply elem_of_app. right. by eapply accepted_in.
  - intros i p w Hi Hp Hw. destruct (good_in me s _ Hr Hi) as (pre' & post' & Hl' & _ & p' & K1 & _ & K2 & _).
    assert (i = i0) as -> by (apply (used_once me s i i0 Hr); [rewrite Hl'; by apply in_later|rewrite Hl; by apply in_later]).
    assert (p = p0) as -> by (apply (invoke_call me s i0 p p0 Hr Hp); rewrite Hl; by apply in_later). apply Hb. rewrite H7. apply elem_of_app. left. apply elem_of_list_omap. by exists (Some w).
Qed.
Lemma dead_tomb me s : reachable me s -> t_dead (x_tomb s) = true <-> EvDead ∈ x_log s.
Proof. intros Hr. rewrite (l_dead me s Hr). apply (c_dead s (reach_cinv me s Hr)). Qed.

(** ** C46 *)
Lemma wait_result me s pre e post : reachable me s -> x_log s = pre ++ EvWait e :: post -> EvDead ∈ post /\ e = first_said me post.
Proof. intros Hr Hl. apply (at_event me s pre _ post Hr Hl). Qed.
Lemma said_app me pre post x : first_said me post = Some x -> first_said me (pre ++ post) = Some x.
Proof. intros H. induction pre as [|ev pre IH]; [done|]. destruct ev; cbn; try done. by rewrite IH. Qed.
Lemma said_quiet me pre post : (forall src e, EvKill src e ∈ pre -> says me e = None) -> first_said me (pre ++ post) = first_said me post.
Proof.
  intros H. induction pre as [|ev pre IH]; [done|]. assert (IH' : first_said me (pre ++ post) = first_said me post) by (apply IH; intros src e He; eapply H; right; exact He).
  destruct ev; cbn; try done. rewrite IH', (H src e ltac:(left; reflexivity)). by destruct (first_said me post).
Qed.
Lemma wait_at_death me s pre e mid post : reachable me s -> x_log s = pre ++ EvWait e :: mid ++ EvDead :: post ->
  first_said me post <> None \/ (forall src x, EvKill src x ∈ mid -> says me x = None) -> e = first_said me post.
Proof.
  intros Hr Hl H. destruct (wait_result me s pre e _ Hr Hl) as [_ ->]. destruct H as [H|H].
  - destruct (first_said me post) as [x|] eqn:E; [|done]. apply said_app. cbn. done.
  - rewrite said_quiet by done. done.
Qed.
Lemma wait_stable me s pre x post e : reachable me s -> x_log s = pre ++ EvWait (Some x) :: post -> EvWait e ∈ pre -> e = Some x.
Proof.
  intros Hr Hl He. apply elem_of_list_split in He as (l1 & l2 & ->). destruct (wait_result me s _ _ _ Hr Hl) as [_ H].
  assert (Hl' : x_log s = l1 ++ EvWait e :: (l2 ++ EvWait (Some x) :: post)) by (by rewrite Hl, <- app_assoc). destruct (wait_result me s _ _ _ Hr Hl') as [_ ->]. apply said_app. cbn. done.
Qed.
Lemma err_result me s : reachable me s -> tomb_err (x_tomb s) = Some ETombStillAlive /\ ~ is_dying (x_log s) \/ is_dying (x_log s) /\ tomb_err (x_tomb s) = first_said me (x_log s).
Proof.
  intros Hr. pose proof (l_dying me s Hr) as Hd. unfold tomb_err, t_dying in *. destruct (t_reason (x_tomb s)) eqn:E.
  - left. split; [done|]. rewrite Hd. done.
  - right. split; [by apply Hd|]. by apply (l_reason me s).
Qed.

(** ** C47 *)
Lemma kill_panics me s : reachable me s -> (forall src e, EvKillPanic src e ∈ x_log s -> e = Some ETombStillAlive) /\ (forall src, ~ EvKill src (Some ETombStillAlive) ∈ x_log s).
Proof.
  intros Hr. split.
  - intros src e He. destruct (good_in me s _ Hr He) as (pre & post & Hl & -> & Hg). done.
  - revert s Hr. apply (reach_tr me (fun s => forall src, ~ EvKill src (Some ETombStillAlive) ∈ x_log s)); [intros src H; by apply elem_of_nil in H|].
    intros s l s' Hr V Hc IH Ht src. specialize (IH src).
    assert (Hk : forall src' e t t' p ev, kres me src' e t t' p ev -> EvKill src (Some ETombStillAlive) <> ev).
    { intros src' e t t' p ev K <-. inversion K as [H|H]; subst. done. }
    assert (Hw : forall k w, ~ EvKill src (Some ETombStillAlive) ∈ wk_evs k w).
    { intros k [n|]; cbn; rewrite ?elem_of_cons, elem_of_nil; naive_solver. }
    assert (Hg : forall b v p, ~ EvKill src (Some ETombStillAlive) ∈ gone_evs b v p).
    { intros b [] []; cbn; rewrite ?elem_of_cons, elem_of_nil; naive_solver. }
    destruct Ht; cbn -[wk_evs gone_evs]; rewrite ?elem_of_cons, ?elem_of_app; try (by naive_solver). all: intros [?|?]; [by eapply Hg|done].
Qed.
Lemma kill_call me s e s' : reachable me s -> step me s (LKill e) = Some s' ->
  (e = Some ETombStillAlive -> s' = s <| x_log := EvKillPanic FromClient e :: x_log s |>) /\ (e <> Some ETombStillAlive -> x_log s' = EvKill FromClient e :: x_log s).
Proof.
  intros Hr Hs. pose proof (c_panic s (reach_cinv me s Hr)) as Hp. unfold step in Hs. destruct (x_crash s); [done|]. cbn [step1] in Hs. destruct (honest me e s) eqn:Hh; [|done]. injection Hs as <-. split.
  - intros ->. by destruct s.
  - intros He. destruct (kill_cases me FromClient e s) as [[E K]|[E K]]; rewrite E; [|done]. destruct He. by eapply panic_still.
Qed.
Lemma crash_why me s : reachable me s -> x_crash s = true ->
  (exists b n, EvBind b (WExt n) ∈ x_log s /\ EvEnd n (Some ETombStillAlive) ∈ x_log s) \/ EvWorkRet (WkReturn (Some ETombStillAlive)) ∈ x_log s.
Proof.
  intros Hr Hc. assert (H : x_crash s = true -> exists src e, EvKillPanic src e ∈ x_log s /\ src <> FromClient).
  { clear Hc. revert s Hr. apply (reach_tr me (fun s => x_crash s = true -> exists src e, EvKillPanic src e ∈ x_log s /\ src <> FromClient)); [done|]. intros s l s' Hr V Hc _ Ht Hc'.
    destruct Ht; cbn in Hc'; try congruence; subst; inversion H0; subst; [exists FromWork, e|exists (FromWorker b), (Some e)]; (split; [by left|done]). }
  destruct (H Hc) as (src & e & He & Hs). destruct (good_in me s _ Hr He) as (pre & post & Hl & -> & Hg). rewrite Hl. destruct src; try done.
  - destruct Hg as (n & K1 & K2). left. exists b, n. split; by apply in_later.
  - right. by apply in_later.
Qed.

(** ** C48 *)
Lemma end_once me s n e e' : reachable me s -> EvEnd n e ∈ x_log s -> EvEnd n e' ∈ x_log s -> e = e'.
Proof. intros Hr H1 H2. apply (l_end me s Hr) in H1, H2. congruence. Qed.
Lemma bind_once me s b w w' : reachable me s -> EvBind b w ∈ x_log s -> EvBind b w' ∈ x_log s -> w = w'.
Proof. intros Hr H1 H2. apply (l_bind me s Hr) in H1 as (? & ? & H1), H2 as (? & ? & H2). congruence. Qed.
Lemma rest_finished me s b n e : reachable me s -> x_crash s = false -> at_rest me s -> EvBind b (WExt n) ∈ x_log s -> EvEnd n e ∈ x_log s ->
  EvGone b ∈ x_log s /\ (e <> None -> EvKill (FromWorker b) e ∈ x_log s).
Proof.
  intros Hr Hc Hq Hb He. pose proof (rest_rested me s Hc Hq) as R. apply (l_bind me s Hr) in Hb as (v & p & Hb). apply (l_end me s Hr) in He.
  destruct (l_bfact me s Hr _ _ _ _ Hb) as [Hv Hs].
  assert (v = VGone) as -> by (destruct (r_wait s R _ _ _ _ Hb) as [[_ H]|H]; [cbn in H; congruence|done]).
  assert (p = SGone) as -> by (destruct (r_stop s R _ _ _ _ Hb) as [(_ & H & _)|[[_ H]|H]]; [done|cbn in H; congruence|done]).
  split; [apply (l_gone me s Hr); eauto|]. destruct Hv as (n' & e' & [= <-] & Hn & Hk). assert (e' = e) as -> by congruence. auto.
Qed.
Lemma worker_error_kills me s b n e : reachable me s -> x_crash s = false -> at_rest me s -> EvBind b (WExt n) ∈ x_log s -> EvEnd n (Some e) ∈ x_log s -> EvKill (FromWorker b) (Some e) ∈ x_log s.
Proof. intros Hr Hc Hq Hb He. by apply (rest_finished me s b n (Some e) Hr Hc Hq Hb He). Qed.
Lemma worker_clean me s b n e : reachable me s -> EvBind b (WExt n) ∈ x_log s -> EvEnd n None ∈ x_log s -> ~ EvKill (FromWorker b) e ∈ x_log s.
Proof.
  intros Hr Hb Hn Hk. destruct (good_in me s _ Hr Hk) as (pre & post & Hl & n' & K1 & K2 & K3). apply K3.
  assert (WExt n' = WExt n) as [= ->] by (eapply (bind_once me s b); eauto; rewrite Hl; by apply in_later). eapply (end_once me s n); eauto. rewrite Hl. by apply in_later.
Qed.
Lemma dying_why me s : reachable me s -> is_dying (x_log s) ->
  (exists e, EvKill FromClient e ∈ x_log s) \/
  (exists b n e, EvBind b (WExt n) ∈ x_log s /\ EvEnd n (Some e) ∈ x_log s) \/
  work_returned (x_log s) \/
  (exists i p, EvInvoke i p ∈ x_log s /\ Some WSelf ∈ p_init p /\ ~ EvUsed i ∈ x_log s).
Proof.
  intros Hr. pose proof (l_good me s Hr) as Hg. pose proof (fun i => li_inv me s (l_linv me s Hr) i) as Hi.
  assert (Hx : is_dying (x_log s) -> (exists e, EvKill FromClient e ∈ x_log s) \/
    (exists b n e, EvBind b (WExt n) ∈ x_log s /\ EvEnd n (Some e) ∈ x_log s) \/ work_returned (x_log s) \/ (exists i, EvWKill (ByInvoke i) WSelf ∈ x_log s)).
  { clear Hi. induction (x_log s) as [|ev log IH]; [intros (? & ? & H); by apply elem_of_nil in H|]. destruct Hg as [Hev Hg]. specialize (IH Hg).
    assert (Hup : is_dying log -> (exists e, EvKill FromClient e ∈ ev :: log) \/
      (exists b n e, EvBind b (WExt n) ∈ ev :: log /\ EvEnd n (Some e) ∈ ev :: log) \/ work_returned (ev :: log) \/ (exists i, EvWKill (ByInvoke i) WSelf ∈ ev :: log)).
    { intros Hd. destruct (IH Hd) as [[e H]|[(b & n & e & H1 & H2)|[[r H]|[i H]]]].
      - left. exists e. by right.
      - right; left. exists b, n, e. split; by right.
      - right; right; left. exists r. by right.
      - right; right; right. exists i. by right. }
    intros (src & e & H). apply el_cons in H as [<-|H]; [|apply Hup; by exists src, e]. clear IH. destruct src; cbn in Hev.
    - left. exists e. by left.
    - destruct Hev as (n & H1 & H2 & H3). destruct e as [e|]; [|done]. right; left. exists b, n, e. split; by right.
    - destruct Hev as (r & H1 & H2). right; right; left. exists r. by right.
    - destruct Hev as (-> & k & Hk). destruct k as [b|i|i].
      + apply Hup. clear Hup. apply elem_of_list_split in Hk as (l1 & l2 & ->). apply hist_at in Hg as [Hd _]. destruct Hd as (a & c & Hd). exists a, c. by apply in_later.
      + apply Hup. clear Hup. apply elem_of_list_split in Hk as (l1 & l2 & ->). apply hist_at in Hg as [Hd _]. destruct Hd as (a & c & Hd). exists a, c. by apply in_later.
      + right; right; right. exists i. by right. }
  intros Hd. destruct (Hx Hd) as [?|[?|[?|[i Hk]]]]; [auto|auto|auto|]. right; right; right. destruct (good_in me s _ Hr Hk) as (pre & post & Hl & Hu & p & r & K1 & K2 & K3). exists i, p.
  assert (K1' : EvInvoke i p ∈ x_log s) by (rewrite Hl; by apply in_later). split; [done|]. split; [done|]. intros Hu'.
  destruct (used_back me s i (l_linv me s Hr) Hu') as (pc & Hpc & Ha). 
  destruct (good_in me s _ Hr Hu') as (pre2 & post2 & Hl2 & _ & p2 & K4 & K5). assert (p2 = p) as -> by (eapply (invoke_call me s i); eauto; rewrite Hl2; by apply in_later).
  destruct K3 as [(x & K3 & _)|(_ & _ & j & Hj & K3)]; [congruence|]. apply Hj. eapply (used_once me s); eauto. rewrite Hl. by apply in_later.
Qed.

(** ** C49 *)
Lemma bind_kill_dying me s pre b w post : reachable me s -> x_log s = pre ++ EvWKill (ByBind b) w :: post -> is_dying post /\ EvBind b w ∈ post.
Proof. intros Hr Hl. apply (at_event me s pre _ post Hr Hl). Qed.
Lemma dying_stops me s b w : reachable me s -> x_crash s = false -> at_rest me s -> is_dying (x_log s) -> EvBind b w ∈ x_log s ->
  EvGone b ∈ x_log s /\ finished (x_log s) w \/ EvWKill (ByBind b) w ∈ x_log s /\ ~ finished (x_log s) w.
Proof.
  intros Hr Hc Hq Hd Hb. pose proof (rest_rested me s Hc Hq) as R. apply (l_bind me s Hr) in Hb as (v & p & Hb).
  destruct (l_bfact me s Hr _ _ _ _ Hb) as [Hv Hs]. apply (l_dying me s Hr) in Hd.
  destruct (r_stop s R _ _ _ _ Hb) as [(_ & _ & H)|[[-> H]| ->]]; [congruence| |].
  - right. split; [apply Hs|]. by eapply wk_waited.
  - left. destruct Hs as (n & e & -> & He). assert (v = VGone) as -> by (destruct (r_wait s R _ _ _ _ Hb) as [[_ H]|H]; [cbn in H; congruence|done]).
    split; [apply (l_gone me s Hr); eauto|]. exists e. by apply (l_end me s Hr).
Qed.

(** ** C50 *)
Lemma waitgroup me s : reachable me s -> x_wgbad s = false.
Proof. intros Hr. apply (c_wgbad s (reach_cinv me s Hr)). Qed.

(** ** C51 *)
Lemma shutdown_rest me s : reachable me s -> x_crash s = false -> at_rest me s -> is_dying (x_log s) -> (exists i, EvUsed i ∈ x_log s) ->
  EvDead ∈ x_log s \/ (EvWork ∈ x_log s /\ ~ work_returned (x_log s)) \/ EvWorkRet WkGoexit ∈ x_log s \/
  (exists b w, EvBind b w ∈ x_log s /\ EvWKill (ByBind b) w ∈ x_log s /\ ~ finished (x_log s) w).
Proof.
  intros Hr Hc Hq Hd Hu. pose proof (rest_rested me s Hc Hq) as R. pose proof (reach_cinv me s Hr) as V. pose proof (l_work me s Hr) as W. unfold wfact in W.
  apply (li_dirty _ _ (l_linv me s Hr)) in Hu. pose proof (r_work s R) as RW. pose proof (l_dead me s Hr) as D.
  destruct (x_work s) as [| | |g| | |] eqn:E; try done.
  - destruct (c_has s V Hu E) as (j & pc & Hj & Ha). pose proof (r_invs s R j pc Hj). by destruct pc.
  - right; left. done.
  - destruct g; [right; right; left; by apply W|]. right; right; right. pose proof (c_wg s V) as G.
    assert (HL : lc (x_lis s) = 0). { pose proof (r_lis s R) as RL. pose proof (proj1 (l_dying me s Hr) Hd). destruct (x_lis s); cbn; try done. congruence. }
    rewrite HL in G. cbn in G. assert (Hex : exists b r, x_binds s !! b = Some r /\ bc r <> 0).
    { rewrite G in RW. clear -RW. unfold bsum in RW. induction (x_binds s) as [|b r m Hb IH] using map_ind; [done|]. rewrite msum_new in RW by done. destruct (decide (bc r = 0)) as [Hz|Hz].
      - destruct IH as (b' & r' & H1 & H2); [cbn in *; lia|]. exists b', r'. rewrite lookup_insert_ne by congruence. done.
      - exists b, r. by rewrite lookup_insert. }
    destruct Hex as (b & [w v p] & Hb & Hz). assert (Hbl : EvBind b w ∈ x_log s) by (apply (l_bind me s Hr); eauto).
    exists b, w. split; [done|]. destruct (dying_stops me s b w Hr Hc Hq Hd Hbl) as [[Hg _]|?]; [|done]. apply (l_gone me s Hr) in Hg as [w' Hg]. rewrite Hb in Hg. injection Hg as -> -> ->. done.
  - left. by apply D.
  - right; right; left. by apply W.
Qed.
Lemma shutdown_dead me s r e : reachable me s -> x_crash s = false -> at_rest me s -> EvWorkRet r ∈ x_log s -> outcome r = Some e ->
  (forall b w, EvBind b w ∈ x_log s -> EvWKill (ByBind b) w ∈ x_log s -> finished (x_log s) w) -> EvDead ∈ x_log s.
Proof.
  intros Hr Hc Hq Hw Ho Hf. pose proof (l_work me s Hr) as W. unfold wfact in W. pose proof (rest_rested me s Hc Hq) as R. pose proof (r_work s R) as RW.
  assert (Hu : exists i, EvUsed i ∈ x_log s). { destruct (good_in me s _ Hr Hw) as (pre & post & Hl & K & _). assert (K' : EvWork ∈ x_log s) by (rewrite Hl; by apply in_later).
    destruct (good_in me s _ Hr K') as (pre2 & post2 & Hl2 & _ & i & p & _ & Hu & _). exists i. rewrite Hl2. by apply in_later. }
  assert (Hd : is_dying (x_log s)).
  { destruct (x_work s) as [| | |[]| | |]; try done.
    - destruct W as [_ W]. destruct W. by exists r.
    - destruct W as [_ W]. destruct W. by exists r.
    - apply W in Hw. by subst.
    - destruct W as (_ & r' & e' & _ & _ & W). exists FromWork, e'. auto.
    - destruct W as (_ & r' & e' & _ & _ & W). exists FromWork, e'. auto.
    - apply W in Hw. by subst. }
  destruct (shutdown_rest me s Hr Hc Hq Hd Hu) as [?|[[_ H]|[H|(b & w & H1 & H2 & H3)]]]; [done| | |].
  - destruct H. by exists r.
  - destruct (x_work s) as [| | |[]| | |]; try done; try (destruct W as [_ W]; destruct W; by exists r).
    + apply W in Hw. by subst.
    + destruct W as (_ & r' & e' & W1 & W2 & _). apply W1 in H. by subst.
    + destruct W as (_ & r' & e' & W1 & W2 & _). apply W1 in H. by subst.
    + apply W in Hw. by subst.
  - by apply Hf in H2.
Qed.
