(** The log of the catacomb and its state. *)
From stdpp Require Import gmap strings list.
From Coq Require Import Lia.
From RecordUpdate Require Import RecordSet.
From Verif Require Import Err Tomb Sum Catacomb CatacombSpec CatacombInv CatacombTr.
Import RecordSetNotations.

(** ** Events that say nothing about most things *)
Definition soft (ev : event) : bool := match ev with EvGone _ | EvWKill _ _ | EvKill _ _ | EvKillPanic _ _ => true | _ => false end.
Lemma el_cons (x y : event) L : x ∈ y :: L -> x = y \/ x ∈ L.
Proof. apply elem_of_cons. Qed.
Lemma soft_wk ev k w L : soft ev = false -> ev ∈ wk_evs k w ++ L <-> ev ∈ L.
Proof.
  intros Hs. destruct w; cbn; split; intros H.
  - by apply el_cons in H as [->|].
  - by right.
  - apply el_cons in H as [->|H]; [done|]. by apply el_cons in H as [->|].
  - by right; right.
Qed.
Lemma soft_gone ev b v p L : soft ev = false -> ev ∈ gone_evs b v p ++ L <-> ev ∈ L.
Proof.
  intros Hs. destruct v, p; cbn; try done. split; intros H; [|by right]. by apply el_cons in H as [->|].
Qed.
Lemma soft_kres me src e t t' p ev x L : kres me src e t t' p ev -> soft x = false -> x ∈ ev :: L <-> x ∈ L.
Proof. intros Hk Hs. split; intros H; [|by right]. apply el_cons in H as [->|]; [|done]. by destruct Hk. Qed.
Lemma other_ev (x y : event) L : x <> y -> x ∈ y :: L <-> x ∈ L.
Proof. intros Hn. split; intros H; [|by right]. by apply el_cons in H as [->|]. Qed.
Lemma tr_log me s l s' : tr me s l s' -> exists evs, x_log s' = evs ++ x_log s.
Proof. intros H. destruct H; cbn; first [by exists []|eexists [_]; reflexivity|eexists [_; _]; reflexivity|by eexists]. Qed.
Lemma old_ev me s l s' ev : tr me s l s' -> ev ∈ x_log s -> ev ∈ x_log s'.
Proof. intros Ht H. destruct (tr_log _ _ _ _ Ht) as [evs ->]. apply elem_of_app. by right. Qed.

Ltac ccbn := cbn -[gone_evs wk_evs wk_tomb tomb_kill tomb_go first_said bound_of accepted_of].
Ltac soft_done := rewrite ?soft_wk, ?soft_gone by reflexivity; try (match goal with Hk : kres _ _ _ _ _ _ ?ev |- context [?x ∈ ?ev :: ?L] => rewrite (soft_kres _ _ _ _ _ _ ev x L Hk) by reflexivity end);
  repeat match goal with |- context [?x ∈ ?y :: ?L] => rewrite (other_ev x y L) by discriminate end.

(** ** Finished workers, bindings, death *)
Lemma l_end me s : reachable me s -> forall n e, EvEnd n e ∈ x_log s <-> x_ended s !! n = Some e.
Proof.
  apply (reach_tr me (fun s => forall n e, EvEnd n e ∈ x_log s <-> x_ended s !! n = Some e)).
  { intros n e. change (x_ended init) with (∅ : gmap nat (option err)). rewrite lookup_empty. split; [|done]. intros H. by apply elem_of_nil in H. }
  clear s. intros s l s' _ _ _ IH Ht n e. destruct Ht; ccbn; soft_done; try apply IH.
  rewrite elem_of_cons. destruct (decide (n0 = n)) as [->|Hne].
  - rewrite lookup_insert. rewrite IH, H. split; [intros [?|?]; by simplify_eq|intros ?; left; by simplify_eq].
  - rewrite lookup_insert_ne by done. rewrite <- IH. split; [intros [?|?]; [by simplify_eq|done]|by right].
Qed.
Lemma l_bind me s : reachable me s -> forall b w, EvBind b w ∈ x_log s <-> exists v p, x_binds s !! b = Some (mkBind w v p).
Proof.
  apply (reach_tr me (fun s => forall b w, EvBind b w ∈ x_log s <-> exists v p, x_binds s !! b = Some (mkBind w v p))).
  { intros b w. change (x_binds init) with (∅ : gmap nat bind). split; [intros H; by apply elem_of_nil in H|]. intros (v & p & H). by rewrite lookup_empty in H. }
  clear s. intros s l s' _ V _ IH Ht b w.
  assert (Hput : forall b0 w0 v0 p0 v1 p1, x_binds s !! b0 = Some (mkBind w0 v0 p0) ->
    EvBind b w ∈ x_log s <-> exists v p, <[b0 := mkBind w0 v1 p1]> (x_binds s) !! b = Some (mkBind w v p)).
  { intros b0 w0 v0 p0 v1 p1 Hb. rewrite IH. destruct (decide (b0 = b)) as [->|Hne].
    - rewrite lookup_insert, Hb. split; intros (v & p & Hx); simplify_eq; eauto.
    - by rewrite lookup_insert_ne by done. }
  assert (Hnew : forall w0, EvBind b w ∈ EvBind (x_next s) w0 :: x_log s <-> exists v p, <[x_next s := mkBind w0 VWait SSelect]> (x_binds s) !! b = Some (mkBind w v p)).
  { intros w0. rewrite elem_of_cons, IH. destruct (decide (x_next s = b)) as [<-|Hne].
    - rewrite lookup_insert. split.
      + intros [H|(v & p & Hx)]; [simplify_eq; eauto|]. pose proof (c_next s V (x_next s) ltac:(eauto)). lia.
      + intros (v & p & Hx). simplify_eq. by left.
    - rewrite lookup_insert_ne by done. split; [intros [H|H]; [by simplify_eq|done]|by right]. }
  destruct Ht; ccbn; soft_done; try apply IH; try (by eapply Hput); apply Hnew.
Qed.
Lemma l_dead me s : reachable me s -> EvDead ∈ x_log s <-> x_work s = WkOver.
Proof.
  apply (reach_tr me (fun s => EvDead ∈ x_log s <-> x_work s = WkOver)).
  { split; [intros H; by apply elem_of_nil in H|done]. }
  clear s. intros s l s' _ V _ IH Ht. destruct Ht; ccbn; soft_done; try apply IH; try (rewrite IH; rewrite H; done).
  - rewrite IH. destruct (c_act s V i _ H I) as (_ & -> & _). done.
  - rewrite IH, H. by destruct g.
  - split; [done|]. by left.
Qed.

(** ** The tomb *)
Lemma said_dying me log x : first_said me log = Some x -> is_dying log.
Proof.
  induction log as [|ev log IH]; [done|]. intros H. destruct ev; cbn in H; try (destruct (IH H) as (a & b' & ?); exists a, b'; by right).
  exists src, e. by left.
Qed.
Lemma dying_cons ev log : is_dying log -> is_dying (ev :: log).
Proof. intros (a & b & H). exists a, b. by right. Qed.
Lemma dying_app evs log : is_dying log -> is_dying (evs ++ log).
Proof. intros (a & b & H). exists a, b. apply elem_of_app. by right. Qed.
Definition nokill (ev : event) : Prop := match ev with EvKill _ _ => False | _ => True end.
Lemma dying_nokill ev log : nokill ev -> is_dying (ev :: log) <-> is_dying log.
Proof. intros Hn. split; [|apply dying_cons]. intros (a & b & H). apply el_cons in H as [<-|H]; [done|]. by exists a, b. Qed.
Lemma said_nokill me ev log : nokill ev -> first_said me (ev :: log) = first_said me log.
Proof. by destruct ev. Qed.
Lemma trans_says me e : translate me e = match says me e with Some x => Some x | None => match e with None => None | Some _ => Some ETombDying end end.
Proof.
  unfold translate, says. destruct e as [x|]; [|done]. case_bool_decide as H; case_bool_decide as H'; simplify_eq; try done.
  destruct (as_dying x); [|done]. by case_bool_decide.
Qed.
Lemma says_not_dying me e : says me e <> Some ETombDying.
Proof. unfold says. destruct e as [x|]; [|done]. case_bool_decide as H; [done|]. destruct (as_dying x); [by case_bool_decide|]. congruence. Qed.
Definition tinv (me : nat) (t : tomb) (log : list event) : Prop :=
  (is_dying log <-> t_dying t = true) /\ (forall e, t_reason t = Reason e -> e = first_said me log).
Lemma tinv_nokill me t t' ev log : tinv me t log -> t_reason t' = t_reason t -> nokill ev -> tinv me t' (ev :: log).
Proof. intros [H1 H2] Hr Hn. split; [rewrite dying_nokill by done; unfold t_dying in *; first [done|by rewrite Hr]|]. intros e He. rewrite said_nokill by done. apply H2. congruence. Qed.
Lemma tinv_kill me src e t log : tinv me t log -> t_panic t = false -> t_panic (tomb_kill t (translate me e)) = false -> tinv me (tomb_kill t (translate me e)) (EvKill src e :: log).
Proof.
  intros [H1 H2] Hp Hk. pose proof (says_not_dying me e) as Hnd. rewrite trans_says in *.
  assert (Hs : t_reason t = StillAlive -> first_said me log = None).
  { intros Hr. destruct (first_said me log) eqn:E; [|done]. apply said_dying in E. apply H1 in E. unfold t_dying in E. by rewrite Hr in E. }
  assert (Hd : is_dying (EvKill src e :: log)) by (exists src, e; by left).
  assert (Hsame : forall t', t_reason t' = t_reason t -> t_reason t <> StillAlive -> first_said me (EvKill src e :: log) = first_said me log -> tinv me t' (EvKill src e :: log)).
  { intros t' Hr Hns Hf. split; [split; [intros _; unfold t_dying; rewrite Hr; by destruct (t_reason t)|done]|]. intros x Hx. rewrite Hf. apply H2. congruence. }
  assert (Hset : forall t' x, t_reason t' = Reason x -> first_said me (EvKill src e :: log) = x -> tinv me t' (EvKill src e :: log)).
  { intros t' x Hr Hf. split; [split; [intros _; unfold t_dying; first [done|by rewrite Hr]|done]|]. intros y Hy. congruence. }
  destruct (says me e) as [x|] eqn:Hsay.
  - assert (Hsay' : first_said me (EvKill src e :: log) = match first_said me log with Some y => Some y | None => Some x end) by (cbn; by rewrite Hsay).
    destruct (decide (x = ETombStillAlive)) as [->|Hx]; [done|].
    assert (Htk : tomb_kill t (Some x) = match t_reason t with StillAlive | Reason None => t <| t_reason := Reason (Some x) |> | Reason (Some _) => t end) by (by destruct x).
    rewrite Htk. destruct (t_reason t) as [|[y|]] eqn:Hr.
    + eapply Hset; [done|]. rewrite Hsay', Hs by done. done.
    + apply Hsame; [done|first [done|by rewrite Hr]|]. rewrite Hsay'. pose proof (H2 _ eq_refl) as Hq. by rewrite <- Hq.
    + eapply Hset; [done|]. rewrite Hsay'. pose proof (H2 _ eq_refl) as Hq. by rewrite <- Hq.
  - assert (Hsay' : first_said me (EvKill src e :: log) = first_said me log) by (cbn; rewrite Hsay; by destruct (first_said me log)).
    destruct e as [e|]; cbn -[first_said] in *.
    + destruct (t_reason t) eqn:Hr; [done|]. apply Hsame; [done|first [done|by rewrite Hr]|done].
    + destruct (t_reason t) as [|[y|]] eqn:Hr.
      * eapply Hset; [done|]. rewrite Hsay', Hs by done. done.
      * apply Hsame; [done|first [done|by rewrite Hr]|done].
      * eapply Hset; [done|]. rewrite Hsay'. symmetry. by apply H2.
Qed.
Lemma tinv_wk me k w t log : tinv me t log -> t_panic t = false -> tinv me (wk_tomb w t) (wk_evs k w ++ log).
Proof.
  intros H Hp. destruct w; cbn -[tomb_kill]; [by eapply tinv_nokill|].
  pose proof (tinv_kill me FromSelf None t (EvWKill k WSelf :: log)) as Hk. cbn -[tomb_kill] in Hk. apply Hk; [by eapply tinv_nokill|done|by apply kill_nil].
Qed.
Lemma tinv_kres me src e t t' p ev log : tinv me t log -> t_panic t = false -> kres me src e t t' p ev -> tinv me t' (ev :: log) /\ (p = false -> is_dying (ev :: log)).
Proof.
  intros H Hp Hk. destruct Hk.
  - split; [by apply tinv_kill|]. intros _. exists src, e. by left.
  - split; [by eapply tinv_nokill|done].
Qed.
Lemma tinv_gone me t b v p log : tinv me t log -> tinv me t (gone_evs b v p ++ log).
Proof. intros H. destruct v, p; try done. by eapply tinv_nokill. Qed.
Lemma l_tomb me s : reachable me s -> tinv me (x_tomb s) (x_log s) /\ (x_crash s = false -> x_work s = WkWg false -> is_dying (x_log s)) /\ (x_work s = WkDone -> is_dying (x_log s)).
Proof.
  apply (reach_tr me (fun s => tinv me (x_tomb s) (x_log s) /\ (x_crash s = false -> x_work s = WkWg false -> is_dying (x_log s)) /\ (x_work s = WkDone -> is_dying (x_log s)))).
  { split; [|done]. split; [|done]. split; [|done]. intros (a & b & H). by apply elem_of_nil in H. }
  clear s. intros s l s' _ V Hc (IH1 & IH2 & IH3) Ht. pose proof (c_panic s V) as Hp. specialize (IH2 Hc).
  assert (Hd : x_work s = WkWg false \/ x_work s = WkDone -> is_dying (x_log s)) by (intros [?|?]; auto).
  assert (Hdo : forall evs, x_work s = WkWg false \/ x_work s = WkDone -> is_dying (evs ++ x_log s)) by (intros evs Hx; apply dying_app; auto).
  destruct Ht; ccbn; try (split; [first [exact IH1|by eapply tinv_nokill|by apply tinv_wk|by apply tinv_gone|solve [eapply tinv_kres; eauto]]
    |split; intros; first [by apply Hd; auto|by apply (Hdo [_]); auto|by apply Hdo; auto|congruence|discriminate]]).
  - (* TGo *) split; [|by split].
    assert (Hg : t_reason (tomb_go (x_tomb s)) = t_reason (x_tomb s)) by (unfold tomb_go; by destruct (t_dead _)).
    exact (tinv_nokill _ _ _ (EvInvoked i None) _ (tinv_nokill _ _ _ EvWork _ IH1 eq_refl I) Hg I).
  - (* TWorkKill *) destruct (tinv_kres _ _ _ _ _ _ _ (x_log s) IH1 Hp H0) as [G1 G2]. split; [done|]. split; [auto|done].
  - (* TWgWaited *) split; [done|]. split; [by destruct g|]. intros Hg. destruct g; [done|]. apply Hd. by left.
  - (* TDone *) split; [|by split]. destruct IH1 as [H1 H2]. pose proof (Hd (or_intror H)) as Hdy. apply H1 in Hdy.
    eapply (tinv_nokill me (x_tomb s)); [done| |done]. cbn. unfold tomb_kill, t_dying in *. cbn. destruct (t_reason (x_tomb s)) as [|[]] eqn:Hr; cbn; congruence.
Qed.
Lemma l_dying me s : reachable me s -> is_dying (x_log s) <-> t_dying (x_tomb s) = true.
Proof. intros Hr. apply (l_tomb me s Hr). Qed.
Lemma l_reason me s e : reachable me s -> t_reason (x_tomb s) = Reason e -> e = first_said me (x_log s).
Proof. intros Hr. apply (l_tomb me s Hr). Qed.

(** ** Bindings *)
Lemma bound_waited s b w v p e : cinv s -> x_binds s !! b = Some (mkBind w v p) -> v = VWait \/ p = SWait -> worker_wait w s = Some e ->
  exists n, w = WExt n /\ x_ended s !! n = Some e.
Proof.
  intros V Hb Hv Hw. destruct w as [n|]; cbn in Hw; [by exists n|]. unfold tomb_wait in Hw. destruct (t_dead (x_tomb s)) eqn:Hd; [|done].
  apply (c_dead s V) in Hd. pose proof (c_wait s V) as Hz. rewrite Hd in Hz. pose proof (bound_wg s b _ V Hb) as Hle. unfold bc in Hle. cbn in Hle.
  destruct Hv as [->| ->]; [lia|]. destruct v; lia.
Qed.
Definition vfact (s : state) (b : nat) (w : wk) (v : vpc) : Prop :=
  match v with
  | VWait => True
  | VKill e => exists n, w = WExt n /\ x_ended s !! n = Some (Some e)
  | _ => exists n e, w = WExt n /\ x_ended s !! n = Some e /\ (x_crash s = false -> e <> None -> EvKill (FromWorker b) e ∈ x_log s)
  end.
Definition sfact (s : state) (b : nat) (w : wk) (v : vpc) (p : spc) : Prop :=
  match p with
  | SSelect => True
  | SKill => is_dying (x_log s)
  | SWait => is_dying (x_log s) /\ EvWKill (ByBind b) w ∈ x_log s
  | _ => exists n e, w = WExt n /\ x_ended s !! n = Some e
  end.
Lemma l_bfact me s : reachable me s -> forall b w v p, x_binds s !! b = Some (mkBind w v p) -> vfact s b w v /\ sfact s b w v p.
Proof.
  apply (reach_tr me (fun s => forall b w v p, x_binds s !! b = Some (mkBind w v p) -> vfact s b w v /\ sfact s b w v p)).
  { intros b w v p H. change (x_binds init) with (∅ : gmap nat bind) in H. by rewrite lookup_empty in H. }
  clear s. intros s l s' Hr V Hc IH Ht.
  assert (Hfr : forall b w v p, vfact s b w v /\ sfact s b w v p -> vfact s' b w v /\ sfact s' b w v p).
  { intros b w v p [Hv Hs].
    assert (He : forall n e, x_ended s !! n = Some e -> x_ended s' !! n = Some e).
    { intros n e He. clear Hv Hs IH. destruct Ht; ccbn; try done. rewrite lookup_insert_ne; [done|]. congruence. }
    assert (Hd : is_dying (x_log s) -> is_dying (x_log s')) by (destruct (tr_log _ _ _ _ Ht) as [evs ->]; apply dying_app).
    split.
    - destruct v; cbn in *; [done|destruct Hv as (n & -> & Hn); eauto| | |]; destruct Hv as (n & e & -> & Hn & Hk); exists n, e; (split; [done|]); (split; [by apply He|]); intros _ Hne; (eapply old_ev; [done|]); auto.
    - destruct p; cbn in *; [done|by apply Hd|destruct Hs; split; [auto|by eapply old_ev]| |]; destruct Hs as (n & e & -> & Hn); eauto. }
  assert (Hput : forall b w v p b0 w0 v0 p0, <[b0 := mkBind w0 v0 p0]> (x_binds s) !! b = Some (mkBind w v p) ->
     (vfact s' b0 w0 v0 /\ sfact s' b0 w0 v0 p0) -> vfact s' b w v /\ sfact s' b w v p).
  { intros b w v p b0 w0 v0 p0 Hb H. destruct (decide (b0 = b)) as [->|Hne]; [rewrite lookup_insert in Hb; by simplify_eq|]. rewrite lookup_insert_ne in Hb by done. auto. }
  assert (Hold : forall b w v p, x_binds s !! b = Some (mkBind w v p) -> vfact s' b w v /\ sfact s' b w v p) by auto.
  assert (Hdy : t_dying (x_tomb s) = true -> is_dying (x_log s)) by apply (l_dying me s Hr).
  clear Hfr. pose proof Ht as Ht'. destruct Ht; intros b1 w1 v1 p1 Hb1; cbn in Hb1; try (by apply Hold); (eapply Hput; [exact Hb1|]); clear Hput Hb1;
    try (split; exact I); (pose proof (Hold _ _ _ _ H) as [G1 G2]; pose proof (IH _ _ _ _ H) as [I1 I2]).
  - split; [|done]. destruct (bound_waited s b w VWait p _ V H ltac:(auto) H0) as (n & -> & Hn). by exists n.
  - split; [|done]. destruct (bound_waited s b w VWait p _ V H ltac:(auto) H0) as (n & -> & Hn). exists n, None. split; [done|]. by split.
  - split; [|done]. destruct I1 as (n & -> & Hn). exists n, (Some e). split; [done|]. split; [done|]. cbn. intros Hcc _. subst. inversion H0; subst. by left.
  - by split.
  - by split.
  - split; [done|]. by apply Hdy.
  - split; [done|]. destruct H0 as [-> | ->]; destruct I1 as (n & e & -> & Hn & _); by exists n, e.
  - split; [done|]. cbn -[wk_evs wk_tomb tomb_kill]. split; [by apply dying_app|]. apply elem_of_app. left. destruct w; cbn; [by left|]. by right; left.
  - split; [done|]. destruct (bound_waited s b w v SWait _ V H ltac:(auto) H0) as (n & -> & Hn). by exists n, e.
  - by split.
Qed.

(** A binding whose goroutines are gone. *)
Lemma l_gone me s : reachable me s -> forall b, EvGone b ∈ x_log s <-> exists w, x_binds s !! b = Some (mkBind w VGone SGone).
Proof.
  apply (reach_tr me (fun s => forall b, EvGone b ∈ x_log s <-> exists w, x_binds s !! b = Some (mkBind w VGone SGone))).
  { intros b. change (x_binds init) with (∅ : gmap nat bind). split; [intros H; by apply elem_of_nil in H|]. intros (w & H). by rewrite lookup_empty in H. }
  clear s. intros s l s' _ V _ IH Ht b0.
  assert (Hwk : forall k w L, EvGone b0 ∈ wk_evs k w ++ L <-> EvGone b0 ∈ L).
  { intros k w L. destruct w; cbn; rewrite !other_ev by done; done. }
  assert (Hkr : forall src e t t' p ev L, kres me src e t t' p ev -> EvGone b0 ∈ ev :: L <-> EvGone b0 ∈ L).
  { intros src e t t' p ev L Hk. destruct Hk; by rewrite other_ev. }
  assert (Hput : forall b w v p v' p', x_binds s !! b = Some (mkBind w v p) -> ~ (v = VGone /\ p = SGone) -> ~ (v' = VGone /\ p' = SGone) ->
    EvGone b0 ∈ x_log s <-> exists w1, <[b := mkBind w v' p']> (x_binds s) !! b0 = Some (mkBind w1 VGone SGone)).
  { intros b w v p v' p' Hb Hn Hn'. rewrite IH. destruct (decide (b = b0)) as [->|Hne].
    - rewrite lookup_insert, Hb. split; intros (w1 & Hw1); simplify_eq; naive_solver.
    - by rewrite lookup_insert_ne by done. }
  assert (Hnew : forall w, EvGone b0 ∈ x_log s <-> exists w1, <[x_next s := mkBind w VWait SSelect]> (x_binds s) !! b0 = Some (mkBind w1 VGone SGone)).
  { intros w. rewrite IH. destruct (decide (x_next s = b0)) as [<-|Hne].
    - rewrite lookup_insert. split; intros (w1 & Hw1); [|done]. pose proof (c_next s V (x_next s) ltac:(eauto)). lia.
    - by rewrite lookup_insert_ne by done. }
  assert (Hex : forall b w v p v' p', x_binds s !! b = Some (mkBind w v p) -> ~ (v = VGone /\ p = SGone) ->
    EvGone b0 ∈ gone_evs b v' p' ++ x_log s <-> exists w1, <[b := mkBind w v' p']> (x_binds s) !! b0 = Some (mkBind w1 VGone SGone)).
  { intros b w v p v' p' Hb Hn. assert (v' = VGone /\ p' = SGone \/ ~ (v' = VGone /\ p' = SGone)) as [[-> ->]|Hn'] by (destruct v', p'; naive_solver).
    - cbn. rewrite elem_of_cons, IH. destruct (decide (b = b0)) as [->|Hne].
      + rewrite lookup_insert. split; [intros _; by exists w|]. by left.
      + rewrite lookup_insert_ne by done. split; [intros [?|?]; [by simplify_eq|done]|by right].
    - assert (gone_evs b v' p' = []) as -> by (destruct v', p'; naive_solver). eapply Hput; eauto. }
  destruct Ht; ccbn; rewrite ?Hwk; repeat match goal with |- context [EvGone b0 ∈ ?y :: ?L] => rewrite (other_ev (EvGone b0) y L) by discriminate end; try apply IH; try apply Hnew;
    try (rewrite (Hkr _ _ _ _ _ _ _ ltac:(eassumption))); try apply IH; try (eapply Hex; [eassumption|naive_solver]); try (eapply Hput; [eassumption|naive_solver|naive_solver]).
Qed.

(** ** Calls of Add *)
Definition afact (s : state) (i : nat) (a : apc) : Prop :=
  match a with
  | ASelect w ch => EvAddCall i w ∈ x_log s /\ (forall w' r, ~ EvAddRet i w' r ∈ x_log s) /\ (ch = true -> x_dirty s = true)
  | AKill w => EvAddCall i w ∈ x_log s /\ (forall w' r, ~ EvAddRet i w' r ∈ x_log s) /\ is_dying (x_log s)
  | AWait w => EvAddCall i w ∈ x_log s /\ (forall w' r, ~ EvAddRet i w' r ∈ x_log s) /\ is_dying (x_log s) /\ EvWKill (ByAdd i) w ∈ x_log s
  | AReturned => exists w r, EvAddRet i w r ∈ x_log s
  end.
Lemma l_adds me s : reachable me s -> forall i, match x_adds s !! i with Some a => afact s i a | None => (forall w, ~ EvAddCall i w ∈ x_log s) /\ (forall w r, ~ EvAddRet i w r ∈ x_log s) end.
Proof.
  apply (reach_tr me (fun s => forall i, match x_adds s !! i with Some a => afact s i a | None => (forall w, ~ EvAddCall i w ∈ x_log s) /\ (forall w r, ~ EvAddRet i w r ∈ x_log s) end)).
  { intros i. change (x_adds init) with (∅ : gmap nat apc). rewrite lookup_empty. split; intros; intros H; by apply elem_of_nil in H. }
  clear s. intros s l s' Hr V _ IH Ht i.
  assert (Hfr : (forall w, EvAddCall i w ∈ x_log s' <-> EvAddCall i w ∈ x_log s) -> (forall w r, EvAddRet i w r ∈ x_log s' <-> EvAddRet i w r ∈ x_log s) ->
    match x_adds s !! i with Some a => afact s' i a | None => (forall w, ~ EvAddCall i w ∈ x_log s') /\ (forall w r, ~ EvAddRet i w r ∈ x_log s') end).
  { intros H1 H2. specialize (IH i).
    assert (Hd : is_dying (x_log s) -> is_dying (x_log s')) by (destruct (tr_log _ _ _ _ Ht) as [evs ->]; apply dying_app).
    assert (Hk : forall w, EvWKill (ByAdd i) w ∈ x_log s -> EvWKill (ByAdd i) w ∈ x_log s') by (intros w; by eapply old_ev).
    assert (Hdd : x_dirty s = true -> x_dirty s' = true) by (destruct Ht; cbn; auto).
    destruct (x_adds s !! i) as [[]|]; cbn in *; setoid_rewrite H2; try setoid_rewrite H1; naive_solver. }
  assert (Hdy : t_dying (x_tomb s) = true -> is_dying (x_log s)) by apply (l_dying me s Hr).
  destruct Ht; ccbn; try (apply Hfr; intros; ccbn; soft_done; reflexivity);
    (destruct (decide (i0 = i)) as [->|Hne]; [rewrite lookup_insert; specialize (IH i); rewrite H in IH; clear Hfr
      |rewrite lookup_insert_ne by done; apply Hfr; intros; ccbn; soft_done; try reflexivity; rewrite elem_of_cons; naive_solver]).
  - destruct IH as [H1 H2]. split; [by left|]. split; [|done]. intros w' r Hx. apply el_cons in Hx as [?|Hx]; [done|]. by eapply H2.
  - exists w, None. by left.
  - destruct IH as (H1 & H2 & H3). split; [done|]. split; [done|]. by apply Hdy.
  - destruct IH as (H1 & H2 & H3). split; [apply elem_of_app; by right|]. split; [intros w' r; ccbn; rewrite soft_wk by done; apply H2|]. split; [by apply dying_app|].
    apply elem_of_app. left. destruct w; cbn; [by left|by right; left].
  - eexists _, _. by left.
Qed.

(** ** Calls of Invoke *)
Lemma inv_once me s : reachable me s -> forall i p p', EvInvoke i p ∈ x_log s -> EvInvoke i p' ∈ x_log s -> p = p' /\ is_Some (x_invs s !! i).
Proof.
  apply (reach_tr me (fun s => forall i p p', EvInvoke i p ∈ x_log s -> EvInvoke i p' ∈ x_log s -> p = p' /\ is_Some (x_invs s !! i))).
  { intros i p p' H. by apply elem_of_nil in H. }
  clear s. intros s l s' Hr V _ IH Ht i p p'.
  assert (Hs : is_Some (x_invs s !! i) -> is_Some (x_invs s' !! i)).
  { intros [x Hx]. destruct Ht; cbn; try by exists x. all: destruct (decide (i0 = i)) as [->|]; [rewrite lookup_insert; eauto|rewrite lookup_insert_ne by done; eauto]. }
  assert (Hsame : (forall p, EvInvoke i p ∈ x_log s' <-> EvInvoke i p ∈ x_log s) -> EvInvoke i p ∈ x_log s' -> EvInvoke i p' ∈ x_log s' -> p = p' /\ is_Some (x_invs s' !! i)).
  { intros H1 H2 H3. rewrite H1 in H2. rewrite H1 in H3. destruct (IH i p p' H2 H3). auto. }
  destruct Ht; try (apply Hsame; intros q; ccbn; soft_done; reflexivity).
  destruct (decide (i0 = i)) as [->|Hne].
  - ccbn. rewrite lookup_insert. intros H1 H2. split; [|eauto].
    apply el_cons in H1 as [?|H1]; [|destruct (IH i p p H1 H1) as [_ [? ?]]; congruence].
    apply el_cons in H2 as [?|H2]; [congruence|]. destruct (IH i p' p' H2 H2) as [_ [? ?]]; congruence.
  - apply Hsame. intros q. ccbn. rewrite other_ev; [done|congruence].
Qed.

Definition pend (l : lpc) : list wk := match l with LiGot w => [w] | _ => [] end.
Definition seqd (s : state) (p : plan) : Prop := exists acc, accepted_of (x_log s) = acc ++ pend (x_lis s) /\ bound_of (x_log s) = inits p ++ acc.
Definition ifact (me : nat) (s : state) (i : nat) (pc : ipc) : Prop :=
  match pc with
  | IValidate p => EvInvoke i p ∈ x_log s /\ ~ EvUsed i ∈ x_log s /\ (forall r, ~ EvInvoked i r ∈ x_log s)
  | ICas p => EvInvoke i p ∈ x_log s /\ ~ EvUsed i ∈ x_log s /\ (forall r, ~ EvInvoked i r ∈ x_log s) /\ validate p = None
  | IStop ws r => exists p dn, EvInvoke i p ∈ x_log s /\ ~ EvUsed i ∈ x_log s /\ (forall r, ~ EvInvoked i r ∈ x_log s) /\ p_init p = dn ++ ws /\
      why_failed (x_log s) i p r /\ forall w, Some w ∈ dn -> stopped (x_log s) i w
  | IStopWait w ws r => exists p dn, EvInvoke i p ∈ x_log s /\ ~ EvUsed i ∈ x_log s /\ (forall r, ~ EvInvoked i r ∈ x_log s) /\ p_init p = dn ++ Some w :: ws /\
      why_failed (x_log s) i p r /\ (forall w, Some w ∈ dn -> stopped (x_log s) i w) /\ EvWKill (ByInvoke i) w ∈ x_log s
  | IAdd ws => exists p dn, EvInvoke i p ∈ x_log s /\ EvUsed i ∈ x_log s /\ (forall r, ~ EvInvoked i r ∈ x_log s) /\ validate p = None /\ p_init p = dn ++ ws /\
      bound_of (x_log s) = omap id dn /\ accepted_of (x_log s) = []
  | IListen => exists p, EvInvoke i p ∈ x_log s /\ EvUsed i ∈ x_log s /\ (forall r, ~ EvInvoked i r ∈ x_log s) /\ validate p = None /\
      bound_of (x_log s) = inits p /\ accepted_of (x_log s) = []
  | IGo => exists p, EvInvoke i p ∈ x_log s /\ EvUsed i ∈ x_log s /\ (forall r, ~ EvInvoked i r ∈ x_log s) /\ validate p = None /\
      seqd s p
  | IReturned => exists p, EvInvoke i p ∈ x_log s /\
      ((EvUsed i ∈ x_log s /\ (forall r, EvInvoked i r ∈ x_log s <-> r = None) /\ validate p = None /\ seqd s p)
       \/ (~ EvUsed i ∈ x_log s /\ exists r, (forall r', EvInvoked i r' ∈ x_log s <-> r' = Some r) /\ why_failed (x_log s) i p r /\ forall w, Some w ∈ p_init p -> stopped (x_log s) i w))
  end.

Lemma waited_finished me s w e : reachable me s -> worker_wait w s = Some e -> finished (x_log s) w.
Proof.
  intros Hr Hw. destruct w as [n|]; cbn in *; [exists e; by apply (l_end me s Hr)|]. apply (l_dead me s Hr). apply (c_dead s (reach_cinv me s Hr)).
  unfold tomb_wait in Hw. by destruct (t_dead (x_tomb s)).
Qed.
Lemma fin_mono log log' w : (forall ev, ev ∈ log -> ev ∈ log') -> finished log w -> finished log' w.
Proof. intros H. destruct w; cbn; [intros [e He]; eauto|auto]. Qed.
Lemma stopped_mono log log' i w : (forall ev, ev ∈ log -> ev ∈ log') -> stopped log i w -> stopped log' i w.
Proof. intros H [H1 H2]. split; [auto|by eapply fin_mono]. Qed.
Lemma why_failed_mono log log' i p r : (forall ev, ev ∈ log -> ev ∈ log') -> why_failed log i p r -> why_failed log' i p r.
Proof. intros H [?|(H1 & H2 & j & H3 & H4)]; [by left|]. right. eauto 6. Qed.
Lemma bnd_wk k w L : bound_of (wk_evs k w ++ L) = bound_of L.
Proof. by destruct w. Qed.
Lemma bnd_gone b v p L : bound_of (gone_evs b v p ++ L) = bound_of L.
Proof. by destruct v, p. Qed.
Lemma acc_wk k w L : accepted_of (wk_evs k w ++ L) = accepted_of L.
Proof. by destruct w. Qed.
Lemma acc_gone b v p L : accepted_of (gone_evs b v p ++ L) = accepted_of L.
Proof. by destruct v, p. Qed.
Lemma bnd_kres me src e t t' p ev L : kres me src e t t' p ev -> bound_of (ev :: L) = bound_of L /\ accepted_of (ev :: L) = accepted_of L.
Proof. by destruct 1. Qed.

Definition unused (s : state) (i : nat) : Prop := (forall p, ~ EvInvoke i p ∈ x_log s) /\ ~ EvUsed i ∈ x_log s /\ (forall r, ~ EvInvoked i r ∈ x_log s).
Record linv (me : nat) (s : state) : Prop := {
  li_inv : forall i, match x_invs s !! i with Some pc => ifact me s i pc | None => unused s i end;
  li_one : forall i j, EvUsed i ∈ x_log s -> EvUsed j ∈ x_log s -> i = j;
  li_dirty : x_dirty s = true <-> exists i, EvUsed i ∈ x_log s;
  li_clean : x_dirty s = false -> bound_of (x_log s) = [] /\ accepted_of (x_log s) = []
}.
Lemma ifact_frame me s s' i pc : (forall p, EvInvoke i p ∈ x_log s' <-> EvInvoke i p ∈ x_log s) -> (EvUsed i ∈ x_log s' <-> EvUsed i ∈ x_log s) ->
  (forall r, EvInvoked i r ∈ x_log s' <-> EvInvoked i r ∈ x_log s) -> (forall ev, ev ∈ x_log s -> ev ∈ x_log s') ->
  (EvUsed i ∈ x_log s -> (bound_of (x_log s') = bound_of (x_log s) /\ accepted_of (x_log s') = accepted_of (x_log s) /\ pend (x_lis s') = pend (x_lis s)) \/
     ((pc = IGo \/ pc = IReturned) /\ forall p, seqd s p -> seqd s' p)) ->
  ifact me s i pc -> ifact me s' i pc.
Proof.
  intros H1 H2 H3 H4 H5.
  assert (Hseq : EvUsed i ∈ x_log s -> pc = IGo \/ pc = IReturned -> forall p, seqd s p -> seqd s' p).
  { intros Hu _ p Hq. destruct (H5 Hu) as [(Q1 & Q2 & Q3)|(_ & Hq')]; [|auto]. destruct Hq as (acc & A1 & A2). exists acc. rewrite Q1, Q2, Q3. done. }
  destruct pc; cbn.
  - rewrite H1, H2. intros (? & ? & K). split; [done|]. split; [done|]. intros r. rewrite H3. apply K.
  - rewrite H1, H2. intros (? & ? & K & ?). split; [done|]. split; [done|]. split; [|done]. intros r. rewrite H3. apply K.
  - intros (p & dn & K1 & K2 & K3 & K4 & K5 & K6 & K7). exists p, dn. rewrite H1, H2. split; [done|]. split; [done|]. split; [intros r; rewrite H3; apply K3|].
    destruct (H5 K2) as [(-> & -> & _)|([? | ?] & _)]; done.
  - intros (p & K1 & K2 & K3 & K4 & K5 & K6). exists p. rewrite H1, H2. split; [done|]. split; [done|]. split; [intros r; rewrite H3; apply K3|].
    destruct (H5 K2) as [(-> & -> & _)|([? | ?] & _)]; done.
  - intros (p & K1 & K2 & K3 & K4 & K5). exists p. rewrite H1, H2. split; [done|]. split; [done|]. split; [intros r; rewrite H3; apply K3|]. auto.
  - intros (p & dn & K1 & K2 & K3 & K4 & K5 & K6). exists p, dn. rewrite H1, H2. split; [done|]. split; [done|]. split; [intros r'; rewrite H3; apply K3|].
    split; [done|]. split; [by eapply why_failed_mono|]. intros w Hw. eapply stopped_mono; eauto.
  - intros (p & dn & K1 & K2 & K3 & K4 & K5 & K6 & K7). exists p, dn. rewrite H1, H2. split; [done|]. split; [done|]. split; [intros r'; rewrite H3; apply K3|].
    split; [done|]. split; [by eapply why_failed_mono|]. split; [intros w' Hw; eapply stopped_mono; eauto|auto].
  - intros (p & K1 & K2). exists p. rewrite H1, H2. split; [done|]. destruct K2 as [(K2 & K3 & K4 & K5)|(K2 & r & K3 & K4 & K5)].
    + left. split; [done|]. split; [intros r; rewrite H3; apply K3|]. auto.
    + right. split; [done|]. exists r. split; [intros r'; rewrite H3; apply K3|]. split; [by eapply why_failed_mono|]. intros w Hw. eapply stopped_mono; eauto.
Qed.
Lemma li_active me s i j pc : cinv s -> linv me s -> x_invs s !! i = Some pc -> active pc -> EvUsed j ∈ x_log s -> i = j.
Proof.
  intros V L Hi Ha Hj. pose proof (li_inv _ _ L i) as Hf. rewrite Hi in Hf. apply (li_one _ _ L i j); [|done].
  destruct pc; try done; destruct Hf as (p & Hf); [destruct Hf as (dn & _ & Hu & _)|destruct Hf as (_ & Hu & _)|destruct Hf as (_ & Hu & _)]; done.
Qed.
Lemma l_linv me s : reachable me s -> linv me s.
Proof.
  apply (reach_tr me (linv me)).
  { split.
    - intros i. change (x_invs init) with (∅ : gmap nat ipc). rewrite lookup_empty. split; [|split]; intros; intros H; by apply elem_of_nil in H.
    - intros i j H. by apply elem_of_nil in H.
    - split; [done|]. intros [i H]. by apply elem_of_nil in H.
    - done. }
  clear s. intros s l s' Hr V _ IH Ht. pose proof (li_inv _ _ IH) as Hinv.
  assert (Hmono : forall ev, ev ∈ x_log s -> ev ∈ x_log s') by (intros ev; by eapply old_ev).
  assert (Hseq : x_lis s' = x_lis s \/ ((forall w, x_lis s <> LiGot w) /\ (forall w, x_lis s' <> LiGot w)) -> pend (x_lis s') = pend (x_lis s)).
  { intros [-> | [H1 H2]]; [done|]. destruct (x_lis s), (x_lis s'); try done; exfalso; naive_solver. }
  assert (Hother : forall i, x_invs s' !! i = x_invs s !! i -> (forall p, EvInvoke i p ∈ x_log s' <-> EvInvoke i p ∈ x_log s) -> (EvUsed i ∈ x_log s' <-> EvUsed i ∈ x_log s) ->
     (forall r, EvInvoked i r ∈ x_log s' <-> EvInvoked i r ∈ x_log s) ->
     (EvUsed i ∈ x_log s -> (bound_of (x_log s') = bound_of (x_log s) /\ accepted_of (x_log s') = accepted_of (x_log s) /\ pend (x_lis s') = pend (x_lis s)) \/
     (~ (exists pc, x_invs s !! i = Some pc /\ match pc with IAdd _ | IListen => True | _ => False end) /\ forall p, seqd s p -> seqd s' p)) ->
     match x_invs s' !! i with Some pc => ifact me s' i pc | None => unused s' i end).
  { intros i Hi H1 H2 H3 H4. rewrite Hi. specialize (Hinv i). destruct (x_invs s !! i) as [pc|] eqn:Hpc.
    - eapply ifact_frame; try done. intros Hu. destruct (H4 Hu) as [?|[Hn Hd]]; [by left|]. right. split; [|done].
      destruct pc; try (by auto); exfalso; try (by apply Hn; eexists; split; [reflexivity|exact I]); destruct Hinv as (? & Hinv);
        [destruct Hinv as (Hx & _)|destruct Hinv as (Hx & _)|destruct Hinv as (dn & _ & Hx & _)|destruct Hinv as (dn & _ & Hx & _)]; done.
    - destruct Hinv as (K1 & K2 & K3). split; [|split]; intros; rewrite ?H1, ?H2, ?H3; auto. }
  assert (Hrest : (forall j, EvUsed j ∈ x_log s' <-> EvUsed j ∈ x_log s) -> x_dirty s' = x_dirty s -> (x_dirty s = false -> bound_of (x_log s') = bound_of (x_log s) /\ accepted_of (x_log s') = accepted_of (x_log s)) ->
    (forall i, match x_invs s' !! i with Some pc => ifact me s' i pc | None => unused s' i end) -> linv me s').
  { intros H1 H2 H3 H4. destruct IH as [_ L1 L2 L3]. split; [done| | |].
    - intros i j. rewrite !H1. apply L1.
    - rewrite H2, L2. by setoid_rewrite H1.
    - rewrite H2. intros Hd. destruct (H3 Hd) as [-> ->]. auto. }
  assert (Hsame : x_invs s' = x_invs s -> x_dirty s' = x_dirty s -> (forall i p, EvInvoke i p ∈ x_log s' <-> EvInvoke i p ∈ x_log s) -> (forall i, EvUsed i ∈ x_log s' <-> EvUsed i ∈ x_log s) ->
     (forall i r, EvInvoked i r ∈ x_log s' <-> EvInvoked i r ∈ x_log s) -> bound_of (x_log s') = bound_of (x_log s) -> accepted_of (x_log s') = accepted_of (x_log s) ->
     pend (x_lis s') = pend (x_lis s) -> linv me s').
  { intros H1 H2 H3 H4 H5 H6 H7 H8. apply Hrest; try done. intros i. apply Hother; [by rewrite H1|done..|]. auto. }
  assert (Hstep : forall i0 pc, x_invs s' = <[i0 := pc]> (x_invs s) -> x_dirty s' = x_dirty s -> (forall i, i <> i0 -> forall p, EvInvoke i p ∈ x_log s' <-> EvInvoke i p ∈ x_log s) ->
     (forall i, EvUsed i ∈ x_log s' <-> EvUsed i ∈ x_log s) -> (forall i, i <> i0 -> forall r, EvInvoked i r ∈ x_log s' <-> EvInvoked i r ∈ x_log s) ->
     bound_of (x_log s') = bound_of (x_log s) -> accepted_of (x_log s') = accepted_of (x_log s) -> pend (x_lis s') = pend (x_lis s) -> ifact me s' i0 pc -> linv me s').
  { intros i0 pc H1 H2 H3 H4 H5 H6 H7 H8 H9. apply Hrest; try done. intros i. destruct (decide (i = i0)) as [->|Hne]; [by rewrite H1, lookup_insert|].
    apply Hother; [by rewrite H1, lookup_insert_ne by done|auto..]. }
  destruct Ht; try (apply Hsame; intros; ccbn; soft_done; first [reflexivity|by rewrite bnd_wk|by rewrite acc_wk|by rewrite bnd_gone|by rewrite acc_gone|eapply bnd_kres; eassumption|by apply Hseq; right; split; intros; congruence]).
  - (* TInvoke *) apply (Hstep i (IValidate p)); try done; try (by intros; ccbn; soft_done).
    + intros j Hj q. ccbn. rewrite other_ev; [done|congruence].
    + specialize (Hinv i). rewrite H in Hinv. destruct Hinv as (K1 & K2 & K3). split; [by left|]. split; [ccbn; by rewrite other_ev by done|]. intros r. ccbn. rewrite other_ev by done. apply K3.
  - (* TInvalid *) apply (Hstep i (IStop (p_init p) (EWrap MsgTrace e))); try done. specialize (Hinv i). rewrite H in Hinv. destruct Hinv as (K1 & K2 & K3). exists p, []. do 4 (split; [done|]).
    split; [left; by exists e|]. intros w Hw. by apply elem_of_nil in Hw.
  - (* TValid *) apply (Hstep i (ICas p)); try done. specialize (Hinv i). rewrite H in Hinv. destruct Hinv as (K1 & K2 & K3). done.
  - (* TReused *) apply (Hstep i (IStop (p_init p) (EMsg MsgReused))); try done. specialize (Hinv i). rewrite H in Hinv. destruct Hinv as (K1 & K2 & K3 & K4). exists p, []. do 4 (split; [done|]).
    split; [|intros w Hw; by apply elem_of_nil in Hw]. right. split; [done|]. split; [done|]. apply (li_dirty _ _ IH) in H0 as [j Hj]. exists j. split; [congruence|done].
  - (* TUsed *) pose proof (li_dirty _ _ IH) as Hdd. destruct (li_clean _ _ IH H0) as [Hb0 Ha0].
    assert (Hno : forall j, ~ EvUsed j ∈ x_log s). { intros j Hj. rewrite (proj2 Hdd) in H0 by eauto. done. }
    assert (Hu : forall j, EvUsed j ∈ EvUsed i :: x_log s <-> j = i).
    { intros j. rewrite elem_of_cons. split; [intros [?|Hx]; [congruence|by apply Hno in Hx]|]. intros ->. by left. }
    split.
    + intros j. destruct (decide (i = j)) as [->|Hne].
      * ccbn. rewrite lookup_insert. specialize (Hinv j). rewrite H in Hinv. destruct Hinv as (K1 & K2 & K3 & K4). exists p, []. ccbn. split; [by right|]. split; [by left|].
        split; [intros r; rewrite other_ev by done; apply K3|]. done.
      * apply Hother; [ccbn; by rewrite lookup_insert_ne by done|intros; ccbn; by rewrite other_ev by done|ccbn; rewrite other_ev by congruence; done|intros; ccbn; by rewrite other_ev by done|]. intros Hx. by apply Hno in Hx.
    + intros j k. ccbn. rewrite !Hu. congruence.
    + ccbn. split; [|done]. intros _. exists i. by left.
    + done.
  - (* TInits *) apply (Hstep i IListen); try done. specialize (Hinv i). rewrite H in Hinv. destruct Hinv as (p & dn & K1 & K2 & K3 & K4 & K5 & K6 & K7). exists p. do 4 (split; [done|]).
    rewrite app_nil_r in K5. split; [|done]. ccbn. rewrite K6, <- K5. done.
  - (* TInitNil *) apply (Hstep i (IAdd ws)); try done. specialize (Hinv i). rewrite H in Hinv. destruct Hinv as (p & dn & K1 & K2 & K3 & K4 & K5 & K6 & K7). exists p, (dn ++ [None]). do 4 (split; [done|]).
    split; [by rewrite <- app_assoc|]. split; [|done]. ccbn. rewrite omap_app. cbn. by rewrite app_nil_r.
  - (* TInit *) assert (Hac : forall j, EvUsed j ∈ x_log s -> i = j) by (intros j; by apply (li_active me s i j _ V IH H I)).
    destruct (c_act s V i _ H I) as (Hd & _). apply Hrest; try (by intros; ccbn; soft_done).
    { intros Hd'. congruence. }
    intros j. destruct (decide (i = j)) as [->|Hne].
    + ccbn. rewrite lookup_insert. specialize (Hinv j). rewrite H in Hinv. destruct Hinv as (p & dn & K1 & K2 & K3 & K4 & K5 & K6 & K7). exists p, (dn ++ [Some w]). ccbn.
      split; [by right|]. split; [by right|]. split; [intros r; rewrite other_ev by done; apply K3|]. split; [done|]. split; [by rewrite <- app_assoc|]. split; [|done].
      cbn. rewrite K6, omap_app. done.
    + apply Hother; [ccbn; by rewrite lookup_insert_ne by done|intros; ccbn; by rewrite other_ev by done..|]. intros Hx. by apply Hac in Hx.
  - (* TListen *) destruct (c_act s V i _ H I) as (Hd & Hw & Hl). apply (Hstep i IGo); try done; [ccbn; by rewrite Hl|].
    specialize (Hinv i). rewrite H in Hinv. destruct Hinv as (p & K1 & K2 & K3 & K4 & K5 & K6). exists p. do 4 (split; [done|]). exists []. ccbn. by rewrite K5, K6, app_nil_r.
  - (* TGo *) apply (Hstep i IReturned); try done; try (by intros; ccbn; soft_done).
    + intros j Hj r. ccbn. rewrite other_ev by congruence. by rewrite other_ev by done.
    + specialize (Hinv i). rewrite H in Hinv. destruct Hinv as (p & K1 & K2 & K3 & K4 & K5). exists p. split; [ccbn; by right; right|]. left. split; [ccbn; by right; right|].
      split; [|done]. intros r. ccbn. rewrite elem_of_cons, other_ev by done. split; [intros [?|?]; [congruence|by apply K3 in H0]|]. intros ->. by left.
  - (* TStopped *) apply (Hstep i IReturned); try done; try (by intros; ccbn; soft_done).
    + intros j Hj r'. ccbn. by rewrite other_ev by congruence.
    + specialize (Hinv i). rewrite H in Hinv. destruct Hinv as (p & dn & K1 & K2 & K3 & K4 & K5 & K6). exists p. split; [ccbn; by right|]. right. split; [ccbn; by rewrite other_ev by done|].
      exists r. split; [intros r'; ccbn; rewrite elem_of_cons; split; [intros [?|Hx]; [congruence|by apply K3 in Hx]|intros ->; by left]|].
      rewrite app_nil_r in K4. subst dn. split; [by eapply why_failed_mono|]. intros w Hw. eapply stopped_mono; [|by apply K6]. done.
  - (* TStopNil *) apply (Hstep i (IStop ws r)); try done. specialize (Hinv i). rewrite H in Hinv. destruct Hinv as (p & dn & K1 & K2 & K3 & K4 & K5 & K6). exists p, (dn ++ [None]). do 3 (split; [done|]).
    split; [by rewrite <- app_assoc|]. split; [done|]. intros w Hw. apply elem_of_app in Hw as [Hw|Hw]; [by apply K6|]. by apply elem_of_list_singleton in Hw.
  - (* TStop *) apply (Hstep i (IStopWait w ws r)); try done; try (intros; ccbn; soft_done; done); try (ccbn; by rewrite ?bnd_wk, ?acc_wk).
    specialize (Hinv i). rewrite H in Hinv. destruct Hinv as (p & dn & K1 & K2 & K3 & K4 & K5 & K6). exists p, dn. split; [by apply Hmono|].
    split; [ccbn; by rewrite soft_wk by done|]. split; [intros r'; ccbn; rewrite soft_wk by done; apply K3|]. split; [done|]. split; [by eapply why_failed_mono|].
    split; [intros w' Hw'; eapply stopped_mono; [|by apply K6]; done|]. ccbn. apply elem_of_app. left. destruct w; cbn; [by left|by right; left].
  - (* TStopWaited *) apply (Hstep i (IStop ws r)); try done.
    specialize (Hinv i). rewrite H in Hinv. destruct Hinv as (p & dn & K1 & K2 & K3 & K4 & K5 & K6 & K7). exists p, (dn ++ [Some w]). do 3 (split; [done|]). split; [by rewrite <- app_assoc|]. split; [done|].
    intros w' Hw'. apply elem_of_app in Hw' as [Hw'|Hw']; [by apply K6|]. apply elem_of_list_singleton in Hw'. injection Hw' as ->. split; [done|]. exact (waited_finished me s w e Hr H0).
  - (* THand *) apply Hrest; try (by intros; ccbn; soft_done).
    { intros Hd. destruct (c_clean s V Hd) as (_ & Hl & _). congruence. }
    intros j. apply Hother; try (by intros; ccbn; soft_done). intros Hu. right. split.
    + intros (pc & Hpc & Ha). assert (Hact : active pc) by (by destruct pc). destruct (c_act s V j _ Hpc Hact) as (_ & _ & Hl). rewrite H0 in Hl. by destruct pc.
    + intros p (acc & A1 & A2). rewrite H0 in A1. cbn in A1. rewrite app_nil_r in A1. exists acc. ccbn. cbn. by rewrite A1, A2.
  - (* TAddWaited *)
    assert (Hne : match e with Some _ => trace e | None => err_dying me s end <> None) by (destruct e; [done|]; unfold err_dying; by destruct (t_dying _)).
    apply Hsame; try (by intros; ccbn; soft_done). ccbn. cbn. by destruct (match e with Some _ => _ | None => _ end).
  - (* TAdded *) apply Hrest; try (by intros; ccbn; soft_done).
    { intros Hd. destruct (c_clean s V Hd) as (_ & Hl & _). congruence. }
    intros j. apply Hother; try (by intros; ccbn; soft_done). intros Hu. right. split.
    + intros (pc & Hpc & Ha). assert (Hact : active pc) by (by destruct pc). destruct (c_act s V j _ Hpc Hact) as (_ & _ & Hl). rewrite H in Hl. by destruct pc.
    + intros p (acc & A1 & A2). rewrite H in A1. cbn in A1. exists (acc ++ [w]). ccbn. cbn. by rewrite A1, A2, app_nil_r, app_assoc.
  - (* TLisDying *) apply Hsame; try done. ccbn. by rewrite H.
Qed.
