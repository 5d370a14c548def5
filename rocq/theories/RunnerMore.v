(** The contexts of start funcs (C59), and workers whose Wait never returns (C60). *)
From stdpp Require Import gmap strings list.
From Coq Require Import ZArith.
From RecordUpdate Require Import RecordSet.
From Verif Require Import Err Tomb Runner RunnerSpec RunnerInv RunnerLog RunnerGor RunnerHist RunnerThms RunnerCalls RunnerUse RunnerAnswers RunnerProgressSpec RunnerProgress.
Import RecordSetNotations.

(** ** Contexts *)
Definition ctx_log (c : core) : Prop := forall g id f x p, c_gors c !! g = Some (mkWGor id f x p) ->
  (forall i, started_for (c_log c) g i -> x = Some i) /\ (forall i, x = Some i -> started_for (c_log c) g i).
Lemma sf_app evs log g i : started_for log g i -> started_for (evs ++ log) g i.
Proof. intros (pre & id & f & d & t & dc & post & ->). exists (evs ++ pre), id, f, d, t, dc, post. by rewrite <- app_assoc. Qed.
Definition nospawn (g : nat) (ev : event) : Prop := match ev with EvSpawn g' _ _ _ _ => g' <> g | _ => True end.
Lemma sf_cons ev log g i : nospawn g ev -> started_for (ev :: log) g i -> started_for log g i.
Proof.
  intros Hn ([|ev' pre] & id & f & d & t & dc & post & He); cbn in He.
  - injection He as -> _. by destruct Hn.
  - injection He as -> ->. exists pre, id, f, d, t, dc, post. done.
Qed.
Lemma sf_quiet evs log g i : (forall ev, ev ∈ evs -> nospawn g ev) -> started_for (evs ++ log) g i -> started_for log g i.
Proof.
  induction evs as [|ev evs IH]; [done|]. intros Hn H. apply IH; [intros e He; apply Hn; by right|]. cbn in H. eapply sf_cons; [|exact H]. apply Hn. by left.
Qed.
Lemma ctx_frame c c' evs : ctx_log c -> (forall g id f x p, c_gors c' !! g = Some (mkWGor id f x p) -> exists p', c_gors c !! g = Some (mkWGor id f x p')) ->
  c_log c' = evs ++ c_log c -> (forall ev g, ev ∈ evs -> is_Some (c_gors c !! g) -> nospawn g ev) -> ctx_log c'.
Proof.
  intros H Hg Hl Hn g id f x p Hx. apply Hg in Hx as [p' Hx]. destruct (H _ _ _ _ _ Hx) as [H1 H2]. rewrite Hl. split; intros i Hi.
  - apply H1. eapply sf_quiet; [|exact Hi]. intros ev Hev. eapply Hn; eauto.
  - apply sf_app. auto.
Qed.
Lemma put_old c g id f x p0 p : c_gors c !! g = Some (mkWGor id f x p0) -> forall g' id' f' x' p', c_gors (put g (mkWGor id f x p) c) !! g' = Some (mkWGor id' f' x' p') -> exists p1, c_gors c !! g' = Some (mkWGor id' f' x' p1).
Proof. intros H0 g' id' f' x' p' H. cbn in H. destruct (decide (g = g')) as [->|]; [rewrite lookup_insert in H; injection H as -> -> -> ->; eauto|rewrite lookup_insert_ne in H by done; eauto]. Qed.
Lemma ke_ns g id i ev : ev ∈ kill_events id i -> nospawn g ev.
Proof. unfold kill_events. destruct (i_worker i) as [[]|]; intros H; [|by apply elem_of_nil in H]. apply elem_of_list_singleton in H as ->. done. Qed.
Lemma kae_ns g m l ev : ev ∈ kill_all_events m l -> nospawn g ev.
Proof.
  induction l as [|id l IH]; cbn; [intros H; by apply elem_of_nil in H|]. intros [H|H]%elem_of_app; [|auto].
  destruct (m !! id); [by eapply ke_ns|by apply elem_of_nil in H].
Qed.
Lemma sf_in log g i : started_for log g i -> exists id f d t, EvSpawn g id f d t ∈ log.
Proof. intros (pre & id & f & d & t & dc & post & ->). exists id, f, d, t. apply elem_of_app. right. by left. Qed.
Ltac cf c evs := apply (ctx_frame c _ evs); [done| | |].
Lemma ctx_trans P c c' : allinv P c -> ctx_log c -> ctrans P c c' -> ctx_log c'.
Proof.
  intros A H HT. pose proof (a_inv P c A) as V.
  assert (forall i, ~ started_for (c_log c) (c_next c) i) as Hfresh.
  { intros i Hi. apply sf_in in Hi as (id & f & d & t & Hi). destruct (gl_fn _ (a_gor P _ A) _ _ _ _ _ Hi) as (x & p & Hg). apply (ci_fresh c V) in Hg. lia. }
  assert (forall g id f x p, c_gors c !! g = Some (mkWGor id f x p) -> exists p', c_gors c !! g = Some (mkWGor id f x p')) as Hsame by eauto.
  assert (forall ev g, ev ∈ @nil event -> is_Some (c_gors c !! g) -> nospawn g ev) as Hnil by (intros ev g Hx; by apply elem_of_nil in Hx).
  assert (forall e ev g, (forall g, nospawn g e) -> ev ∈ [e] -> is_Some (c_gors c !! g) -> nospawn g ev) as Hone by (intros e ev g He Hx _; apply elem_of_list_singleton in Hx as ->; auto).
  destruct HT.
  - done.
  - cf c [EvKilled]; [done|done|]. intros ev g. by apply Hone.
  - cf c (@nil event); done.
  - cf c [EvCtx i]; [done|done|]. intros ev g. by apply Hone.
  - cf c (@nil event); done.
  - cf c [EvClient ce]; [done|done|]. intros ev g. by apply Hone.
  - cf c [EvStopAll]; [done|done|]. intros ev g. by apply Hone.
  - cf c (@nil event); done.
  - cf c [EvStopReq i id]; [done|done|]. intros ev g. by apply Hone.
  - cf c (@nil event); [by eapply (put_old c)|done|done].
  - cf c (@nil event); [by eapply (put_old c)|done|done].
  - cf c (kill_all_events (c_workers c) (elements (dom (c_workers c)))); [done|done|]. intros ev g Hx _. by eapply kae_ns.
  - cf c [EvAnswer i id f None]; [done|done|]. intros ev g. by apply Hone.
  - cf c [EvAnswer i id f r]; [done|done|]. intros ev g. by apply Hone.
  - intros g id' f' x' p' Hg. cbn in Hg |- *. destruct (decide (c_next c = g)) as [<-|Hne].
    + rewrite lookup_insert in Hg. injection Hg as <- <- <- <-. split.
      * intros i' (pre & id1 & f1 & d1 & t1 & dc & post & He). destruct pre as [|ev pre]; cbn in He.
        -- injection He as _ _ _ _ _ _ _ -> _ _ _. done.
        -- injection He as _ He. destruct (Hfresh i'). apply (sf_cons (EvAnswer i id f None)); [done|]. apply (sf_cons (EvKnown id f (c_inst c))); [done|]. rewrite He. exists pre, id1, f1, d1, t1, dc, post. done.
      * intros i' [= <-]. by exists [], id, f, 0%Z, (c_now c), (c_inst c), (c_log c).
    + rewrite lookup_insert_ne in Hg by done. destruct (H _ _ _ _ _ Hg) as [G1 G2]. split.
      * intros i' Hi. apply G1. by do 3 (apply sf_cons in Hi; [|done]).
      * intros i' ->. specialize (G2 _ eq_refl). by apply (sf_app [_; _; _]).
  - cf c (@nil event); done.
  - cf c (@nil event); done.
  - cf c (kill_events id i); [done|done|]. intros ev g Hx _. by eapply ke_ns.
  - cf c [EvSet g id w]; [done|done|]. intros ev g'. by apply Hone.
  - cf c [EvKill g id w; EvSet g id w]; [done|done|]. intros ev g' Hx _. set_solver.
  - cf c [EvRemoved id (i_done i); EvDone g id e (c_now c)]; [by eapply (put_old c)|done|]. intros ev g' Hx _. set_solver.
  - cf c ((if c_dying c then [] else [EvStopAll]) ++ [EvRemoved id (i_done i); EvDone g id (Some y) (c_now c)]); [by eapply (put_old c)|cbn; by rewrite <- app_assoc|].
    intros ev g' Hx _. destruct (c_dying c); set_solver.
  - intros g' id' f0 x' p' Hg. cbn in Hg |- *. destruct (decide (c_next c = g')) as [<-|Hne].
    + rewrite lookup_insert in Hg. injection Hg as <- <- <- <-. split; [|done]. intros i' (pre & id1 & f1 & d1 & t1 & dc & post & He). destruct pre as [|ev pre]; cbn in He; [done|].
      injection He as _ He. destruct (Hfresh i'). apply (sf_cons (EvDone g id e (c_now c))); [done|]. rewrite He. exists pre, id1, f1, d1, t1, dc, post. done.
    + rewrite lookup_insert_ne in Hg by done. eapply (put_old c) in Hg as [p1 Hg]; [|done]. destruct (H _ _ _ _ _ Hg) as [G1 G2]. split.
      * intros i' Hi. apply G1. by do 2 (apply sf_cons in Hi; [|done]).
      * intros i' ->. specialize (G2 _ eq_refl). by apply (sf_app [_; _]).
  - cf c (@nil event); done.
  - cf c (if t_dead t then [EvDead] else []); [done|done|]. intros ev g Hx _. destruct (t_dead t); set_solver.
  - cf c (@nil event); [by eapply (put_old c)|done|done].
  - cf c [EvStartCall g id f (c_now c)]; [by eapply (put_old c)|done|]. intros ev g'. by apply Hone.
  - cf c [EvStartCall g id f (c_now c)]; [by eapply (put_old c)|done|]. intros ev g'. by apply Hone.
  - cf c (@nil event); [by eapply (put_old c)|done|done].
  - cf c [EvStartRet g id r]; [by eapply (put_old c)|done|]. intros ev g'. by apply Hone.
  - cf c [EvEnd g id e]; [done|done|]. intros ev g'. by apply Hone.
  - cf c (@nil event); [by eapply (put_old c)|done|done].
  - cf c (@nil event); [by eapply (put_old c)|done|done].
Qed.
Lemma creach_ctx P c : creach P c -> ctx_log c.
Proof.
  intros [ls Hls]. revert c Hls. induction ls as [|l ls IH] using rev_ind; intros c.
  - intros [= <-] g id f x p Hg. cbn in Hg. by rewrite lookup_empty in Hg.
  - rewrite foldl_app. cbn. destruct (foldl _ _ ls) as [c0|] eqn:E; [|done]. cbn. intros Hs.
    assert (creach P c0) as Hr by (by exists ls). eapply ctx_trans; [by apply creach_all|by apply IH|].
    eapply cstep_trans; [apply (a_inv P _ (creach_all P _ Hr))|exact Hs].
Qed.
(** C59: a start func that is running sees its context done exactly when the runner was killed, or, for the first start,
    when the context given to StartWorker was cancelled. *)
Lemma start_context P s g r : reachable P s -> c_gors (s_core s) !! g = Some r -> w_pc r = WStart ->
  ctx_done (s_core s) r = true <-> EvKilled ∈ rlog s \/ exists i, started_for (rlog s) g i /\ EvCtx i ∈ rlog s.
Proof.
  intros Hr Hg Hp. destruct r as [id f x p]. cbn in Hp. subst p. pose proof (reach_all P s Hr) as A. destruct (creach_ctx P _ (reach_core P s Hr) _ _ _ _ _ Hg) as [H1 H2].
  assert (c_loop (s_core s) <> LEnded) as Hl. { intros Hl. by pose proof (ended_gone P _ A Hl _ _ Hg). }
  destruct (a_tomb P _ A) as (T1 & T2 & _). unfold ctx_done. cbn. rewrite orb_true_iff. split.
  - intros [Hd|Hd]; [left; by apply T2|right]. destruct x as [i|]; [|done]. apply bool_decide_eq_true, (RunnerAnswers.ctx_log P s _ Hr) in Hd. eauto.
  - intros [Hk|(i & Hi & Hc)]; [left; by apply T1|right]. rewrite (H1 i Hi). apply bool_decide_eq_true_2. by apply (RunnerAnswers.ctx_log P s).
Qed.

(** ** Lost goroutines *)
Lemma lost_stays P c c' g : (exists id f x, c_gors c !! g = Some (mkWGor id f x WLost)) -> cinv c -> ctrans P c c' -> exists id f x, c_gors c' !! g = Some (mkWGor id f x WLost).
Proof.
  intros (id0 & f0 & x0 & Hg) V HT.
  assert (g <> c_next c) as Hne. { intros ->. apply (ci_fresh c V) in Hg. lia. }
  destruct HT; try (by eauto); exists id0, f0, x0; cbn;
    repeat match goal with |- <[?a := _]> _ !! _ = _ => rewrite lookup_insert_ne by (first [done|congruence|intros ->; congruence]) end; done.
Qed.
Lemma run_app P s l1 l2 : run P s (l1 ++ l2) = match run P s l1 with Some s' => run P s' l2 | None => None end.
Proof. revert s. induction l1 as [|l l1 IH]; intros s; cbn [app run]; [done|]. by destruct (step P s l). Qed.
Lemma lost_run P c c' g : cinv c -> crun P c c' -> (exists id f x, c_gors c !! g = Some (mkWGor id f x WLost)) -> exists id f x, c_gors c' !! g = Some (mkWGor id f x WLost).
Proof.
  intros V [ls Hls]. revert c V Hls. induction ls as [|l ls IH]; cbn; intros c V Hls.
  - by injection Hls as <-.
  - destruct (cstep P c l) as [c1|] eqn:E; [|exfalso; clear -Hls; induction ls; cbn in Hls; [done|auto]]. pose proof (cstep_trans P c l c1 V E) as HT.
    intros H. apply (IH c1); [by eapply cinv_trans|done|]. by eapply lost_stays.
Qed.
(** C60 *)
Lemma lost_never_dead P ls s g : run P init ls = Some s -> LCore (KLost g) ∈ ls -> EvDead ∉ rlog s /\ c_loop (s_core s) <> LEnded.
Proof.
  intros Hr Hin. apply elem_of_list_split in Hin as (l1 & l2 & ->). rewrite run_app in Hr. destruct (run P init l1) as [s1|] eqn:E1; [|done]. cbn [run] in Hr.
  destruct (step P s1 (LCore (KLost g))) as [s2|] eqn:E2; [|done].
  assert (reachable P s1) as R1 by (by exists l1). assert (reachable P s2) as R2 by (by eapply reach_step).
  assert (reachable P s) as R3. { exists (l1 ++ LCore (KLost g) :: l2). rewrite run_app, E1. cbn [run]. by rewrite E2. }
  assert (exists id f x, c_gors (s_core s2) !! g = Some (mkWGor id f x WLost)) as Hl.
  { cbn [step own negb cstep] in E2. destruct (c_gors (s_core s1) !! g) as [[id f x []]|] eqn:Hg; try done. injection E2 as <-. exists id, f, x. change (c_gors (set_pc g WLost (s_core s1)) !! g = Some (mkWGor id f x WLost)). by rewrite (set_pc_gors g WLost _ _ Hg), lookup_insert. }
  apply run_crun in Hr. destruct (lost_run P _ _ g (a_inv P _ (reach_all P s2 R2)) Hr Hl) as (id & f & x & Hg).
  assert (c_loop (s_core s) <> LEnded) as Hne. { intros He. by pose proof (ended_gone P _ (reach_all P s R3) He _ _ Hg). }
  split; [|done]. intros Hd. by apply Hne, (dead_loop P _ (reach_all P s R3)).
Qed.

(** ** The done channels *)
Lemma kw_signals id c : c_signals (kill_worker id c) = c_signals c.
Proof. unfold kill_worker. destruct (c_workers c !! id) as [i|]; [|done]. destruct (i_worker i) as [[]|]; done. Qed.
Lemma ka_signals c : c_signals (kill_all c) = c_signals c.
Proof. unfold kill_all. induction (elements (dom (c_workers c))) as [|id l IH]; [done|]. cbn. by rewrite kw_signals. Qed.
Lemma rm_signals id d a c : c_signals c ⊆ c_signals (remove_worker id d a c).
Proof. unfold remove_worker. case_bool_decide; cbn; set_solver. Qed.
Lemma sw_signals g id w c : c_signals c ⊆ c_signals (set_worker g id w c).
Proof.
  unfold set_worker. destruct (c_workers c !! id); [|done]. destruct (c_dying c || _); [|done].
  match goal with |- _ ⊆ c_signals (set_loop _ (kill_worker ?i ?c1)) => change (c_signals c ⊆ c_signals (kill_worker i c1)) end. by rewrite kw_signals.
Qed.
Lemma own_signals P c l c' : own l = true -> cstep P c l = Some c' -> c_signals c ⊆ c_signals c'.
Proof.
  intros Ho Hs. destruct l; try done; cbn [cstep] in Hs;
    repeat match goal with
    | H : Some _ = Some _ |- _ => injection H as <-
    | H : (if ?b then _ else _) = Some _ |- _ => destruct b
    | H : match c_gors c !! ?g with _ => _ end = Some _ |- _ => destruct (c_gors c !! g) as [[? ? ? []]|]
    | H : match c_ended c !! ?g with _ => _ end = Some _ |- _ => destruct (c_ended c !! g)
    | H : match c_loop c with _ => _ end = Some _ |- _ => destruct (c_loop c) as [|[]| |]
    end; try done;
    try (unfold kill_tomb; destruct (t_dying _); done); cbn; rewrite ?ka_signals, ?kw_signals; try done; try apply sw_signals.
  - unfold start_worker. destruct (c_dying c); [done|]. by destruct (c_workers c !! id).
  - unfold worker_done. destruct (c_workers _ !! w_id) as [i|]; [|done].
    assert (forall c1 a, c_signals c1 = c_signals c -> c_signals c ⊆ c_signals (remove_worker w_id (i_done i) a c1)) as Hrm by (intros c1 a <-; apply rm_signals).
    destruct e as [e|].
    + destruct (r_isFatal P e); [destruct (c_dying _)|destruct (negb _)]; try (by apply Hrm).
      destruct (i_start i); [done|by apply Hrm].
    + destruct (negb _); [by apply Hrm|]. destruct (i_start i); [done|by apply Hrm].
  - by destruct (t_dead _).
Qed.
Lemma removed_signal P c c' id d : ctrans P c c' -> EvRemoved id d ∈ c_log c' -> EvRemoved id d ∈ c_log c \/ d ∈ c_signals c'.
Proof.
  assert (forall m l log, EvRemoved id d ∈ kill_all_events m l ++ log -> EvRemoved id d ∈ log) as Hka.
  { intros m l log H. apply elem_of_app in H as [H|H]; [|done]. exfalso. induction l as [|i l IH]; cbn in H; [by apply elem_of_nil in H|]. apply elem_of_app in H as [H|H]; [|auto].
    destruct (m !! i); [|by apply elem_of_nil in H]. unfold kill_events in H. destruct (i_worker w) as [[]|]; [|by apply elem_of_nil in H]. by apply elem_of_list_singleton in H. }
  assert (forall i n log, EvRemoved id d ∈ kill_events i n ++ log -> EvRemoved id d ∈ log) as Hke.
  { intros i n log H. apply elem_of_app in H as [H|H]; [|done]. unfold kill_events in H. destruct (i_worker n) as [[]|]; [|by apply elem_of_nil in H]. by apply elem_of_list_singleton in H. }
  intros HT Hin. destruct HT; cbn in Hin; try (by left); try (left; by eapply Hka); try (left; by eapply Hke);
    try (left; repeat (apply elem_of_cons in Hin as [Hin|Hin]; [discriminate Hin|]); exact Hin).
  - apply elem_of_cons in Hin as [[= _ ->]|Hin]; [right; cbn; set_solver|]. apply elem_of_cons in Hin as [?|Hin]; [done|by left].
  - apply elem_of_app in Hin as [Hin|Hin]; [destruct (c_dying c); set_solver|]. apply elem_of_cons in Hin as [[= _ ->]|Hin]; [right; cbn; set_solver|]. apply elem_of_cons in Hin as [?|Hin]; [done|by left].
  - left. apply elem_of_app in Hin as [Hin|Hin]; [|done]. destruct (t_dead t); set_solver.
Qed.
Definition siginv (s : state) : Prop := forall id d, EvRemoved id d ∈ rlog s -> d ∈ c_signals (s_core s) \/
  exists j k r id' g w, EvC (CvRet j k r) ∈ rlog s /\ EvC (CvLookup j id' (GWorker g w d)) ∈ rlog s.
Lemma siginv_trans P s s' : reachable P s -> siginv s -> strans P s s' -> siginv s'.
Proof.
  intros Hr V HT id d Hin.
  assert (rlog s ⊆ rlog s') as Hsub.
  { destruct (strans_emits P s s' HT) as [(evs & -> & _)|(ce & post & -> & (evs & -> & _) & _)]; intros x Hx; [|right]; apply elem_of_app; by right. }
  assert (EvRemoved id d ∈ rlog s -> c_signals (s_core s) ⊆ c_signals (s_core s') -> d ∈ c_signals (s_core s') \/
    exists j k r id' g w, EvC (CvRet j k r) ∈ rlog s' /\ EvC (CvLookup j id' (GWorker g w d)) ∈ rlog s') as Hold.
  { intros Hi Hs. destruct (V id d Hi) as [Hd|(j & k & r & id' & g & w & H1 & H2)]; [left; by apply Hs|]. right. exists j, k, r, id', g, w. split; by apply Hsub. }
  pose proof (a_inv P _ (reach_all P s Hr)) as Vc.
  destruct HT; unfold return_, tell, rlog in *; cbn in *;
    try (apply Hold; [|done]; first [exact Hin|repeat (apply elem_of_cons in Hin as [Hin|Hin]; [discriminate Hin|]); exact Hin]).
  - pose proof (own_signals P _ _ _ H H0) as Hs. destruct (removed_signal P _ _ id d (cstep_trans P _ _ _ Vc H0) Hin) as [Hi|Hi]; [by apply Hold|by left].
  - apply Hold; [|by destruct k, r]. destruct k, r; cbn in Hin; try exact Hin; by apply elem_of_cons in Hin as [?|Hin].
  - apply elem_of_cons in Hin as [?|Hin]; [done|]. destruct (V id d Hin) as [Hd|(j & k & r & id' & g & w & H1 & H2)].
    + destruct (decide (d = d0)) as [->|]; [|left; set_solver]. right.
      pose proof (li_pc _ (reach_linv P s Hr) _ _ H) as (_ & g & w & Hlk & _). exists i, (KStopRm id0), (RRemoved e), id0, g, w. split; [by left|right; exact Hlk].
    + right. exists j, k, r, id', g, w. split; by right.
Qed.
Lemma reach_siginv P s : reachable P s -> siginv s.
Proof.
  apply (reach_ind P siginv); [intros id d H; by apply elem_of_nil in H|]. intros s0 s1 Hr V _ HT. by eapply siginv_trans.
Qed.
(** C38: a caller of StopAndRemoveWorker that waits for the removal can return once the id was removed, unless another
    caller had found the same entry. *)
Lemma sole_returns P s i id e d : reachable P s -> s_calls s !! i = Some (CDone id e d) -> EvRemoved id d ∈ rlog s ->
  (forall j id' g w, j <> i -> EvC (CvLookup j id' (GWorker g w d)) ∉ rlog s) -> is_Some (step P s (LDoneRecv i)).
Proof.
  intros Hr Hc Hrm Hsole. cbn [step]. rewrite Hc. cbn [cstep].
  destruct (reach_siginv P s Hr id d Hrm) as [Hd|(j & k & r & id' & g & w & H1 & H2)]; [rewrite bool_decide_eq_true_2 by done; eauto|].
  destruct (decide (j = i)) as [->|Hne]; [|by destruct (Hsole j id' g w Hne)]. pose proof (li_returned _ (reach_linv P s Hr) _ _ _ H1). congruence.
Qed.

(** The signal of a removed entry is sent once. *)
Definition rminv (c : core) : Prop := forall id d, EvRemoved id d ∈ c_log c -> d < c_inst c /\ forall id' i, c_workers c !! id' = Some i -> i_done i <> d.
Lemma removed_new P c c' id d : ctrans P c c' -> EvRemoved id d ∈ c_log c' -> EvRemoved id d ∈ c_log c \/ exists i, c_workers c !! id = Some i /\ d = i_done i /\ c_workers c' = delete id (c_workers c) /\ c_inst c' = c_inst c.
Proof.
  assert (forall m l log, EvRemoved id d ∈ kill_all_events m l ++ log -> EvRemoved id d ∈ log) as Hka.
  { intros m l log H. apply elem_of_app in H as [H|H]; [|done]. exfalso. induction l as [|i l IH]; cbn in H; [by apply elem_of_nil in H|]. apply elem_of_app in H as [H|H]; [|auto].
    destruct (m !! i); [|by apply elem_of_nil in H]. unfold kill_events in H. destruct (i_worker w) as [[]|]; [|by apply elem_of_nil in H]. by apply elem_of_list_singleton in H. }
  assert (forall i n log, EvRemoved id d ∈ kill_events i n ++ log -> EvRemoved id d ∈ log) as Hke.
  { intros i n log H. apply elem_of_app in H as [H|H]; [|done]. unfold kill_events in H. destruct (i_worker n) as [[]|]; [|by apply elem_of_nil in H]. by apply elem_of_list_singleton in H. }
  intros HT Hin. destruct HT; cbn in Hin; try (by left); try (left; by eapply Hka); try (left; by eapply Hke);
    try (left; repeat (apply elem_of_cons in Hin as [Hin|Hin]; [discriminate Hin|]); exact Hin).
  - apply elem_of_cons in Hin as [[= -> ->]|Hin]; [right; by exists i|]. apply elem_of_cons in Hin as [?|Hin]; [done|by left].
  - apply elem_of_app in Hin as [Hin|Hin]; [destruct (c_dying c); set_solver|]. apply elem_of_cons in Hin as [[= -> ->]|Hin]; [right; by exists i|]. apply elem_of_cons in Hin as [?|Hin]; [done|by left].
  - left. apply elem_of_app in Hin as [Hin|Hin]; [|done]. destruct (t_dead t); set_solver.
Qed.
(** Entries keep their done channel. *)
Lemma entries_old P c c' : cinv c -> ctrans P c c' -> c_inst c <= c_inst c' /\ forall id' i', c_workers c' !! id' = Some i' ->
  (exists i, c_workers c !! id' = Some i /\ i_done i = i_done i') \/ i_done i' = c_inst c.
Proof.
  intros V HT. assert (forall m (id : string) (n : winfo) id' i', m = c_workers c -> (forall i, c_workers c !! id = Some i -> i_done i = i_done n) -> is_Some (c_workers c !! id) -> <[id := n]> m !! id' = Some i' -> exists i, c_workers c !! id' = Some i /\ i_done i = i_done i') as Hins.
  { intros m id n id' i' -> Hn [i Hi] Hx. destruct (decide (id = id')) as [->|]; [rewrite lookup_insert in Hx; injection Hx as <-; eauto|rewrite lookup_insert_ne in Hx by done; eauto]. }
  destruct HT; cbn; try (split; [lia|]; intros id' i' Hx; left; by eauto).
  - split; [lia|]. intros id' i' Hx. left. rewrite lookup_fmap in Hx. destruct (c_workers c !! id') as [n|]; [|done]. injection Hx as <-. eauto.
  - split; [lia|]. intros id' i' Hx. destruct (decide (id = id')) as [->|]; [rewrite lookup_insert in Hx; injection Hx as <-; by right|rewrite lookup_insert_ne in Hx by done; eauto].
  - split; [lia|]. intros id' i' Hx. left. eapply Hins; [done| |eauto|done]. intros n Hn. rewrite H0 in Hn. by injection Hn as <-.
  - split; [lia|]. intros id' i' Hx. left. eapply Hins; [done| |eauto|done]. intros n Hn. rewrite H1 in Hn. by injection Hn as <-.
  - split; [lia|]. intros id' i' Hx. left. eapply Hins; [done| |eauto|done]. intros n Hn. rewrite H1 in Hn. by injection Hn as <-.
  - split; [lia|]. intros id' i' Hx. left. apply lookup_delete_Some in Hx as [_ Hx]. eauto.
  - split; [lia|]. intros id' i' Hx. left. apply lookup_delete_Some in Hx as [_ Hx]. eauto.
  - split; [lia|]. intros id' i' Hx. left. eapply Hins; [done| |eauto|done]. intros n Hn. rewrite H1 in Hn. by injection Hn as <-.
Qed.
Lemma rminv_trans P c c' : cinv c -> rminv c -> ctrans P c c' -> rminv c'.
Proof.
  intros V H HT id d Hin. destruct (entries_old P c c' V HT) as [Hi He]. destruct (removed_new P c c' id d HT Hin) as [Hold|(i & Hw & -> & Hdel & Hinst)].
  - destruct (H _ _ Hold) as [H1 H2]. split; [lia|]. intros id' i' Hx. destruct (He _ _ Hx) as [(i & Hi1 & <-)| ->]; [by eapply H2|lia].
  - destruct (ci_done c V _ _ Hw) as [H1 _]. split; [lia|]. intros id' i' Hx. rewrite Hdel in Hx. apply lookup_delete_Some in Hx as [Hne Hx]. intros E. by destruct Hne, (ci_doneu c V _ _ _ _ Hx Hw E).
Qed.
Lemma creach_rm P c : creach P c -> rminv c.
Proof. intros H. apply (creach_ind P rminv); [intros id d Hx; by apply elem_of_nil in Hx|intros c1 c2 V I _ HT; by eapply rminv_trans|done]. Qed.
Lemma signals_new P c c' d : ctrans P c c' -> d ∈ c_signals c' -> d ∈ c_signals c \/ exists id i, c_workers c !! id = Some i /\ i_done i = d.
Proof. intros HT Hd. destruct HT; cbn in Hd; try (by left); try (left; set_solver); apply elem_of_union in Hd as [->%elem_of_singleton|Hd]; eauto. Qed.
Lemma cstep_log P c l c' : cstep P c l = Some c' -> exists evs, c_log c' = evs ++ c_log c.
Proof.
  intros H. destruct (own l) eqn:Ho; [destruct (own_quiet P c l c' Ho H) as (evs & He & _); eauto|]. destruct l; try done; cbn [cstep] in H.
  - case_bool_decide; [|done]. injection H as <-. by exists [].
  - injection H as <-. by exists [EvClient ce].
  - destruct (at_select c); [|done]. injection H as <-. by exists [].
  - destruct (at_select c); [|done]. injection H as <-. by exists [EvStopReq c0 id].
Qed.
Lemma no_signal_again P c c' id d : creach P c -> crun P c c' -> EvRemoved id d ∈ c_log c -> d ∉ c_signals c -> d ∉ c_signals c'.
Proof.
  intros Hr [ls Hls]. revert c Hr Hls. induction ls as [|l ls IH]; cbn; intros c Hr Hls Hrm Hd.
  - by injection Hls as <-.
  - destruct (cstep P c l) as [c1|] eqn:E; [|exfalso; clear -Hls; induction ls; cbn in Hls; [done|auto]]. pose proof (cstep_trans P c l c1 (creach_inv P c Hr) E) as HT.
    assert (creach P c1) as Hr1. { eapply creach_run; [done|by eapply crun_one]. }
    apply (IH c1); [done|done| |].
    + destruct (cstep_log P c l c1 E) as [evs ->]. apply elem_of_app. by right.
    + intros Hx. apply (signals_new P c c1 d HT) in Hx as [Hx|(id' & i & Hw & Hi)]; [done|]. by destruct (creach_rm P c Hr _ _ Hrm) as [_ H]; destruct (H _ _ Hw).
Qed.

(** C38: a caller whose signal was taken by another one is stuck for good, unless it is aborted. *)
Lemma stuck_step P s l s' i id e d : step P s l = Some s' -> s_calls s !! i = Some (CDone id e d) -> d ∉ c_signals (s_core s) -> i ∉ c_ctx (s_core s) -> s_calls s' !! i = Some (CDone id e d).
Proof.
  intros Hs Hc Hd Hl.
  assert (forall j p, (forall q, s_calls s !! j = Some q -> q <> CDone id e d) -> <[j := p]> (s_calls s) !! i = Some (CDone id e d)) as Hother.
  { intros j p Hj. rewrite lookup_insert_ne; [done|]. intros ->. by apply (Hj _ Hc). }
  pose proof (step_strans P s l s' Hs) as HT. destruct l; cbn [step] in Hs.
  - destruct (own l); [|done]. cbn [negb] in Hs. destruct (cstep P (s_core s) l) as [c'|]; [|done].
    destruct l; try (by injection Hs as <-). destruct (c_loop (s_core s)) as [|a| |]; try (by injection Hs as <-). destruct (_ && _); [done|].
    destruct a; try (by injection Hs as <-). destruct (s_calls s !! c) as [[]|] eqn:Hx; try done. injection Hs as <-. cbn. apply Hother. intros q Hq. by simplify_eq.
  - destruct (s_calls s !! c) eqn:Hx; [done|]. injection Hs as <-. cbn. apply Hother. intros q Hq. by simplify_eq.
  - destruct (s_calls s !! c) as [[]|] eqn:Hx; try done. destruct (cstep _ _ _); [|done]. injection Hs as <-. cbn. apply Hother. intros q Hq. by simplify_eq.
  - destruct (s_calls s !! c) as [[]|] eqn:Hx; try done. case_bool_decide; [|done]. injection Hs as <-. cbn. apply Hother. intros q Hq. by simplify_eq.
  - destruct (t_dead _); [|done]. destruct (s_calls s !! c) as [[]|] eqn:Hx; try done; injection Hs as <-; cbn; apply Hother; intros q Hq; by simplify_eq.
  - destruct (s_calls s !! c) as [[]|] eqn:Hx; try done. destruct (cstep _ _ _); [|done]. injection Hs as <-. cbn. apply Hother. intros q Hq. by simplify_eq.
  - destruct (s_calls s !! c) as [[]|] eqn:Hx; try done. destruct (s_mu s); [done|]. destruct (get_worker _ _); injection Hs as <-; cbn; apply Hother; intros q Hq; by simplify_eq.
  - destruct (s_calls s !! c) as [[]|] eqn:Hx; try done. injection Hs as <-. destruct (t_dying _); [|destruct k, r]; cbn; apply Hother; intros q Hq; by simplify_eq.
  - destruct (s_calls s !! c) as [[]|] eqn:Hx; try done. destruct (s_waits s !! c) as [[? ? ? [r|]]|]; try done. injection Hs as <-. destruct r, k; cbn; apply Hother; intros q Hq; by simplify_eq.
  - destruct (s_calls s !! c) as [[]|] eqn:Hx; try done. injection Hs as <-. destruct (t_dying _); [|destruct k]; cbn; apply Hother; intros q Hq; by simplify_eq.
  - destruct (s_calls s !! c) as [[]|] eqn:Hx; try done. destruct (t_dying _); [|done]. injection Hs as <-. cbn. apply Hother. intros q Hq. by simplify_eq.
  - destruct (s_calls s !! c) as [[]|] eqn:Hx; try done. case_bool_decide; [|done]. injection Hs as <-. cbn. apply Hother. intros q Hq. by simplify_eq.
  - destruct (s_calls s !! c) as [[]|] eqn:Hx; try done. injection Hs as <-. cbn. apply Hother. intros q Hq. by simplify_eq.
  - destruct (s_calls s !! c) as [[]|] eqn:Hx; try done. destruct (c_ended _ !! _); [|done]. injection Hs as <-. cbn. apply Hother. intros q Hq. by simplify_eq.
  - destruct (s_calls s !! c) as [[]|] eqn:Hx; try done. case_bool_decide; [|done]. injection Hs as <-. cbn. rewrite lookup_insert_ne; [done|]. by intros ->.
  - destruct (s_calls s !! c) as [[]|] eqn:Hx; try done. cbn in Hs. case_bool_decide; [|done]. injection Hs as <-. cbn. apply Hother. intros q Hq. intros ->. by simplify_eq.
  - destruct (s_waits s !! c) as [[? [] [] ?]|] eqn:Ht; try done; by injection Hs as <-.
  - destruct (s_waits s !! c) as [[? [] st ch]|] eqn:Ht; try done; by injection Hs as <-.
  - destruct (s_waits s !! c) as [[? [] st ch]|] eqn:Ht; try done. destruct (s_mu s); [done|]. destruct (get_worker _ _); by injection Hs as <-.
  - destruct (s_mu s); [done|]. by injection Hs as <-.
  - destruct (s_mu s); [done|]. by injection Hs as <-.
  - destruct (tomb_wait _); [|done]. by injection Hs as <-.
Qed.
Lemma log_grows P ls : forall s s', run P s ls = Some s' -> forall ev, ev ∈ rlog s -> ev ∈ rlog s'.
Proof.
  induction ls as [|l ls IH]; intros s s'; cbn [run]; [by intros [= <-]|]. destruct (step P s l) as [s1|] eqn:Hs; [|done]. intros Hrun ev Hev.
  apply (IH s1 s' Hrun). destruct (strans_emits P s s1 (step_strans P s l s1 Hs)) as [(evs & -> & _)|(ce & post & -> & (evs & -> & _) & _)]; [|right]; apply elem_of_app; by right.
Qed.
Lemma stuck_forever P s ls s' i id e id' d : reachable P s -> s_calls s !! i = Some (CDone id e d) -> EvRemoved id' d ∈ rlog s -> d ∉ c_signals (s_core s) ->
  run P s ls = Some s' -> EvCtx i ∉ rlog s' -> s_calls s' !! i = Some (CDone id e d) /\ forall k r, EvC (CvRet i k r) ∉ rlog s'.
Proof.
  intros Hr Hc Hrm Hd Hrun Hl.
  assert (s_calls s' !! i = Some (CDone id e d) /\ reachable P s') as [H1 H2].
  { revert s Hr Hc Hrm Hd Hrun. induction ls as [|l ls IH]; intros s Hr Hc Hrm Hd; cbn [run]; [by intros [= <-]|]. destruct (step P s l) as [s1|] eqn:Hs; [|done]. intros Hrun.
    assert (i ∉ c_ctx (s_core s)) as Hl0.
    { rewrite (RunnerAnswers.ctx_log P s i Hr). intros Hx. apply Hl. apply (log_grows P (l :: ls) s s'); [cbn; by rewrite Hs|done]. }
    apply (IH s1); [by eapply reach_step|by eapply stuck_step| | |done].
    - destruct (strans_emits P s s1 (step_strans P s l s1 Hs)) as [(evs & -> & _)|(ce & post & -> & (evs & -> & _) & _)]; [|right]; apply elem_of_app; by right.
    - eapply no_signal_again; [by eapply reach_core|by eapply step_crun|done|done]. }
  split; [done|]. intros k r Hx. pose proof (li_returned _ (reach_linv P s' H2) _ _ _ Hx). congruence.
Qed.

(** C32: NewRunner without MoreImportant (runner.go:206-235). *)
Lemma wait_last_default p P s pre e post : new_runner p = inl P -> rp_more p = None -> reachable P s ->
  rlog s = pre ++ EvClient (CvWait (Some e)) :: post ->
  exists l1 g id t l2, post = l1 ++ EvDone g id (Some e) t :: l2 /\ r_isFatal P e = true /\ forall y, ~ fatal_reported P l1 y.
Proof.
  intros HP Hm Hr Hl. eapply wait_last; [exact Hr| |exact Hl]. intros a b. unfold new_runner in HP.
  destruct (params_validate p); [discriminate|]. injection HP as <-. cbn. by rewrite Hm.
Qed.

(** C34 with the bound hidden. *)
Lemma shutdown_finite P s : reachable P s -> stopping_all (rlog s) ->
  exists N, forall ls s', run P s ls = Some s' -> (forall l, l ∈ ls -> request l = false) -> internal_steps ls <= N.
Proof. intros Hr Hst. exists (measure s). intros ls s' Hrun Hq. by eapply shutdown_bounded. Qed.

(** ** C27, read off the log *)
(** What the loop does about an id, it does while the id is known. *)
Lemma handled_known P s pre ev post : reachable P s -> rlog s = pre ++ ev :: post ->
  match ev with
  | EvSet _ id _ | EvDone _ id _ _ => known post id <> None
  | EvRemoved id d => (exists f, known post id = Some (f, d)) /\ forall id', EvRemoved id' d ∉ post
  | EvKnown id _ _ => known post id = None
  | _ => True
  end.
Proof.
  intros Hr. apply reach_core in Hr. revert pre ev post. refine (creach_past P (fun ev post => match ev with
  | EvSet _ id _ | EvDone _ id _ _ => known post id <> None
  | EvRemoved id d => (exists f, known post id = Some (f, d)) /\ forall id', EvRemoved id' d ∉ post
  | EvKnown id _ _ => known post id = None
  | _ => True
  end) _ (s_core s) Hr). intros c a ev b A Hc E. destruct ev; try done; cbn in E |- *.
  - destruct E as (i & -> & _ & _ & Hw & _). cbn. by apply (loop_known P c id A).
  - destruct E as (-> & _ & f & x & p & i & _ & Hi & _). apply (known_some P c id A). eauto.
  - destruct E as (-> & _ & _ & f & x & n & _ & Hn & _). apply (known_some P c id A). eauto.
  - destruct E as (g & e & n & f & x & -> & _ & Hn & -> & _). cbn. split.
    + pose proof (a_workers P c A id) as W. rewrite Hn in W. destruct W as ((f0 & Hk & _) & _). eauto.
    + intros id' Hin. apply elem_of_cons in Hin as [?|Hin]; [done|]. destruct (creach_rm P c Hc _ _ Hin) as [_ H]. by destruct (H _ _ Hn).
Qed.
