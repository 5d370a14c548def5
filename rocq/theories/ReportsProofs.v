(** Proofs for C82. *)
From stdpp Require Import gmap strings list relations.
From RecordUpdate Require Import RecordSet.
From Verif Require Import Err Tomb Tree TreeSpec TreeProofs TreeFinish FairTree Reports ReportsSpec.
From Verif Require Snapshot Engine EngineSpec EngineMicro EngineSteps EngineLog EngineSafety EngineObs Runner RunnerSpec RunnerInv RunnerHist RunnerThms RunnerCalls RunnerAnswers RunnerLog.
Import RecordSetNotations.

(** ** What does not change while a report is under way *)
Definition ok_at (b : bool) (nd : node) : Prop :=
  match nd with
  | NEngine _ s => Engine.s_running s = b /\ (b = false -> t_dead (Engine.s_tomb s) = true)
  | NRunner _ s => b = true /\ Runner.s_mu s = None
  | _ => b = false
  end.

Lemma rview_core P c l c' : Runner.cstep P c l = Some c' -> (forall a, l = Runner.KAct -> Runner.c_loop c = Runner.LDo a -> Runner.act_locks P c a = false) ->
  forall id, (fun i => (Runner.status i, Runner.i_started i, fst <$> Runner.i_worker i)) <$> Runner.c_workers c' !! id =
             (fun i => (Runner.status i, Runner.i_started i, fst <$> Runner.i_worker i)) <$> Runner.c_workers c !! id.
Proof.
  intros Hs Ha id.
  destruct l; cbn [Runner.cstep] in Hs; try (repeat case_match; try done; simplify_eq; done).
  - injection Hs as <-. unfold Runner.kill_tomb. by case_match.
  - destruct (Runner.c_loop c) as [|a| |]; try done. specialize (Ha a eq_refl eq_refl). destruct a; cbn in Ha; try done.
    + injection Hs as <-. unfold Runner.start_worker. destruct (Runner.c_dying c) eqn:Hd; [done|]. cbn in Ha. apply bool_decide_eq_false in Ha.
      destruct (Runner.c_workers c !! id0) eqn:E; [done|]. by destruct Ha.
    + by injection Hs as <-.
    + destruct (Runner.c_gors c !! g) as [[id' f x p]|]; [|done]. destruct p; try done. injection Hs as <-. unfold Runner.worker_done. cbn.
      destruct (Runner.c_workers c !! id') as [i|] eqn:E; [|done]. unfold Runner.removes in Ha.
      assert (forall f', Runner.i_start i = Some f' ->
        (fun i => (Runner.status i, Runner.i_started i, fst <$> Runner.i_worker i)) <$> (<[id' := i <| Runner.i_delay := Runner.r_delay P |>]> (Runner.c_workers c)) !! id =
        (fun i => (Runner.status i, Runner.i_started i, fst <$> Runner.i_worker i)) <$> Runner.c_workers c !! id) as Hx.
      { intros f' _. destruct (decide (id' = id)) as [-> |]; [rewrite lookup_insert, E|by rewrite lookup_insert_ne]. done. }
      destruct e as [e|].
      * apply orb_false_iff in Ha as [[Ha1 Ha2]%orb_false_iff Ha3]. rewrite Ha1, Ha2. apply bool_decide_eq_false in Ha3.
        destruct (Runner.i_start i) eqn:Es; [|by destruct Ha3]. cbn. by eapply Hx.
      * apply orb_false_iff in Ha as [Ha1 Ha3]. rewrite Ha1. apply bool_decide_eq_false in Ha3.
        destruct (Runner.i_start i) eqn:Es; [|by destruct Ha3]. cbn. by eapply Hx.
    + by injection Hs as <-.
Qed.
Lemma deliver_keeps i k id r s : Runner.s_mu (Runner.deliver i k id r s) = Runner.s_mu s /\ Runner.c_workers (Runner.s_core (Runner.deliver i k id r s)) = Runner.c_workers (Runner.s_core s).
Proof. unfold Runner.deliver. destruct r; [done|]. by destruct k. Qed.

Definition rview (s : Runner.state) (id : string) :=
  (fun i => (Runner.status i, Runner.i_started i, fst <$> Runner.i_worker i)) <$> Runner.c_workers (Runner.s_core s) !! id.
Lemma rview_step P s l s' : Runner.step P s l = Some s' -> Runner.s_mu s = None -> needs (NRunner P s) (LRunner l) = false ->
  Runner.s_mu s' = None /\ forall id, rview s' id = rview s id.
Proof.
  intros Hs Hm Hn. unfold needs in Hn. unfold rview.
  destruct l; cbn [Runner.step] in Hs, Hn; try (rewrite Hm in Hs); try (repeat case_match; try done; simplify_eq; done).
  1: { destruct (negb (Runner.own l)); [done|]. cbn in Hn. destruct (Runner.cstep P (Runner.s_core s) l) as [c'|] eqn:Hc; [|done].
    assert (Runner.s_mu s' = None /\ Runner.c_workers (Runner.s_core s') = Runner.c_workers c') as [-> ->].
    { destruct l, (Runner.c_loop (Runner.s_core s)) as [|a| |]; try (injection Hs as <-; done). rewrite bool_decide_eq_false_2 in Hs by (by intros []). rewrite andb_false_r in Hs.
      destruct a; try (injection Hs as <-; done). destruct (Runner.s_calls s !! c) as [[]|]; try done. by injection Hs as <-. }
    split; [done|]. apply (rview_core _ _ _ _ Hc). intros a -> Hl. rewrite Hl in Hn. by destruct (Runner.act_locks P (Runner.s_core s) a). }
  all: clear Hn; repeat case_match; try done; simplify_eq; try done.
  all: first [ match goal with H : Runner.cstep _ _ _ = Some _ |- _ => cbn; split; [done|]; intros ?; by apply (rview_core _ _ _ _ H) end
             | match goal with |- context [Runner.deliver ?i ?k ?id ?r ?s] => destruct (deliver_keeps i k id r s) as [-> ->]; done end ].
Qed.

Lemma map_same {A B} (f : A -> B) (m m' : gmap string A) : (forall k, f <$> m' !! k = f <$> m !! k) -> f <$> m' = f <$> m.
Proof. intros H. apply map_eq. intros k. by rewrite !lookup_fmap, H. Qed.
Lemma rtable P s s' : (forall id, rview s' id = rview s id) -> table_of (NRunner P s') = table_of (NRunner P s).
Proof.
  intros H. unfold table_of. f_equal. apply map_same. intros id. specialize (H id). unfold rview in H.
  destruct (Runner.c_workers (Runner.s_core s') !! id) as [i'|], (Runner.c_workers (Runner.s_core s) !! id) as [i|]; cbn in H |- *; try done.
  injection H as H1 H2 H3. unfold Runner.report_of. rewrite H1, H2. do 2 f_equal. by destruct (Runner.i_worker i') as [[]|], (Runner.i_worker i) as [[]|].
Qed.

(** The engine: only the loop writes what a report shows. *)
Definition loop_label (l : Engine.label) : bool :=
  match l with Engine.LInstall _ _ | Engine.LReport | Engine.LDying | Engine.LStarted _ | Engine.LStopped _ => true | _ => false end.
Lemma kill_dead t e : t_dead (tomb_kill t e) = t_dead t.
Proof. unfold tomb_kill. by repeat case_match. Qed.
Lemma kill_keeps e s : Engine.s_running (Engine.kill_tomb e s) = Engine.s_running s /\ t_dead (Engine.s_tomb (Engine.kill_tomb e s)) = t_dead (Engine.s_tomb s) /\
  Engine.s_current (Engine.kill_tomb e s) = Engine.s_current s /\ Engine.s_manifolds (Engine.kill_tomb e s) = Engine.s_manifolds s.
Proof. unfold Engine.kill_tomb. pose proof (kill_dead (Engine.s_tomb s) e). by destruct (negb _ && _). Qed.
Lemma eview_step E s l s' : Engine.step E s l = Some s' -> loop_label l = false ->
  Engine.s_running s' = Engine.s_running s /\ t_dead (Engine.s_tomb s') = t_dead (Engine.s_tomb s) /\
  Engine.s_current s' = Engine.s_current s /\ Engine.s_manifolds s' = Engine.s_manifolds s.
Proof.
  intros Hs Hl. destruct l; cbn [Engine.step loop_label] in *; try done.
  all: try (repeat case_match; try done; simplify_eq; done).
  - injection Hs as <-. apply kill_keeps.
  - repeat case_match; try done; simplify_eq. all: unfold Engine.kill_worker. 
    all: match goal with |- context [Engine.kill_tomb ?e ?x] => destruct (kill_keeps e x) as (-> & -> & -> & ->); done | _ => done end.
Qed.
Lemma etable E s s' : Engine.s_current s' = Engine.s_current s -> Engine.s_manifolds s' = Engine.s_manifolds s -> table_of (NEngine E s') = table_of (NEngine E s).
Proof.
  intros H1 H2. unfold table_of, Engine.manifolds_report. f_equal. rewrite H1. apply map_eq. intros k. rewrite !lookup_fmap, !map_lookup_imap.
  destruct (Engine.s_current s !! k); cbn; [|done]. unfold bare, Engine.manifold_report, Engine.manifold_of. cbn. by rewrite H2.
Qed.

(** One worker: what it may do while a report of it is under way. *)
Lemma nstep_table b nd l nd' : ok_at b nd -> nstep nd l = Some nd' -> (b = true -> needs nd l = false) -> ok_at b nd' /\ table_of nd' = table_of nd.
Proof.
  intros Ho Hs Hn. unfold nstep in Hs. destruct (goexit l); [done|]. destruct nd as [E s|P s|me s|k f], l as [l|l|l|e]; try done.
  - destruct (Engine.step E s l) as [s'|] eqn:Hst; [|done]. injection Hs as <-. destruct Ho as [Hr Hd].
    assert (loop_label l = false) as Hl.
    { destruct b; [exact (Hn eq_refl)|]. destruct l; try done; cbn in Hst; rewrite Hr in Hst; cbn in Hst; by repeat case_match. }
    destruct (eview_step _ _ _ _ Hst Hl) as (A1 & A2 & A3 & A4). split; [|by apply etable]. split; [congruence|]. intros Hb. rewrite A2. by apply Hd.
  - destruct (Runner.step P s l) as [s'|] eqn:Hst; [|done]. injection Hs as <-. destruct Ho as [-> Hm].
    destruct (rview_step _ _ _ _ Hst Hm (Hn eq_refl)) as [A B]. split; [done|]. by apply rtable.
  - destruct (Catacomb.step me s l); [|done]. by injection Hs as <-.
  - by destruct f.
  - by destruct f.
  - by destruct f.
  - destruct f; [done|]. by injection Hs as <-.
Qed.
Lemma nkill_table b nd : ok_at b nd -> ok_at b (nkill nd) /\ table_of (nkill nd) = table_of nd.
Proof.
  intros Ho. destruct nd as [E s|P s|me s|k f]; cbn.
  - destruct (kill_keeps None s) as (A1 & A2 & A3 & A4). destruct Ho as [Hr Hd]. split; [|by apply etable]. split; [by rewrite A1|]. intros Hb. rewrite A2. by apply Hd.
  - unfold Runner.kill_tomb. destruct (t_dying _); done.
  - by destruct (Catacomb.step me s (Catacomb.LKill None)).
  - done.
Qed.
Lemma fstep_nodes F l F' n nd : fstep F l = Some F' -> f_nodes F !! n = Some nd ->
  exists nd1 nd', f_nodes F' !! n = Some nd' /\ (nd' = nd1 \/ nd' = nkill nd1) /\ (nd1 = nd \/ exists x cs, l = FStep n x cs /\ nstep nd x = Some nd1).
Proof.
  intros Hs Hn. destruct l as [m nd0|m|m x cs]; cbn [fstep] in Hs.
  - destruct (f_nodes F !! m) eqn:Hm; [done|]. injection Hs as <-. exists nd, nd. cbn. rewrite lookup_insert_ne by congruence. auto.
  - destruct (f_nodes F !! m) as [ndm|] eqn:Hm; [|done]. injection Hs as <-. cbn. destruct (decide (m = n)) as [-> |Hne].
    + rewrite lookup_insert. rewrite Hn in Hm. injection Hm as <-. exists nd, (nkill nd). auto.
    + rewrite lookup_insert_ne by done. exists nd, nd. auto.
  - destruct (f_nodes F !! m) as [ndm|] eqn:Hm; [|done]. destruct (negb _); [done|]. destruct (negb _); [done|].
    destruct (nstep ndm x) as [nd1|] eqn:Hst; [|done]. destruct (add_links F m _) as [F1|] eqn:Hal; [|done]. injection Hs as <-.
    destruct (add_links_ok _ _ _ _ Hal) as (A1 & _ & _ & _). unfold pass_kills. cbn. rewrite map_lookup_imap, A1.
    destruct (decide (m = n)) as [-> |Hne].
    + rewrite lookup_insert. cbn. rewrite Hn in Hm. injection Hm as <-. exists nd1. eexists. split; [done|]. split; [case_match; auto|]. right. eauto.
    + rewrite lookup_insert_ne by done. rewrite Hn. cbn. exists nd. eexists. split; [done|]. split; [case_match; auto|]. by left.
Qed.
Lemma fstep_table b F l F' n nd : fstep F l = Some F' -> f_nodes F !! n = Some nd -> ok_at b nd ->
  (b = true -> forall x cs, l = FStep n x cs -> needs nd x = false) -> exists nd', f_nodes F' !! n = Some nd' /\ ok_at b nd' /\ table_of nd' = table_of nd.
Proof.
  intros Hs Hn Ho Hne. destruct (fstep_nodes _ _ _ _ _ Hs Hn) as (nd1 & nd' & Hn' & Hk & H1). exists nd'. split; [done|].
  assert (ok_at b nd1 /\ table_of nd1 = table_of nd) as [Ho1 Ht1].
  { destruct H1 as [-> |(x & cs & -> & Hx)]; [done|]. apply (nstep_table _ _ _ _ Ho Hx). intros Hb. by eapply Hne. }
  destruct Hk as [-> | ->]; [done|]. destruct (nkill_table _ _ Ho1) as [A B]. split; [done|congruence].
Qed.

(** ** A true report, in terms of [head_of], [table_of] and [reporters] *)
Inductive true_report0 (tr : list forest) : nat -> nat -> nat -> rtree -> Prop :=
  | true_intro0 a b n hd tb kids F nd :
    a <= b -> is_Some (tr !! b) ->
    tr !! a = Some F -> f_nodes F !! n = Some nd -> hd = head_of nd ->
    (forall j F', a <= j <= b -> tr !! j = Some F' -> exists nd', f_nodes F' !! n = Some nd' /\ table_of nd' = tb) ->
    (match nd with NEngine _ _ | NRunner _ _ => forall k, k ∈ reporters nd <-> k ∈ kids.*1 | _ => True end) -> NoDup kids.*1 ->
    (forall k t, (k, t) ∈ kids -> exists c a' b', a <= a' /\ b' <= b /\ f_link F !! (n, k) = Some c /\ true_report0 tr a' b' c t) ->
    true_report0 tr a b n (RT hd tb kids).
Lemma engine_so E s : Engine.reachable E s ->
  (Engine.EvDead ∈ Engine.s_log s <-> Engine.s_running s = false) /\
  forall n, match EngineSpec.installed (Engine.s_log s) n, Engine.manifolds_report E s !! n with
            | Some m, Some mr => EngineSpec.mreport_spec E (Engine.s_log s) n m mr | None, None => True | _, _ => False end.
Proof.
  intros Hr. destruct (EngineLog.reachable_linv E s Hr) as [V L].
  split; [by apply (EngineSafety.dead_running E)|]. apply EngineObs.manifolds_report_spec; [done|done|].
  apply (EngineLog.reach_ind2 E (fun s D => EngineObs.err_inv s)); [done| |done].
  clear s Hr V L. intros s D s' D' V L V' L' C Hm. by apply (EngineObs.err_micro E s D s' D').
Qed.
Lemma reporters_has nd k : node_ok nd -> k ∈ reporters nd <-> has_reporter nd k.
Proof.
  destruct nd as [E s|P s|me s|kk f]; cbn; intros Hok; [| |by rewrite elem_of_nil..]; rewrite elem_of_list_omap.
  - destruct (EngineLog.reachable_linv E s Hok) as [V L]. split.
    + intros (n & Hn & Hx). apply elem_of_list_fmap in Hn as ([n' i] & -> & Hn). apply elem_of_map_to_list in Hn. cbn in *.
      destruct (EngineSpec.registered (Engine.s_log s) n') as [[g [|w]]|] eqn:E1; try done. destruct (Engine.e_reporter E w) eqn:E2; [|done]. injection Hx as ->.
      destruct (proj1 (EngineMicro.v_dom s V n') (ex_intro _ i Hn)) as [m Hm]. exists n', m, w. split; [|done]. by rewrite (EngineLog.l_inst E s L).
    + intros (n & m & w & Hi & H1 & H2). exists n. split; [|by rewrite H1, H2]. rewrite (EngineLog.l_inst E s L) in Hi.
      destruct (proj2 (EngineMicro.v_dom s V n) (ex_intro _ m Hi)) as [i Hin]. apply elem_of_list_fmap. exists (n, i). split; [done|]. by apply elem_of_map_to_list.
  - destruct Hok as (ls & Hr & _). pose proof (RunnerThms.reach_all P s (ex_intro _ ls Hr)) as A. split.
    + intros ([id i] & Hi & Hw). apply elem_of_map_to_list in Hi. cbn in Hw. destruct (Runner.i_worker i) as [[g w]|] eqn:E1; [|done]. injection Hw as ->.
      pose proof (RunnerHist.a_workers P _ A id) as W. rewrite Hi in W. destruct W as ((f & Hk & _) & Hg & _). exists id, w. unfold RunnerSpec.rlog. by rewrite Hk, Hg.
    + intros (id & w & Hk & Hw). pose proof (RunnerHist.a_workers P _ A id) as W. unfold RunnerSpec.rlog in *.
      destruct (Runner.c_workers (Runner.s_core s) !! id) as [i|] eqn:Hi; [|by destruct W]. destruct W as (_ & Hg & _). exists (id, i). split; [by apply elem_of_map_to_list|].
      cbn. rewrite <- Hg, Hw. done.
Qed.
Lemma head_so nd : node_ok nd -> self_so nd (head_of nd).
Proof.
  destruct nd as [E s| | |]; cbn; try done. intros Hr. destruct (engine_so E s Hr) as [Hd _]. destruct (EngineLog.reachable_linv E s Hr) as [V L].
  assert (Engine.dying s = true -> tomb_err (Engine.s_tomb s) = None) as Hte.
  { intros Hdy. unfold tomb_err. unfold Engine.dying, t_dying in Hdy. by destruct (EngineMicro.v_reason s V) as [Hx|Hx]; rewrite Hx in *. }
  pose proof (EngineMicro.v_run s V) as Hrun. unfold Engine.live_report. destruct (t_dead (Engine.s_tomb s)) eqn:Hdead.
  - destruct (Engine.s_running s); [destruct Hrun; congruence|]. cbn. split; [by apply Hd|]. unfold Engine.wait_result. rewrite Hte by apply Hrun. by rewrite (EngineLog.l_worst E s L).
  - assert (Engine.s_running s = true) as Hr1 by (destruct (Engine.s_running s); [done|destruct Hrun as (_ & ? & _); congruence]). rewrite Hr1 in *.
    destruct (Engine.dying s) eqn:Hdy; cbn.
    + rewrite (Hte eq_refl). split_and!; [by apply (EngineLog.l_dying E s L)|by rewrite Hd|apply (EngineLog.l_worst E s L)].
    + split; [|done]. by apply (EngineSafety.not_dying_log E).
Qed.
Lemma table_so nd : node_ok nd -> workers_so nd (table_of nd).
Proof.
  destruct nd as [E s|P s| |]; cbn; try done.
  - intros Hr n. pose proof (proj2 (engine_so E s Hr) n) as H. rewrite lookup_fmap. destruct (EngineSpec.installed _ n) as [m|], (Engine.manifolds_report E s !! n) as [r|]; cbn; try done.
    destruct H as (H1 & H2 & H3 & H4 & H5 & _). by destruct r.
  - intros (ls & Hr & _) id. pose proof (RunnerThms.reach_all P s (ex_intro _ ls Hr)) as A. rewrite lookup_fmap. pose proof (RunnerHist.a_workers P _ A id) as W. unfold RunnerSpec.rlog.
    destruct (Runner.c_workers (Runner.s_core s) !! id) as [i|] eqn:Hi; cbn; [|by destruct W].
    destruct W as ((f & -> & _) & -> & -> & _). split_and!; [done|done|]. unfold Runner.status. destruct (RunnerInv.ci_stop _ (RunnerHist.a_inv P _ A) id i Hi) as [_ H].
    destruct (Runner.i_stopping i); [by rewrite H|]. by destruct (Runner.i_worker i).
Qed.
Lemma true_convert tr : (forall j F, tr !! j = Some F -> freachable F) -> forall a b n t, true_report0 tr a b n t -> true_report tr a b n t.
Proof.
  intros Hre. fix IH 5. intros a b n t H. destruct H as [a b n hd tb kids F0 nd H1 H2 H3 H4 H5 H6 H7 H8 H9].
  assert (node_ok nd) as Hok by (eapply (v_ok F0); [by eapply finv_reach, Hre|done]).
  apply (true_intro _ a b n hd tb kids F0 nd); [done|done|done|done| | | |done|].
  - rewrite H5. by apply head_so.
  - intros j F' Hj Hl. destruct (H6 j F' Hj Hl) as (nd' & Hn & <-). exists nd'. split; [done|]. apply table_so. eapply (v_ok F'); [by eapply finv_reach, Hre|done].
  - destruct nd; try done; intros k; by rewrite <- reporters_has.
  - intros k t Hk. destruct (H9 k t Hk) as (c & a' & b' & A1 & A2 & A3 & A4). exists c, a', b'. split_and!; [done..|]. by apply IH.
Qed.
