(** C34: a stopping runner finishes. *)
From stdpp Require Import gmap strings list.
From Coq Require Import ZArith.
From RecordUpdate Require Import RecordSet.
From Verif Require Import Err Tomb Sum Runner RunnerSpec RunnerInv RunnerLog RunnerGor RunnerHist RunnerThms RunnerCalls RunnerUse RunnerAnswers RunnerProgressSpec.
Import RecordSetNotations.

(** ** A measure *)
Definition gw (ended : gmap nat (option err)) (g : nat) (r : wgor) : nat :=
  match w_pc r with
  | WBegin _ => 11 | WTimer _ => 10 | WStart => 9
  | WSendStarted _ => 7 + (if decide (is_Some (ended !! g)) then 0 else 1)
  | WWait _ => 4 + (if decide (is_Some (ended !! g)) then 0 else 1)
  | WSendDone _ => 3
  | _ => 0
  end.
Definition lw (p : lpc) : nat :=
  match p with
  | LTop => 1 | LEnded | LBlocked => 0
  | LDo ABcast => 2 | LDo (AStart _ _ _) => 4 | LDo _ => 3
  end.
Definition cm (c : core) : nat := msum (gw (c_ended c)) (c_gors c) + lw (c_loop c) + (if c_watch c then 3 else 0).
Definition ww (t : waiter) : nat := match t_pc t with TWoken => 4 | TLocked => 3 | TChecked => 2 | TWaiting => 1 | TExit => 0 end.
Definition wm (m : gmap nat waiter) : nat := msum (fun _ t => ww t) m.
Definition measure (s : state) : nat := cm (s_core s) * (3 * size (s_waits s) + 1) + wm (s_waits s).

Lemma cm_same c c' : c_ended c' = c_ended c -> c_gors c' = c_gors c -> c_loop c' = c_loop c -> c_watch c' = c_watch c -> cm c' = cm c.
Proof. unfold cm. by intros -> -> -> ->. Qed.
Lemma cm_put c c' g r r' : c_gors c !! g = Some r -> c_ended c' = c_ended c -> c_gors c' = <[g := r']> (c_gors c) -> c_watch c' = c_watch c ->
  cm c' + gw (c_ended c) g r + lw (c_loop c) = cm c + gw (c_ended c) g r' + lw (c_loop c').
Proof. intros Hg He Hgs Hw. unfold cm. rewrite He, Hgs, Hw. pose proof (msum_upd (gw (c_ended c)) (c_gors c) g r r' Hg). lia. Qed.
Lemma cm_loop c c' : c_ended c' = c_ended c -> c_gors c' = c_gors c -> c_watch c' = c_watch c -> cm c' + lw (c_loop c) = cm c + lw (c_loop c').
Proof. unfold cm. intros -> -> ->. lia. Qed.
Lemma set_pc_gors g p c r : c_gors c !! g = Some r -> c_gors (set_pc g p c) = <[g := r <| w_pc := p |>]> (c_gors c).
Proof. intros Hg. unfold set_pc. cbn. apply map_eq. intros j. destruct (decide (j = g)) as [->|]; [by rewrite lookup_alter, lookup_insert, Hg|by rewrite lookup_alter_ne, lookup_insert_ne by done]. Qed.

Lemma kill_worker_frame id c : let c' := kill_worker id c in c_ended c' = c_ended c /\ c_gors c' = c_gors c /\ c_watch c' = c_watch c /\ c_loop c' = c_loop c.
Proof. unfold kill_worker. cbn. destruct (c_workers c !! id) as [i|]; [|done]. destruct (i_worker i) as [[]|]; done. Qed.
Lemma kill_all_frame c : let c' := kill_all c in c_ended c' = c_ended c /\ c_gors c' = c_gors c /\ c_watch c' = c_watch c /\ c_loop c' = c_loop c.
Proof.
  unfold kill_all. cbn. induction (elements (dom (c_workers c))) as [|id l (H1 & H2 & H3 & H4)]; [done|]. cbn.
  destruct (kill_worker_frame id (foldr kill_worker c l)) as (G1 & G2 & G3 & G4). split_and!; congruence.
Qed.
Lemma at_select_top c : at_select c = true -> c_loop c = LTop.
Proof. unfold at_select. by destruct (c_loop c). Qed.

(** What an internal label of the core is. *)
Definition inner (l : clabel) : bool := internal (LCore l).
Lemma inner_less P c l c' : cinv c -> c_dying c = true -> inner l = true -> cstep P c l = Some c' -> cm c' < cm c.
Proof.
  intros V Hd Hi Hs. destruct l; try done; cbn [cstep] in Hs.
  - (* KDying *) destruct (at_select c) eqn:Ha; [|done]. destruct (c_watch c) eqn:Hw; [|done]. destruct (t_dying (c_tomb c)); [|done]. injection Hs as <-.
    apply at_select_top in Ha. unfold cm. cbn. rewrite Ha, Hw. cbn. lia.
  - (* KRecvStarted *) destruct (c_gors c !! g) as [[id f x p]|] eqn:Hg; [|done]. destruct p; try done. destruct (at_select c) eqn:Ha; [|done]. injection Hs as <-. apply at_select_top in Ha.
    match goal with |- cm ?c' < _ => pose proof (cm_put c c' g _ _ Hg eq_refl (set_pc_gors g (WWait w) c _ Hg) eq_refl) as Hm end.
    rewrite Ha in Hm. unfold gw in Hm. cbn in Hm |- *. case_decide; lia.
  - (* KRecvDone *) destruct (c_gors c !! g) as [[id f x p]|] eqn:Hg; [|done]. destruct p; try done. destruct (at_select c) eqn:Ha; [|done]. injection Hs as <-. apply at_select_top in Ha.
    match goal with |- cm ?c' < _ => pose proof (cm_put c c' g _ _ Hg eq_refl (set_pc_gors g (WTaken e) c _ Hg) eq_refl) as Hm end.
    rewrite Ha in Hm. unfold gw in Hm. cbn in Hm |- *. lia.
  - (* KAct *) destruct (c_loop c) as [|a| |] eqn:Hl; try done. destruct a.
    + injection Hs as <-. destruct (kill_all_frame c) as (G1 & G2 & G3 & G4). pose proof (cm_loop c (set_loop (LDo ABcast) (kill_all c)) G1 G2 G3) as Hm. rewrite Hl in Hm. cbn in Hm. lia.
    + injection Hs as <-. unfold start_worker. rewrite Hd.
      match goal with |- cm ?c' < _ => pose proof (cm_loop c c' eq_refl eq_refl eq_refl) as Hm end. rewrite Hl in Hm. cbn in Hm |- *. lia.
    + injection Hs as <-. match goal with |- cm ?c' < _ => pose proof (cm_loop c c' eq_refl eq_refl eq_refl) as Hm end. rewrite Hl in Hm. cbn in Hm |- *. lia.
    + injection Hs as <-. destruct (kill_worker_frame id c) as (G1 & G2 & G3 & G4). pose proof (cm_loop c (set_loop (LDo ABcast) (kill_worker id c)) G1 G2 G3) as Hm. rewrite Hl in Hm. cbn in Hm. lia.
    + destruct (c_gors c !! g) as [r|] eqn:Hg; [|done]. injection Hs as <-. pose proof (ci_loop c V) as Hlo. rewrite Hl in Hlo. destruct Hlo as (r' & Hg' & Hp). rewrite Hg in Hg'. injection Hg' as <-.
      destruct (proj2 (ci_act c V (w_id r))) as [i Hn]. { exists g, r. split_and!; [done|done|]. destruct Hp as [Hp|[Hp|[? Hp]]]; by rewrite Hp. }
      unfold set_worker. rewrite Hn, Hd. cbn [orb].
      match goal with |- context [kill_worker ?id ?c1] => destruct (kill_worker_frame id c1) as (G1 & G2 & G3 & G4); pose proof (cm_loop c (set_loop (LDo ABcast) (kill_worker id c1)) G1 G2 G3) as Hm end.
      rewrite Hl in Hm. cbn in Hm. lia.
    + destruct (c_gors c !! g) as [[id f x p]|] eqn:Hg; [|done]. destruct p; try done. injection Hs as <-.
      destruct (proj2 (ci_act c V id)) as [i Hn]. { eexists g, _. split_and!; [done|done|done]. }
      destruct (ci_dying c V Hd) as [?|Hst]; [congruence|]. specialize (Hst _ _ Hn). destruct (ci_stop c V _ _ Hn) as [Hs1 _]. apply Hs1 in Hst as Hst0.
      destruct (ci_done c V _ _ Hn) as [_ Hsig].
      assert (forall c1 b, c_ended c1 = c_ended c -> c_gors c1 = <[g := mkWGor id f x WGone]> (c_gors c) -> c_watch c1 = c_watch c -> c_signals c1 = c_signals c -> b = ABcast ->
        cm (remove_worker id (i_done i) b c1) < cm c) as Hrm.
      { intros c1 b E1 E2 E3 E4 ->. unfold remove_worker. rewrite E4, bool_decide_eq_false_2 by done.
        match goal with |- cm ?c' < _ => pose proof (cm_put c c' g _ _ Hg E1 E2 E3) as Hm end. rewrite Hl in Hm. unfold gw in Hm. cbn in Hm |- *. lia. }
      unfold worker_done. cbn [c_workers emit set_pc]. unfold emit, set_pc. cbn [c_workers]. 
      replace (c_workers _) with (c_workers c) by done. rewrite Hn, Hst0.
      assert (forall p, c_gors (set_pc g p c) = <[g := mkWGor id f x p]> (c_gors c)) as Hsp by (intros p; apply (set_pc_gors g p c _ Hg)).
      destruct e as [e|].
      * destruct (r_isFatal P e); [|destruct (negb _)]; cbn -[remove_worker]; rewrite ?Hd; apply Hrm; try done; apply (Hsp WGone).
      * rewrite Hst. cbn -[remove_worker]. apply Hrm; try done; apply (Hsp WGone).
    + injection Hs as <-. match goal with |- cm ?c' < _ => pose proof (cm_loop c c' eq_refl eq_refl eq_refl) as Hm end. rewrite Hl in Hm. cbn in Hm |- *. lia.
  - (* KReturn *) destruct (c_loop c) eqn:Hl; try done. destruct (finished c); [|done]. injection Hs as <-. unfold cm. cbn. destruct (t_dead _); cbn; rewrite Hl; cbn; lia.
  - (* KBegin *) destruct (c_gors c !! g) as [[id f x p]|] eqn:Hg; [|done]. destruct p; try done. destruct (0 <? d)%Z; injection Hs as <-.
    + match goal with |- cm ?c' < _ => pose proof (cm_put c c' g _ _ Hg eq_refl (set_pc_gors g _ c _ Hg) eq_refl) as Hm end. unfold gw in Hm. cbn in Hm |- *. lia.
    + match goal with |- cm ?c' < _ => pose proof (cm_put c c' g _ _ Hg eq_refl (set_pc_gors g _ c _ Hg) eq_refl) as Hm end. unfold gw in Hm. cbn in Hm |- *. lia.
  - (* KFire *) destruct (c_gors c !! g) as [[id f x p]|] eqn:Hg; [|done]. destruct p; try done. destruct (_ <=? _)%Z; [|done]. injection Hs as <-.
    match goal with |- cm ?c' < _ => pose proof (cm_put c c' g _ _ Hg eq_refl (set_pc_gors g _ c _ Hg) eq_refl) as Hm end. unfold gw in Hm. cbn in Hm |- *. lia.
  - (* KDelayAbort *) destruct (c_gors c !! g) as [[id f x p]|] eqn:Hg; [|done]. destruct p; try done. destruct (t_dying _); [|done]. injection Hs as <-.
    match goal with |- cm ?c' < _ => pose proof (cm_put c c' g _ _ Hg eq_refl (set_pc_gors g _ c _ Hg) eq_refl) as Hm end. unfold gw in Hm. cbn in Hm |- *. lia.
  - (* KStartRet *) destruct (c_gors c !! g) as [[id f x p]|] eqn:Hg; [|done]. destruct p; try done. injection Hs as <-.
    match goal with |- cm ?c' < _ => pose proof (cm_put c c' g _ _ Hg eq_refl (set_pc_gors g _ c _ Hg) eq_refl) as Hm end. unfold gw in Hm. cbn in Hm |- *.
    destruct r; cbn in Hm |- *; [case_decide|]; lia.
  - (* KGoexit *) destruct (c_gors c !! g) as [[id f x p]|] eqn:Hg; [|done]. destruct p; try done. injection Hs as <-.
    match goal with |- cm ?c' < _ => pose proof (cm_put c c' g _ _ Hg eq_refl (set_pc_gors g _ c _ Hg) eq_refl) as Hm end. unfold gw in Hm. cbn in Hm |- *. lia.
  - (* KEnd *) destruct (c_gors c !! g) as [[id f x p]|] eqn:Hg; [|done].
    assert ((exists w, p = WSendStarted w \/ p = WWait w) /\ c_ended c !! g = None /\ c' = emit (EvEnd g id e) (c <| c_ended ::= <[g := e]> |>)) as (Hp & He & ->).
    { destruct p; try done; destruct (c_ended c !! g); try done; injection Hs as <-; eauto. }
    unfold cm. cbn.
    pose proof (msum_two (gw (c_ended c)) (gw (<[g := e]> (c_ended c))) (c_gors c) (c_gors c) g _ (mkWGor id f x p) Hg) as Hm.
    rewrite insert_id in Hm by done. specialize (Hm eq_refl). assert (forall j z, j <> g -> c_gors c !! j = Some z -> gw (<[g := e]> (c_ended c)) j z = gw (c_ended c) j z) as Hx.
    { intros j z Hj _. unfold gw. by rewrite lookup_insert_ne. }
    specialize (Hm Hx). assert (gw (<[g := e]> (c_ended c)) g (mkWGor id f x p) < gw (c_ended c) g (mkWGor id f x p)); [|lia].
    unfold gw. cbn. rewrite lookup_insert, He. destruct Hp as (w & [-> | ->]).
    + rewrite decide_True by eauto. rewrite decide_False by (by intros []). lia.
    + rewrite decide_True by eauto. rewrite decide_False by (by intros []). lia.
  - (* KExit *) destruct (c_gors c !! g) as [[id f x p]|] eqn:Hg; [|done]. destruct p; try done. destruct (c_ended c !! g) eqn:He; [|done]. injection Hs as <-.
    match goal with |- cm ?c' < _ => pose proof (cm_put c c' g _ _ Hg eq_refl (set_pc_gors g _ c _ Hg) eq_refl) as Hm end. unfold gw in Hm. cbn in Hm |- *. case_decide; lia.
Qed.

Lemma wm_wake m : wm (wake <$> m) <= wm m + 3 * size m.
Proof.
  unfold wm. induction m as [|k x m Hk IH] using map_ind; [by rewrite fmap_empty, !msum_empty|].
  rewrite fmap_insert, !msum_new, map_size_insert_None by (by rewrite ?lookup_fmap, ?Hk).
  assert (ww (wake x) <= ww x + 3). { unfold wake, ww. destruct (t_pc x) eqn:Hp; cbn; rewrite ?Hp; lia. } lia.
Qed.
Lemma wm_upd m k x y : m !! k = Some x -> wm (<[k := y]> m) + ww x = wm m + ww y.
Proof. intros Hk. apply (msum_upd (fun _ t => ww t) m k x y Hk). Qed.
Lemma size_upd (m : gmap nat waiter) k x y : m !! k = Some x -> size (<[k := y]> m) = size m.
Proof. intros Hk. apply map_size_insert_Some. eauto. Qed.
Lemma measure_core s s' : cm (s_core s') < cm (s_core s) -> s_waits s' = s_waits s -> measure s' < measure s.
Proof. unfold measure. intros H ->. nia. Qed.
Lemma measure_bcast s s' : cm (s_core s') < cm (s_core s) -> s_waits s' = wake <$> s_waits s -> measure s' < measure s.
Proof. unfold measure. intros H ->. rewrite map_size_fmap. pose proof (wm_wake (s_waits s)). nia. Qed.
Lemma measure_wait s s' i t t' : cm (s_core s') = cm (s_core s) -> s_waits s !! i = Some t -> s_waits s' = <[i := t']> (s_waits s) -> ww t' < ww t -> measure s' < measure s.
Proof. unfold measure. intros H Ht -> Hw. rewrite H, (size_upd _ _ _ _ Ht). pose proof (wm_upd (s_waits s) i t t' Ht). lia. Qed.

Lemma internal_less P s l s' : cinv (s_core s) -> c_dying (s_core s) = true -> internal l = true -> step P s l = Some s' -> measure s' < measure s.
Proof.
  intros V Hd Hi Hs. destruct l; try done; cbn [step] in Hs.
  - destruct (own l) eqn:Ho; [|done]. cbn [negb] in Hs. destruct (cstep P (s_core s) l) as [c'|] eqn:Hc; [|done].
    pose proof (inner_less P _ l c' V Hd Hi Hc) as Hm.
    destruct l; try done; try (injection Hs as <-; by apply measure_core).
    destruct (c_loop (s_core s)) as [|a| |] eqn:Hl; try (injection Hs as <-; by apply measure_core).
    destruct (_ && _); [done|]. destruct a; try (injection Hs as <-; by apply measure_core).
    + destruct (s_calls s !! c) as [[]|]; try done. injection Hs as <-. by apply measure_core.
    + injection Hs as <-. by apply measure_bcast.
  - destruct (s_waits s !! c) as [[id [] [] ch]|] eqn:Ht; try done; injection Hs as <-; (eapply measure_wait; [done|exact Ht|done|]); cbn; lia.
  - destruct (s_waits s !! c) as [[id [] st ch]|] eqn:Ht; try done; injection Hs as <-; (eapply measure_wait; [done|exact Ht|done|]); cbn; lia.
  - destruct (s_waits s !! c) as [[id [] st ch]|] eqn:Ht; try done. destruct (s_mu s); [done|].
    destruct (get_worker _ _); injection Hs as <-; (eapply measure_wait; [done|exact Ht|done|]); cbn; lia.
Qed.
Lemma deliver_frame i k id r s : s_waits (deliver i k id r s) = s_waits s /\ cm (s_core (deliver i k id r s)) = cm (s_core s).
Proof. unfold deliver. destruct k, r; done. Qed.
Lemma other_le P s l s' : internal l = false -> request l = false -> step P s l = Some s' -> measure s' <= measure s.
Proof.
  intros Hi Hq Hs.
  assert (forall s', s_waits s' = s_waits s -> cm (s_core s') = cm (s_core s) -> measure s' <= measure s) as Heq.
  { unfold measure. by intros s1 -> ->. }
  destruct l; try done; cbn [step] in Hs.
  - destruct (own l) eqn:Ho; [|done]. cbn [negb] in Hs. destruct l; try done; cbn [cstep] in Hs.
    + injection Hs as <-. apply Heq; [done|]. unfold kill_tomb. by destruct (t_dying _).
    + destruct (0 <=? d)%Z; [|done]. injection Hs as <-. by apply Heq.
    + injection Hs as <-. by apply Heq.
    + destruct (c_gors (s_core s) !! g) as [[id f x p]|] eqn:Hg; [|done]. destruct p; try done. injection Hs as <-.
      assert (cm (set_pc g WLost (s_core s)) <= cm (s_core s)) as Hle; [|unfold measure; cbn -[cm set_pc Nat.mul]; nia].
      pose proof (cm_put (s_core s) (set_pc g WLost (s_core s)) g _ _ Hg eq_refl (set_pc_gors g WLost (s_core s) _ Hg) eq_refl) as Hm. unfold gw in Hm. cbn in Hm |- *. lia.
  - destruct (s_calls s !! c); [done|]. injection Hs as <-. by apply Heq.
  - destruct (s_calls s !! c) as [[]|]; try done. case_bool_decide; [|done]. injection Hs as <-. by apply Heq.
  - destruct (t_dead _); [|done]. destruct (s_calls s !! c) as [[]|]; try done; injection Hs as <-; by apply Heq.
  - destruct (s_calls s !! c) as [[]|]; try done. injection Hs as <-. destruct (t_dying _); [by apply Heq|]. apply Heq; apply deliver_frame.
  - destruct (s_calls s !! c) as [[]|]; try done. destruct (s_waits s !! c) as [[? ? ? [r|]]|]; try done. injection Hs as <-. destruct r; [by apply Heq|]. apply Heq; apply deliver_frame.
  - destruct (s_calls s !! c) as [[]|]; try done. injection Hs as <-. destruct (t_dying _); [by apply Heq|]. destruct k; by apply Heq.
  - destruct (s_calls s !! c) as [[]|]; try done. destruct (t_dying _); [|done]. injection Hs as <-. by apply Heq.
  - destruct (s_calls s !! c) as [[]|]; try done. injection Hs as <-. by apply Heq.
  - destruct (s_calls s !! c) as [[]|]; try done. destruct (c_ended _ !! _); [|done]. injection Hs as <-. by apply Heq.
  - destruct (s_calls s !! c) as [[]|]; try done. case_bool_decide; [|done]. injection Hs as <-. by apply Heq.
  - destruct (s_calls s !! c) as [[]|]; try done. cbn in Hs. case_bool_decide; [|done]. injection Hs as <-. by apply Heq.
  - destruct (s_mu s); [done|]. injection Hs as <-. by apply Heq.
  - destruct (s_mu s); [done|]. injection Hs as <-. by apply Heq.
  - destruct (tomb_wait _); [|done]. injection Hs as <-. by apply Heq.
Qed.
(** C34, first half: without new work from clients there is a bound on what the runner still does. *)
Lemma stopping_grows P s ls s' : run P s ls = Some s' -> stopping_all (rlog s) -> stopping_all (rlog s').
Proof.
  revert s. induction ls as [|l ls IH]; intros s; [by intros [= ->]|]. cbn. destruct (step P s l) as [s1|] eqn:Hs; [|done]. intros Hr Hst. apply (IH s1 Hr).
  destruct (strans_emits P s s1 (step_strans P s l s1 Hs)) as [(evs & -> & _)|(ce & post & -> & (evs & -> & _) & _)]; unfold stopping_all; set_solver.
Qed.
Lemma reach_step P s l s' : reachable P s -> step P s l = Some s' -> reachable P s'.
Proof. intros [ls H] Hs. exists (ls ++ [l]). by rewrite run_snoc, H. Qed.
Lemma shutdown_bounded P s ls s' : reachable P s -> stopping_all (rlog s) -> run P s ls = Some s' ->
  (forall l, l ∈ ls -> request l = false) -> internal_steps ls <= measure s.
Proof.
  revert s. induction ls as [|l ls IH]; intros s Hr Hst Hrun Hq; [cbn; lia|]. cbn in Hrun |- *. destruct (step P s l) as [s1|] eqn:Hs; [|done].
  assert (internal_steps ls <= measure s1) as H1.
  { apply IH; [by eapply reach_step|apply (stopping_grows P s [l]); [cbn; by rewrite Hs|done]|done|]. intros l' Hl'. apply Hq. by right. }
  assert (cinv (s_core s)) as V by (apply (a_inv P _ (reach_all P s Hr))).
  assert (c_dying (s_core s) = true) as Hd by (by apply (dying_all P _ (reach_all P s Hr))).
  destruct (internal l) eqn:Hi.
  - pose proof (internal_less P s l s1 V Hd Hi Hs). lia.
  - pose proof (other_le P s l s1 Hi (Hq l (elem_of_list_here _ _)) Hs). lia.
Qed.

(** ** A settled runner *)
Definition waitset (c : core) : Prop := forall g id f x w, c_gors c !! g = Some (mkWGor id f x (WWait w)) -> c_loop c = LDo (ASet g w) \/ EvSet g id w ∈ c_log c.
Definition wait_pc (r : wgor) : bool := match w_pc r with WWait _ => true | _ => false end.
Lemma ws_frame c c' : waitset c -> (forall g r, c_gors c' !! g = Some r -> wait_pc r = true -> c_gors c !! g = Some r) -> c_log c ⊆ c_log c' ->
  (forall g w, c_loop c = LDo (ASet g w) -> c_loop c' = c_loop c) -> waitset c'.
Proof.
  intros H Hg Hl Hlo g id f x w Hw. apply Hg in Hw; [|done]. destruct (H _ _ _ _ _ Hw) as [E|E]; [left; by rewrite (Hlo _ _ E)|right; by apply Hl].
Qed.
Lemma ws_put c g r : wait_pc r = false -> forall g' r', c_gors (put g r c) !! g' = Some r' -> wait_pc r' = true -> c_gors c !! g' = Some r'.
Proof. intros Hp g' r' H Hw. cbn in H. destruct (decide (g = g')) as [->|]; [rewrite lookup_insert in H; congruence|by rewrite lookup_insert_ne in H]. Qed.
Lemma ws_trans P c c' : cinv c -> waitset c -> ctrans P c c' -> waitset c'.
Proof.
  intros V H HT.
  assert (forall ev, c_log c ⊆ ev :: c_log c) as Hc by (intros ev x Hx; by right).
  assert (forall evs, c_log c ⊆ evs ++ c_log c) as Ha by (intros evs x Hx; apply elem_of_app; by right).
  assert (forall a b, c_log c ⊆ a :: b :: c_log c) as Hcc by (intros a b x Hx; right; by right).
  destruct HT; try (apply (ws_frame c); [done|done|done||exact (Hc _)||exact (Ha _)|cbn; congruence]).
  - (* T_recvstarted *) intros g' id' f' x' w' Hg'. cbn in Hg' |- *. destruct (decide (g = g')) as [->|Hne].
    + rewrite lookup_insert in Hg'. injection Hg' as <- <- <- <-. by left.
    + rewrite lookup_insert_ne in Hg' by done. right. destruct (H _ _ _ _ _ Hg') as [?|?]; [congruence|done].
  - apply (ws_frame c); [done|by apply ws_put|done|congruence].
  - apply (ws_frame c); [done| |cbn; intros y Hy; by do 3 right|cbn; congruence]. apply (ws_put c (c_next c) (mkWGor id f (Some i) (WBegin 0))). done.
  - (* T_set_live *) intros g' id' f' x' w' Hg'. cbn in Hg' |- *. right. destruct (H _ _ _ _ _ Hg') as [E|E]; [|by right]. rewrite H0 in E. injection E as -> ->. rewrite H1 in Hg'. injection Hg' as <- <- <- ->. by left.
  - intros g' id' f' x' w' Hg'. cbn in Hg' |- *. right. destruct (H _ _ _ _ _ Hg') as [E|E]; [|right; by right]. rewrite H0 in E. injection E as -> ->. rewrite H1 in Hg'. injection Hg' as <- <- <- ->. right; by left.
  - apply (ws_frame c); [done| |exact (Hcc _ _)|cbn; congruence]. by apply (ws_put c g (mkWGor id f x WGone)).
  - apply (ws_frame c); [done| | |cbn; congruence]. { by apply (ws_put c g (mkWGor id f x WGone)). } cbn. intros z Hz. apply elem_of_app. right. right. by right.
  - apply (ws_frame c); [done| |exact (Hcc _ _)|cbn; congruence]. intros g' r Hr Hw. cbn in Hr.
    apply (ws_put c g (mkWGor id f x WGone)); [done| |done]. by apply (ws_put (put g (mkWGor id f x WGone) c) (c_next c) (mkWGor id f' None (WBegin (i_delay i)))).
  - apply (ws_frame c); [done|by apply ws_put|done|done].
  - apply (ws_frame c); [done|by apply (ws_put c g (mkWGor id f x WStart))|exact (Hc _)|done].
  - apply (ws_frame c); [done|by apply (ws_put c g (mkWGor id f x WStart))|exact (Hc _)|done].
  - apply (ws_frame c); [done|by apply ws_put|done|done].
  - apply (ws_frame c); [done| |exact (Hc _)|done]. apply (ws_put c g (mkWGor id f x _)). by destruct r.
  - apply (ws_frame c); [done|by apply ws_put|done|done].
  - apply (ws_frame c); [done|by apply ws_put|done|done].
Qed.
Lemma creach_ws P c : creach P c -> waitset c.
Proof. intros H. apply (creach_ind P waitset); [by intros ? ? ? ? ? ?|intros c1 c2 V I _ HT; by eapply ws_trans|done]. Qed.

(** No worker made its goroutine disappear. *)
Definition no_lost (c : core) : Prop := forall g r, c_gors c !! g = Some r -> w_pc r <> WLost.
Lemma nl_set_pc g p c : no_lost c -> p <> WLost -> no_lost (set_pc g p c).
Proof.
  intros H Hp g' r Hg. unfold set_pc in Hg. cbn in Hg. destruct (decide (g' = g)) as [->|]; [|rewrite lookup_alter_ne in Hg by done; by eapply H].
  rewrite lookup_alter in Hg. destruct (c_gors c !! g); [|done]. injection Hg as <-. done.
Qed.
Lemma nl_same c c' : no_lost c -> c_gors c' = c_gors c -> no_lost c'.
Proof. intros H E g r Hg. rewrite E in Hg. by eapply H. Qed.
Lemma nl_spawn id f x d c : no_lost c -> no_lost (spawn id f x d c).
Proof. intros H g r Hg. cbn in Hg. destruct (decide (c_next c = g)) as [<-|]; [rewrite lookup_insert in Hg; by injection Hg as <-|rewrite lookup_insert_ne in Hg by done; by eapply H]. Qed.
Lemma nl_remove id d a c : no_lost c -> no_lost (remove_worker id d a c).
Proof. intros H. unfold remove_worker. case_bool_decide; by apply (nl_same c). Qed.
Lemma nl_step P c l c' : no_lost c -> (forall g, l <> KLost g) -> cstep P c l = Some c' -> no_lost c'.
Proof.
  intros H Hn Hs. destruct l; cbn [cstep] in Hs.
  - injection Hs as <-. apply (nl_same c); [done|]. unfold kill_tomb. by destruct (t_dying _).
  - destruct (_ <=? _)%Z; [|done]. by injection Hs as <-.
  - by injection Hs as <-.
  - case_bool_decide; [|done]. by injection Hs as <-.
  - by injection Hs as <-.
  - destruct (_ && _); [|done]. by injection Hs as <-.
  - destruct (at_select c); [|done]. by injection Hs as <-.
  - destruct (at_select c); [|done]. by injection Hs as <-.
  - destruct (c_gors c !! g) as [[? ? ? []]|]; try done. destruct (at_select c); [|done]. injection Hs as <-. by apply (nl_set_pc g).
  - destruct (c_gors c !! g) as [[? ? ? []]|]; try done. destruct (at_select c); [|done]. injection Hs as <-. by apply (nl_set_pc g).
  - destruct (c_loop c) as [|[]| |]; try done.
    + injection Hs as <-. apply (nl_same c); [done|]. apply kill_all_frame.
    + injection Hs as <-. unfold start_worker. destruct (c_dying c); [done|]. destruct (c_workers c !! id); [done|].
      eapply nl_same; [apply nl_spawn; exact H|]. reflexivity.
    + by injection Hs as <-.
    + injection Hs as <-. apply (nl_same c); [done|]. apply kill_worker_frame.
    + destruct (c_gors c !! g) as [r|] eqn:Hg; [|done]. injection Hs as <-. apply (nl_same c); [done|]. unfold set_worker. destruct (c_workers c !! w_id r); [|done]. cbn.
      destruct (_ || _); [|done]. match goal with |- c_gors (kill_worker ?i ?c1) = _ => destruct (kill_worker_frame i c1) as (_ & -> & _) end. done.
    + destruct (c_gors c !! g) as [[id ? ? []]|] eqn:Hg; try done. injection Hs as <-. pose proof (nl_set_pc g WGone c H) as Hp. unfold worker_done. 
      match goal with |- no_lost (match ?x with _ => _ end) => destruct x as [i|] end; [|by apply Hp].
      assert (forall c1, c_gors c1 = c_gors (set_pc g WGone c) -> no_lost c1) as Hq by (intros c1; apply nl_same; by apply Hp).
      destruct e as [e|].
      * destruct (r_isFatal P e); [destruct (c_dying _)|destruct (negb _)].
        -- apply nl_remove. by apply Hq.
        -- match goal with |- no_lost (emit _ (remove_worker ?a ?b ?d ?c1)) => apply (nl_same (remove_worker a b d c1)); [|done] end. apply nl_remove. by apply Hq.
        -- apply nl_remove. by apply Hq.
        -- destruct (i_start i); [|apply nl_remove; by apply Hq]. match goal with |- no_lost (set_loop _ ?c1) => apply (nl_same c1); [|done] end. apply nl_spawn. by apply Hq.
      * destruct (negb _); [apply nl_remove; by apply Hq|]. destruct (i_start i); [|apply nl_remove; by apply Hq]. match goal with |- no_lost (set_loop _ ?c1) => apply (nl_same c1); [|done] end. apply nl_spawn. by apply Hq.
    + by injection Hs as <-.
  - destruct (c_loop c); try done. destruct (finished c); [|done]. injection Hs as <-. apply (nl_same c); [done|]. by destruct (t_dead _).
  - destruct (c_gors c !! g) as [[? ? ? []]|]; try done. destruct (_ <? _)%Z; injection Hs as <-; by apply (nl_set_pc g).
  - destruct (c_gors c !! g) as [[? ? ? []]|]; try done. destruct (_ <=? _)%Z; [|done]. injection Hs as <-; by apply (nl_set_pc g).
  - destruct (c_gors c !! g) as [[? ? ? []]|]; try done. destruct (t_dying _); [|done]. injection Hs as <-; by apply (nl_set_pc g).
  - destruct (c_gors c !! g) as [[? ? ? []]|]; try done. injection Hs as <-. apply (nl_set_pc g); [done|by destruct r].
  - destruct (c_gors c !! g) as [[? ? ? []]|]; try done. injection Hs as <-. by apply (nl_set_pc g).
  - destruct (c_gors c !! g) as [[? ? ? []]|]; try done; destruct (c_ended c !! g); try done; by injection Hs as <-.
  - destruct (c_gors c !! g) as [[? ? ? []]|]; try done. destruct (c_ended c !! g); [|done]. injection Hs as <-. by apply (nl_set_pc g).
  - by destruct (Hn g).
Qed.
Lemma nl_full P s l s' : no_lost (s_core s) -> (forall g, l <> LCore (KLost g)) -> step P s l = Some s' -> no_lost (s_core s').
Proof.
  intros H Hn Hs. destruct l as [l| | | | | | | | | | | | | | | | | | | | |].
  { cbn [step] in Hs. destruct (own l); [|done]. cbn [negb] in Hs. destruct (cstep P (s_core s) l) as [c'|] eqn:Hc; [|done].
    assert (no_lost c') as H' by (eapply nl_step; [done| |done]; intros g ->; by apply (Hn g)).
    destruct l; try (by injection Hs as <-). destruct (c_loop (s_core s)) as [|a| |]; try (by injection Hs as <-). destruct (_ && _); [done|].
    destruct a; try (by injection Hs as <-). destruct (s_calls s !! c) as [[]|]; try done. by injection Hs as <-. }
  all: apply (nl_same (s_core s)); [done|]; cbn [step] in Hs.
  - destruct (s_calls s !! c); [done|]. by injection Hs as <-.
  - destruct (s_calls s !! c) as [[]|]; try done. cbn [cstep] in Hs. destruct (at_select _); [|done]. by injection Hs as <-.
  - destruct (s_calls s !! c) as [[]|]; try done. case_bool_decide; [|done]. by injection Hs as <-.
  - destruct (t_dead _); [|done]. destruct (s_calls s !! c) as [[]|]; try done; by injection Hs as <-.
  - destruct (s_calls s !! c) as [[]|]; try done. cbn [cstep] in Hs. destruct (at_select _); [|done]. by injection Hs as <-.
  - destruct (s_calls s !! c) as [[]|]; try done. destruct (s_mu s); [done|]. destruct (get_worker _ _); by injection Hs as <-.
  - destruct (s_calls s !! c) as [[]|]; try done. injection Hs as <-. destruct (t_dying _); [done|]. by destruct k, r.
  - destruct (s_calls s !! c) as [[]|]; try done. destruct (s_waits s !! c) as [[? ? ? [r|]]|]; try done. injection Hs as <-. destruct r; [done|]. by destruct k.
  - destruct (s_calls s !! c) as [[]|]; try done. injection Hs as <-. destruct (t_dying _); [done|]. by destruct k.
  - destruct (s_calls s !! c) as [[]|]; try done. destruct (t_dying _); [|done]. by injection Hs as <-.
  - destruct (s_calls s !! c) as [[]|]; try done. case_bool_decide; [|done]. by injection Hs as <-.
  - destruct (s_calls s !! c) as [[]|]; try done. by injection Hs as <-.
  - destruct (s_calls s !! c) as [[]|]; try done. destruct (c_ended _ !! _); [|done]. by injection Hs as <-.
  - destruct (s_calls s !! c) as [[]|]; try done. case_bool_decide; [|done]. by injection Hs as <-.
  - destruct (s_calls s !! c) as [[]|]; try done. cbn in Hs. case_bool_decide; [|done]. by injection Hs as <-.
  - destruct (s_waits s !! c) as [[id [] [] ch]|] eqn:Ht; try done; by injection Hs as <-.
  - destruct (s_waits s !! c) as [[id [] st ch]|] eqn:Ht; try done; by injection Hs as <-.
  - destruct (s_waits s !! c) as [[id [] st ch]|] eqn:Ht; try done. destruct (s_mu s); [done|]. destruct (get_worker _ _); by injection Hs as <-.
  - destruct (s_mu s); [done|]. by injection Hs as <-.
  - destruct (s_mu s); [done|]. by injection Hs as <-.
  - destruct (tomb_wait _); [|done]. by injection Hs as <-.
Qed.
Lemma run_no_lost P ls : forall s s', no_lost (s_core s) -> run P s ls = Some s' -> (forall g, LCore (KLost g) ∉ ls) -> no_lost (s_core s').
Proof.
  induction ls as [|l ls IH]; intros s s' H; [by intros [= <-]|]. cbn. destruct (step P s l) as [s1|] eqn:Hs; [|done]. intros Hr Hn. apply (IH s1); [|done|].
  - eapply nl_full; [done| |done]. intros g ->. apply (Hn g). by left.
  - intros g Hg. apply (Hn g). by right.
Qed.

(** The loop is never stuck in the middle of something: it can go on, or the goroutine that holds the mutex can. *)
Lemma busy_enabled P s : reachable P s -> ~ idle s -> is_Some (step P s (LCore KAct)) \/ exists i, is_Some (step P s (LWtCheck i)) \/ is_Some (step P s (LWtAdd i)).
Proof.
  intros Hr Hi. pose proof (reach_all P s Hr) as A. pose proof (ci_loop _ (a_inv P _ A)) as Hlo.
  destruct (s_mu s) as [i|] eqn:Hm.
  { right. exists i. destruct (mu_held s (reach_muinv P s Hr) _ Hm) as ([id p st ch] & Ht & Hp & _). cbn in Hp. cbn [step]. rewrite Ht. destruct Hp as [-> | ->]; [left|right; eauto]. destruct st; eauto. }
  left. destruct (c_loop (s_core s)) as [|a| |] eqn:Hl; [destruct Hi; by left| |done|destruct Hi; by right].
  cbn [step own negb cstep]. rewrite Hl, Hm. rewrite bool_decide_eq_false_2 by (by intros []). rewrite andb_false_r.
  destruct a; try (by eauto).
  - destruct (li_areply s (reach_loopinv P s Hr) _ _ Hl) as (id & f & -> & _). eauto.
  - destruct Hlo as (r & -> & _). eauto.
  - destruct Hlo as ([id f x p] & e & -> & Hp). cbn in Hp. subst p. eauto.
Qed.
(** A killed runner can notice it whenever its loop is in the select. *)
Lemma killed_enabled P s : reachable P s -> EvKilled ∈ rlog s -> ~ stopping_all (rlog s) -> idle s ->
  exists s', step P s (LCore KDying) = Some s' /\ rlog s' = EvStopAll :: rlog s.
Proof.
  intros Hr Hk Hs Hi. pose proof (reach_all P s Hr) as A. pose proof (a_inv P _ A) as V.
  assert (c_dying (s_core s) = false) as Hd. { destruct (c_dying (s_core s)) eqn:Hd; [|done]. by apply (dying_all P _ A) in Hd. }
  assert (c_loop (s_core s) = LTop) as Hl. { destruct Hi as [?|Hl]; [done|]. pose proof (ci_loop _ V) as Hlo. rewrite Hl in Hlo. destruct Hlo as [? _]. congruence. }
  assert (c_watch (s_core s) = true) as Hw. { destruct (c_watch (s_core s)) eqn:Hw; [done|]. apply (ci_watch _ V) in Hw as [? _]. congruence. }
  cbn [step own negb cstep]. unfold at_select, finished. rewrite Hl, Hd, Hw. destruct (a_tomb P _ A) as (T1 & _). rewrite (T1 Hk). cbn. eauto.
Qed.
(** C34, second half. *)
Lemma settled P s ls : run P init ls = Some s -> (forall g, LCore (KLost g) ∉ ls) -> stopping_all (rlog s) -> (forall l, owed (rlog s) l -> step P s l = None) ->
  EvDead ∈ rlog s \/
  (c_loop (s_core s) = LEnded /\ exists e, final_of P (rlog s) = Some e /\ (e = ETombStillAlive \/ e = ETombDying)) \/
  (waits_for_clock s /\ EvKilled ∉ rlog s).
Proof.
  intros Hrun Hn Hst Hno. assert (reachable P s) as Hr by (by exists ls).
  assert (no_lost (s_core s)) as Hnl. { eapply run_no_lost; [|done|done]. intros g r Hg. cbn in Hg. by rewrite lookup_empty in Hg. }
  pose proof (reach_all P s Hr) as A. pose proof (a_inv P _ A) as V. assert (c_dying (s_core s) = true) as Hd by (by apply (dying_all P _ A)).
  assert (idle s) as Hi.
  { destruct (c_loop (s_core s)) eqn:Hl; [by left| | |by right].
    - destruct (busy_enabled P s Hr) as [[s' H]|(i & [[s' H]|[s' H]])]; [intros [?|?]; congruence|..]; rewrite Hno in H; done.
    - pose proof (ci_loop _ V) as Hlo. by rewrite Hl in Hlo. }
  destruct Hi as [Hl|Hl].
  2:{ destruct (a_tomb P _ A) as (_ & _ & T3 & T4). destruct (T4 Hl) as [(H1 & _)|[(H1 & _)|(_ & _ & H)]]; [left; by apply T3|left; by apply T3|].
      right. left. split; [done|]. unfold rlog. rewrite <- (a_final P _ A). destruct H; eauto. }
  destruct (finished (s_core s)) eqn:Hf.
  { assert (step P s (LCore KReturn) = None) as H by (by apply Hno). cbn [step own negb cstep] in H. rewrite Hl, Hf in H. done. }
  assert (at_select (s_core s) = true) as Hsel by (unfold at_select; by rewrite Hl, Hf).
  unfold finished in Hf. rewrite Hd in Hf. cbn in Hf. apply bool_decide_eq_false in Hf. apply map_choose in Hf as (id & n & Hid).
  destruct (proj1 (ci_act _ V id) ltac:(eauto)) as (g & [id' f x p] & Hg & Hid' & Hp). cbn in Hid', Hp. subst id'.
  assert (forall l c', owed (rlog s) (LCore l) -> l <> KAct -> cstep P (s_core s) l = Some c' -> own l = true -> False) as Hen.
  { intros l c' Ho Hne Hc Hown. apply Hno in Ho. cbn [step] in Ho. rewrite Hown, Hc in Ho. cbn [negb] in Ho. destruct l; done. }
  destruct p; try done.
  - exfalso. assert (exists c', cstep P (s_core s) (KBegin g) = Some c') as [c' Hc]; [|by apply (Hen _ c') in Hc]. cbn [cstep]. rewrite Hg. destruct (_ <? _)%Z; eauto.
  - right. right. split.
    + exists g, id, f, x, ready. split; [done|]. destruct (decide (c_now (s_core s) < ready)%Z) as [|Hlt]; [done|]. exfalso.
      apply (Hen (KFire g) (emit (EvStartCall g id f (c_now (s_core s))) (set_pc g WStart (s_core s)))); try done. cbn [cstep]. rewrite Hg.
      by rewrite (proj2 (Z.leb_le _ _)) by lia.
    + intros Hk. destruct (a_tomb P _ A) as (T1 & _). apply T1 in Hk. eapply (Hen (KDelayAbort g)); try done. cbn [cstep]. by rewrite Hg, Hk.
  - exfalso. eapply (Hen (KStartRet g (inl 0))); try done. cbn [cstep]. by rewrite Hg.
  - exfalso. eapply (Hen (KRecvStarted g)); try done. cbn [cstep]. by rewrite Hg, Hsel.
  - exfalso. destruct (c_ended (s_core s) !! g) as [e|] eqn:He.
    + eapply (Hen (KExit g)); try done. cbn [cstep]. by rewrite Hg, He.
    + eapply (Hen (KEnd g None)); try done.
      * split; [done|]. exists id, w. destruct (creach_ws P _ (reach_core P s Hr) _ _ _ _ _ Hg) as [?|Hset]; [congruence|].
        destruct (everything_killed P s g id w Hr (or_introl Hl) Hst Hset) as [|(id1 & e1 & Hend)]; [done|]. apply (gl_ended' _ (a_gor P _ A)) in Hend. congruence.
      * cbn [cstep]. by rewrite Hg, He.
  - exfalso. eapply (Hen (KRecvDone g)); try done. cbn [cstep]. by rewrite Hg, Hsel.
  - pose proof (ci_take _ V _ _ _ Hg eq_refl). congruence.
  - by destruct (Hnl _ _ Hg).
Qed.
