(** Proofs for C83: calls from inside the runner. *)
From stdpp Require Import gmap strings list.
From Coq Require Import ZArith Lia.
From RecordUpdate Require Import RecordSet.
From Verif Require Import Err Tomb Runner RunnerSpec RunnerInv RunnerLog RunnerGor RunnerHist RunnerThms RunnerCalls RunnerUse RunnerAnswers InsideRunnerSpec.
Import RecordSetNotations.

Lemma run_reach P s ls s' : reachable P s -> run P s ls = Some s' -> reachable P s'.
Proof.
  intros [l0 H0]. revert s l0 H0. induction ls as [|l ls IH]; intros s l0 H0 Hr; cbn in Hr; [injection Hr as <-; by exists l0|].
  destruct (step P s l) as [s1|] eqn:Hs; [|done]. apply (IH s1 (l0 ++ [l])); [|done]. by rewrite run_snoc, H0.
Qed.
(** While the loop is in a handler and does not go on, it does nothing. *)
Definition pause (s s' : state) : Prop :=
  c_loop (s_core s') = c_loop (s_core s) /\ exists new, rlog s' = new ++ rlog s /\ forall ev, ev ∈ new -> by_loop ev = false.
Lemma pause_refl s s' : c_loop (s_core s') = c_loop (s_core s) -> rlog s' = rlog s -> pause s s'.
Proof. intros H1 H2. split; [done|]. exists []. split; [done|]. intros ev H. by apply elem_of_nil in H. Qed.
Lemma pause_one s s' ev : c_loop (s_core s') = c_loop (s_core s) -> rlog s' = ev :: rlog s -> by_loop ev = false -> pause s s'.
Proof. intros H1 H2 H3. split; [done|]. exists [ev]. split; [done|]. intros ev' H. apply elem_of_list_singleton in H. by subst. Qed.
Lemma step_pause P s l s' a : c_loop (s_core s) = LDo a -> l <> LCore KAct -> step P s l = Some s' -> pause s s'.
Proof.
  intros Ha Hl Hs. assert (Hsel : at_select (s_core s) = false) by (unfold at_select; by rewrite Ha).
  destruct l as [l|i k|i|i|i|i|i|i|i|i|i|i|i|i|i|i|i|i|i| |rep|]; cbn in Hs.
  - destruct l; cbn in Hs; rewrite ?Hsel in Hs; cbn in Hs; try done.
    + injection Hs as <-. unfold kill_tomb. destruct (t_dying _); [by apply pause_refl|by apply pause_one with EvKilled].
    + destruct (0 <=? d)%Z; [|done]. injection Hs as <-. by apply pause_refl.
    + injection Hs as <-. by apply pause_one with (EvCtx c).
    + destruct (c_gors (s_core s) !! g) as [[? ? ? []]|]; done.
    + destruct (c_gors (s_core s) !! g) as [[? ? ? []]|]; done.
    + by rewrite Ha in Hs.
    + destruct (c_gors (s_core s) !! g) as [[id f x []]|]; try done. destruct (0 <? d)%Z; injection Hs as <-; [by apply pause_refl|]. by apply pause_one with (EvStartCall g id f (c_now (s_core s))).
    + destruct (c_gors (s_core s) !! g) as [[id f x []]|]; try done. destruct (_ <=? _)%Z; [|done]. injection Hs as <-. by apply pause_one with (EvStartCall g id f (c_now (s_core s))).
    + destruct (c_gors (s_core s) !! g) as [[id f x []]|]; try done. destruct (t_dying _); [|done]. injection Hs as <-. by apply pause_refl.
    + destruct (c_gors (s_core s) !! g) as [[id f x []]|]; try done. injection Hs as <-. by apply pause_one with (EvStartRet g id r).
    + destruct (c_gors (s_core s) !! g) as [[id f x []]|]; try done. injection Hs as <-. by apply pause_one with (EvStartRet g id (inr (EMsg MsgGoexit))).
    + destruct (c_gors (s_core s) !! g) as [[id f x []]|]; try done; destruct (c_ended (s_core s) !! g); try done; injection Hs as <-; by apply pause_one with (EvEnd g id e).
    + destruct (c_gors (s_core s) !! g) as [[id f x []]|]; try done; destruct (c_ended (s_core s) !! g); try done; injection Hs as <-; by apply pause_refl.
    + destruct (c_gors (s_core s) !! g) as [[id f x []]|]; try done. injection Hs as <-. by apply pause_refl.
  - destruct (s_calls s !! i); [done|]. injection Hs as <-. by apply pause_one with (EvClient (CvCall i k)).
  - destruct (s_calls s !! i) as [[]|]; try done. by rewrite Hsel in Hs.
  - destruct (s_calls s !! i) as [[]|]; try done. case_bool_decide; [|done]. injection Hs as <-. by eapply pause_one.
  - destruct (t_dead _); [|done]. destruct (s_calls s !! i) as [[]|]; try done; injection Hs as <-; by eapply pause_one.
  - destruct (s_calls s !! i) as [[]|]; try done. by rewrite Hsel in Hs.
  - destruct (s_calls s !! i) as [[]|]; try done. destruct (s_mu s); [done|]. destruct (get_worker _ _); injection Hs as <-; [by eapply pause_one|by apply pause_refl].
  - destruct (s_calls s !! i) as [[]|]; try done. injection Hs as <-. destruct (t_dying _); [by eapply pause_one|]. destruct r; [by eapply pause_one|]. destruct k; [by eapply pause_one|by apply pause_refl].
  - destruct (s_calls s !! i) as [[]|]; try done. destruct (s_waits s !! i) as [[? ? ? [r|]]|]; try done. injection Hs as <-. destruct r; [by apply pause_refl|]. destruct k; [by eapply pause_one|by apply pause_refl].
  - destruct (s_calls s !! i) as [[]|]; try done. injection Hs as <-. destruct (t_dying _); by eapply pause_one.
  - destruct (s_calls s !! i) as [[]|]; try done. destruct (t_dying _); [|done]. injection Hs as <-. by eapply pause_one.
  - destruct (s_calls s !! i) as [[]|]; try done. case_bool_decide; [|done]. injection Hs as <-. by eapply pause_one.
  - destruct (s_calls s !! i) as [[]|]; try done. injection Hs as <-. by eapply pause_one.
  - destruct (s_calls s !! i) as [[]|]; try done. destruct (c_ended _ !! _); [|done]. injection Hs as <-. by apply pause_refl.
  - destruct (s_calls s !! i) as [[]|]; try done. case_bool_decide; [|done]. injection Hs as <-. by eapply pause_one.
  - destruct (s_calls s !! i) as [[]|]; try done. case_bool_decide; [|done]. injection Hs as <-. by eapply pause_one.
  - destruct (s_waits s !! i) as [[? [] [] ?]|]; try done; injection Hs as <-; by apply pause_refl.
  - destruct (s_waits s !! i) as [[? [] ? ?]|]; try done; injection Hs as <-; by apply pause_refl.
  - destruct (s_waits s !! i) as [[? [] ? ?]|]; try done. destruct (s_mu s); [done|]. destruct (get_worker _ _); injection Hs as <-; [by eapply pause_one|by apply pause_refl].
  - destruct (s_mu s); [done|]. injection Hs as <-. by eapply pause_one.
  - destruct (s_mu s); [done|]. injection Hs as <-. by eapply pause_one.
  - destruct (tomb_wait _); [|done]. injection Hs as <-. by eapply pause_one.
Qed.
Lemma run_pause P ls : forall s s' a, c_loop (s_core s) = LDo a -> loop_waits ls -> run P s ls = Some s' -> pause s s'.
Proof.
  induction ls as [|l ls IH]; intros s s' a Ha Hw Hr; cbn in Hr; [injection Hr as <-; by apply pause_refl|].
  destruct (step P s l) as [s1|] eqn:Hs; [|done]. unfold loop_waits in Hw. apply not_elem_of_cons in Hw as [Hl Hw].
  destruct (step_pause P s l s1 a Ha (not_eq_sym Hl) Hs) as (H1 & new & H2 & H3).
  destruct (IH s1 s' a) as (H4 & new' & H5 & H6); [congruence|done|done|]. split; [congruence|]. exists (new' ++ new). split; [rewrite H5, H2; apply app_assoc|].
  intros ev [H|H]%elem_of_app; auto.
Qed.
Lemma pause_old s s' ev : pause s s' -> by_loop ev = true -> ev ∈ rlog s' -> ev ∈ rlog s.
Proof. intros (_ & new & -> & H) Hb [Hi|Hi]%elem_of_app; [|done]. rewrite (H _ Hi) in Hb. done. Qed.
Lemma known_pause new log id : (forall ev, ev ∈ new -> by_loop ev = false) -> known (new ++ log) id = known log id.
Proof.
  induction new as [|ev new IH]; intros H; [done|]. cbn. assert (by_loop ev = false) by (apply H; by left).
  assert (known (new ++ log) id = known log id) as E by (apply IH; intros ev' ?; apply H; by right). destruct ev; done.
Qed.
Lemma registered_pause new log id : (forall ev, ev ∈ new -> by_loop ev = false) -> registered (new ++ log) id = registered log id.
Proof.
  induction new as [|ev new IH]; intros H; [done|]. cbn. assert (by_loop ev = false) by (apply H; by left).
  assert (registered (new ++ log) id = registered log id) as E by (apply IH; intros ev' ?; apply H; by right). destruct ev; done.
Qed.

(** A call made from inside a handler. *)
Section inside.
  Context (P : rcfg) (s s' : state) (a : lact) (i : nat) (k : call) (ls : list label).
  Hypothesis (Hreach : reachable P s) (Ha : c_loop (s_core s) = LDo a) (Hw : loop_waits ls) (Hrun : run P s (LCall i k :: ls) = Some s').
  Lemma in_pause : pause s s'.
  Proof. apply (run_pause P (LCall i k :: ls) s s' a Ha); [|done]. unfold loop_waits. apply not_elem_of_cons. done. Qed.
  Lemma in_reach : reachable P s'.
  Proof. by eapply run_reach. Qed.
  Lemma in_fresh : s_calls s !! i = None.
  Proof. cbn in Hrun. by destruct (s_calls s !! i). Qed.
  Lemma in_not_dead : EvDead ∉ rlog s'.
  Proof. intros H. pose proof (dead_loop P _ (reach_all P s' in_reach) H) as H2. destruct in_pause as [H1 _]. congruence. Qed.
  Lemma in_uncalled k' : EvC (CvCall i k') ∉ rlog s.
  Proof. intros H. apply (called_some P s Hreach) in H as [p Hp]. rewrite in_fresh in Hp. done. Qed.
End inside.


Lemma insert_ne_some {A} (m : gmap nat A) i j p q : <[j := p]> m !! i = Some q -> (i = j /\ q = p) \/ (i <> j /\ m !! i = Some q).
Proof. destruct (decide (i = j)) as [-> |H]; [rewrite lookup_insert|rewrite lookup_insert_ne by done]; [intros [= ->]|]; auto. Qed.
(** How a call of StartWorker or StopWorker goes on, if the loop does not. *)
Definition held (s : state) (i : nat) (k : call) : Prop :=
  match k with
  | KStart id f => s_calls s !! i = Some (CStart id f) \/ s_calls s !! i = Some CRet
  | KStop id => s_calls s !! i = Some (CStop id)
  | _ => False
  end.
Lemma held_step P s s' i k a : reachable P s -> strans P s s' -> c_loop (s_core s) = LDo a -> (forall j r, a <> AReply j r) -> held s i k -> held s' i k.
Proof.
  intros Hr HT Ha Hna Hk.
  assert (Hnd : t_dead (c_tomb (s_core s)) = true -> False).
  { intros Hd. apply (a_tomb P _ (reach_all P s Hr)) in Hd. apply (dead_loop P _ (reach_all P s Hr)) in Hd. congruence. }
  destruct k as [id f|id| |]; cbn in Hk |- *; [| |done..].
  - destruct HT; cbn; try done; try (by destruct r; [|destruct k]; cbn; rewrite ?lookup_insert_ne by (intros ->; naive_solver));
      try (rewrite lookup_insert_ne by (intros ->; naive_solver); done); try congruence; try (exfalso; naive_solver).
    + destruct (decide (i0 = i)) as [-> |]; [|by rewrite lookup_insert_ne]. rewrite lookup_insert. auto.
  - destruct HT; cbn; try done; try (by destruct r; [|destruct k]; cbn; rewrite ?lookup_insert_ne by (intros ->; naive_solver));
      try (rewrite lookup_insert_ne by (intros ->; naive_solver); done); try congruence; try (exfalso; naive_solver).
Qed.
Lemma held_ret P s s' i id f a : reachable P s -> strans P s s' -> c_loop (s_core s) = LDo a -> (forall j r, a <> AReply j r) -> held s i (KStart id f) ->
  (forall k' r, EvC (CvRet i k' r) ∈ rlog s -> r = RErr err_dead /\ EvCtx i ∈ rlog s) ->
  (forall k' r, EvC (CvRet i k' r) ∈ rlog s' -> r = RErr err_dead /\ EvCtx i ∈ rlog s').
Proof.
  intros Hr HT Ha Hna Hk IH k' r Hin.
  assert (Hnd : t_dead (c_tomb (s_core s)) = true -> False).
  { intros Hd. apply (a_tomb P _ (reach_all P s Hr)) in Hd. apply (dead_loop P _ (reach_all P s Hr)) in Hd. congruence. }
  destruct (strans_emits P s s' HT) as [Hadd|(ce & post & E & Hadd & Hc)].
  - apply (adds_client _ _ _ Hadd) in Hin. destruct (IH k' r Hin) as (? & H). split_and!; [done|by apply (adds_sub _ _ Hadd)].
  - rewrite E in Hin |- *. apply elem_of_cons in Hin as [[= <-]|Hin].
    + cbn in Hk. destruct k' as [id' f'|id'|id'|id']; cbn in Hc.
      * destruct Hc as (-> & [(e & _ & Hl & _)|(-> & Hp & [Hx|Hd])]); [by destruct (Hna i e); congruence| |done]. split_and!; [done|]. right. by apply (ctx_log P s).
      * exfalso. destruct Hk as [Hk|Hk]; rewrite Hk in Hc; naive_solver.
      * exfalso. destruct Hk as [Hk|Hk]; rewrite Hk in Hc; naive_solver.
      * exfalso. destruct Hk as [Hk|Hk]; rewrite Hk in Hc; naive_solver.
    + apply (adds_client _ _ _ Hadd) in Hin. destruct (IH k' r Hin) as (? & H). split_and!; [done|right; by apply (adds_sub _ _ Hadd)].
Qed.
Lemma held_run P ls : forall s s' a i k, reachable P s -> c_loop (s_core s) = LDo a -> (forall j r, a <> AReply j r) -> loop_waits ls -> run P s ls = Some s' -> held s i k ->
  (forall k' r, EvC (CvRet i k' r) ∈ rlog s -> r = RErr err_dead /\ EvCtx i ∈ rlog s) ->
  held s' i k /\ (forall k' r, EvC (CvRet i k' r) ∈ rlog s' -> r = RErr err_dead /\ EvCtx i ∈ rlog s').
Proof.
  induction ls as [|l ls IH]; intros s s' a i k Hr Ha Hna Hw Hrun Hk HQ; cbn in Hrun; [injection Hrun as <-; auto|].
  destruct (step P s l) as [s1|] eqn:Hs; [|done]. unfold loop_waits in Hw. apply not_elem_of_cons in Hw as [Hl Hw].
  assert (Hr1 : reachable P s1). { apply (run_reach P s [l]); [done|]. cbn. by rewrite Hs. }
  destruct (step_pause P s l s1 a Ha (not_eq_sym Hl) Hs) as (H1 & _). apply step_strans in Hs.
  pose proof (held_step P s s1 i k a Hr Hs Ha Hna Hk) as Hk1.
  apply (IH s1 s' a i k); [done|congruence|done|done|done|done|].
  destruct k as [id f|id| |]; [|..|done|done].
  - by apply (held_ret P s s1 i id f a).
  - intros k' r Hin. apply (li_returned s1 (reach_linv P s1 Hr1)) in Hin. cbn in Hk1. congruence.
Qed.
Lemma busy_act s : judging s \/ killing s -> exists a, c_loop (s_core s) = LDo a /\ forall j r, a <> AReply j r.
Proof. intros [[g H]|[H|[[id H]|(g & w & H)]]]; eexists; (split; [exact H|]); done. Qed.

(** ** The theorems *)
Lemma still P s ls s' : reachable P s -> judging s \/ killing s -> loop_waits ls -> run P s ls = Some s' ->
  exists new, rlog s' = new ++ rlog s /\ forall ev, ev ∈ new -> by_loop ev = false.
Proof. intros Hr Hb Hw Hrun. destruct (busy_act s Hb) as (a & Ha & _). by destruct (run_pause P ls s s' a Ha Hw Hrun). Qed.
Lemma inside_held P s i k ls s' : reachable P s -> judging s \/ killing s -> loop_waits ls -> run P s (LCall i k :: ls) = Some s' ->
  (exists id f, k = KStart id f) \/ (exists id, k = KStop id) ->
  held s' i k /\ (forall k' r, EvC (CvRet i k' r) ∈ rlog s' -> r = RErr err_dead /\ EvCtx i ∈ rlog s').
Proof.
  intros Hr Hb Hw Hrun Hk. destruct (busy_act s Hb) as (a & Ha & Hna). pose proof Hrun as Hrun0. cbn in Hrun. destruct (s_calls s !! i) eqn:Hi; [done|].
  set (s1 := tell _ _) in Hrun. assert (Hs1 : step P s (LCall i k) = Some s1) by (cbn; by rewrite Hi).
  assert (Hr1 : reachable P s1). { apply (run_reach P s [LCall i k]); [done|]. unfold run. by rewrite Hs1. }
  apply (held_run P ls s1 s' a i k Hr1 Ha Hna Hw Hrun).
  - destruct Hk as [(id & f & ->)|(id & ->)]; cbn; rewrite lookup_insert; auto.
  - intros k' r [[=]|Hin]%elem_of_cons. apply (li_returned s (reach_linv P s Hr)) in Hin. congruence.
Qed.
Lemma inside_start P s i id f ls s' : reachable P s -> judging s \/ killing s -> loop_waits ls -> run P s (LCall i (KStart id f) :: ls) = Some s' ->
  forall r, EvC (CvRet i (KStart id f) r) ∈ rlog s' -> r = RErr err_dead /\ EvCtx i ∈ rlog s'.
Proof. intros Hr Hb Hw Hrun r. destruct (inside_held P s i _ ls s' Hr Hb Hw Hrun) as [_ H]; [eauto|]. apply H. Qed.
Lemma inside_stop P s i id ls s' : reachable P s -> judging s \/ killing s -> loop_waits ls -> run P s (LCall i (KStop id) :: ls) = Some s' ->
  forall r, EvC (CvRet i (KStop id) r) ∉ rlog s'.
Proof.
  intros Hr Hb Hw Hrun r Hin. destruct (inside_held P s i _ ls s' Hr Hb Hw Hrun) as [H _]; [eauto|].
  apply (li_returned s' (reach_linv P s' (run_reach _ _ _ _ Hr Hrun))) in Hin. cbn in H. congruence.
Qed.

(** The log that has grown during the pause, cut at an event that is not in the old part. *)
Lemma new_part {A} (new old pre post : list A) x : new ++ old = pre ++ x :: post -> x ∉ old -> exists n2, new = pre ++ x :: n2 /\ post = n2 ++ old.
Proof.
  revert new. induction pre as [|y pre IH]; intros new H Hx; destruct new as [|z new]; cbn in *.
  - subst. by destruct Hx; left.
  - injection H as -> <-. by exists new.
  - subst. destruct Hx. right. apply elem_of_app. right. by left.
  - injection H as -> H. destruct (IH new H Hx) as (n2 & -> & ->). by exists n2.
Qed.
Lemma known_removed P s id f d : reachable P s -> known (rlog s) id = Some (f, d) -> EvRemoved id d ∉ rlog s.
Proof.
  intros Hr Hk Hin. destruct (elem_split _ _ Hin) as (p & q & E).
  assert (exists f', EvKnown id f' d ∈ q) as [f' Hf].
  { refine (past P (fun ev post => match ev with EvRemoved id d => exists f, EvKnown id f d ∈ post | _ => True end) s Hr _ p (EvRemoved id d) q E). clear.
    intros c a ev b A E. destruct ev; try done. destruct E as (g & e & n & f & x & -> & _ & Hn & -> & _). pose proof (a_workers P c A id) as W. rewrite Hn in W.
    destruct W as ((f0 & Hk & _) & _). exists f0. right. by apply known_in. }
  assert (EvKnown id f d ∈ p) as Hp.
  { rewrite E in Hk. clear E Hin. induction p as [|ev p IH]; cbn in Hk; [by rewrite bool_decide_eq_true_2 in Hk|].
    destruct ev; try (right; by apply IH).
    - case_bool_decide; [|right; by apply IH]. injection Hk as -> ->. subst. by left.
    - case_bool_decide; [done|]. right. by apply IH. }
  destruct (elem_split _ _ Hp) as (p1 & p2 & ->). rewrite <- app_assoc in E. cbn in E. destruct (known_once P s _ _ _ _ _ Hr E id f').
  apply elem_of_app. right. by right.
Qed.
Lemma inside_wait P s i id ls s' k : reachable P s -> judging s \/ killing s -> loop_waits ls -> run P s (LCall i k :: ls) = Some s' ->
  k = KStopRm id \/ (k = KWorker id /\ registered (rlog s) id = None) -> known (rlog s) id <> None ->
  forall r, EvC (CvRet i k r) ∈ rlog s' -> (r = RErr err_dead /\ (EvKilled ∈ rlog s' \/ stopping_all (rlog s))) \/ (r = RErr err_aborted /\ EvCtx i ∈ rlog s').
Proof.
  intros Hr Hb Hw Hrun Hk Hkn r Hin. destruct (busy_act s Hb) as (a & Ha & Hna).
  assert (Hun : forall k', EvC (CvCall i k') ∉ rlog s) by (intros k'; by apply (in_uncalled P s s' i k ls Hr Hrun)).
  destruct (in_pause P s s' a i k ls Ha Hw Hrun) as (_ & new & El & Hnew). pose proof (run_reach _ _ _ _ Hr Hrun) as Hr'.
  destruct (elem_split _ _ Hin) as (pre & post & E).
  assert (Hpost : forall x, x ∈ post -> x ∈ rlog s') by (intros x Hx; rewrite E; apply elem_of_app; right; by right).
  assert (Hdy : EvKilled ∈ post \/ stopping_all post -> EvKilled ∈ rlog s' \/ stopping_all (rlog s)).
  { intros [H|H]; [left; auto|right]. apply Hpost in H. rewrite El in H. apply elem_of_app in H as [H|H]; [|done]. by apply Hnew in H. }
  assert (Hlk : forall p1 p2 q, post = p1 ++ EvC (CvLookup i id q) :: p2 -> EvC (CvCall i k) ∈ p2 -> exists n2, p2 = n2 ++ rlog s /\ forall ev, ev ∈ n2 -> by_loop ev = false).
  { intros p1 p2 q -> Hc. destruct (elem_split _ _ Hc) as (p3 & p4 & ->).
    assert (E2 : new ++ rlog s = (pre ++ EvC (CvRet i k r) :: p1 ++ EvC (CvLookup i id q) :: p3) ++ EvC (CvCall i k) :: p4).
    { rewrite <- El, E. repeat (rewrite <- app_assoc; cbn). done. }
    destruct (new_part _ _ _ _ _ E2 (Hun k)) as (n2 & En & ->). exists (p3 ++ EvC (CvCall i k) :: n2). split; [by rewrite <- app_assoc|].
    intros ev Hev. apply Hnew. rewrite En. apply elem_of_app in Hev as [H|H].
    - apply elem_of_app. left. apply elem_of_app. right. right. apply elem_of_app. right. by right.
    - apply elem_of_app. by right. }
  destruct Hk as [-> |[-> Hreg]].
  - destruct (stoprm_other P s' pre i id r post Hr' E) as [[e ->]|[[-> H]|[[-> H]|(-> & _ & p1 & p2 & Ep & H1 & H2)]]]; [| |right; auto|].
    + exfalso. destruct (stoprm_result P s' pre i id e post Hr' E) as (g & w & d & p1 & p2 & Ep & Hc & _ & [f Hf] & _ & _ & Hrm).
      destruct (Hlk p1 p2 _ Ep Hc) as (n2 & -> & Hn2). rewrite known_pause in Hf by done.
      apply Hpost in Hrm. rewrite El in Hrm. apply elem_of_app in Hrm as [Hrm|Hrm]; [by apply Hnew in Hrm|]. by apply (known_removed P s id f d Hr Hf).
    + left. auto.
    + exfalso. destruct (Hlk p1 p2 _ Ep H2) as (n2 & -> & Hn2). by rewrite known_pause in H1.
  - destruct (worker_result P s' pre i id r post Hr' E) as (_ & [[-> H]|[[-> H]|(p1 & p2 & q & Ep & Hc & Hq)]]); [left; auto|right; auto|].
    exfalso. destruct (Hlk p1 p2 _ Ep Hc) as (n2 & -> & Hn2). destruct q; [by destruct Hq as (_ & Hq & _); rewrite known_pause in Hq|]. destruct Hq as [_ Hq]. rewrite registered_pause in Hq by done. congruence.
Qed.

(** Kill is called with the mutex locked. *)
Lemma mutex_step P s l s' i k id : step P s l = Some s' -> s_calls s !! i = Some (CInfo k id) -> locks l = false -> s_calls s' !! i = Some (CInfo k id).
Proof.
  intros Hs Hi Hl. destruct l as [l|j k'|j|j|j|j|j|j|j|j|j|j|j|j|j|j|j|j|j| |rep|]; try done; cbn in Hs.
  - destruct (negb (own l)); [done|]. destruct (cstep _ _ _) as [c'|]; [|done]. destruct l; try (by injection Hs as <-). destruct (c_loop (s_core s)) as [|[]| |]; try (by injection Hs as <-);
      destruct (_ && _); try done; try (by injection Hs as <-). destruct (s_calls s !! c) as [[]|] eqn:Hc; try done. injection Hs as <-. cbn. rewrite lookup_insert_ne; [done|]. intros ->. congruence.
  - destruct (s_calls s !! j) eqn:Hj; [done|]. injection Hs as <-. cbn. rewrite lookup_insert_ne; [done|]. intros ->. congruence.
  - destruct (s_calls s !! j) as [[]|] eqn:Hj; try done. destruct (at_select _); [|done]. injection Hs as <-. cbn. rewrite lookup_insert_ne; [done|]. intros ->. congruence.
  - destruct (s_calls s !! j) as [[]|] eqn:Hj; try done. case_bool_decide; [|done]. injection Hs as <-. cbn. rewrite lookup_insert_ne; [done|]. intros ->. congruence.
  - destruct (t_dead _); [|done]. destruct (s_calls s !! j) as [[]|] eqn:Hj; try done; injection Hs as <-; cbn; (rewrite lookup_insert_ne; [done|]); intros ->; congruence.
  - destruct (s_calls s !! j) as [[]|] eqn:Hj; try done. destruct (at_select _); [|done]. injection Hs as <-. cbn. rewrite lookup_insert_ne; [done|]. intros ->. congruence.
  - destruct (s_calls s !! j) as [[]|] eqn:Hj; try done. injection Hs as <-. destruct (t_dying _); [|destruct r; [|destruct k0]]; cbn; (rewrite lookup_insert_ne; [done|]); intros ->; congruence.
  - destruct (s_calls s !! j) as [[]|] eqn:Hj; try done. destruct (s_waits s !! j) as [[? ? ? [r|]]|]; try done. injection Hs as <-. destruct r; [|destruct k0]; cbn; (rewrite lookup_insert_ne; [done|]); intros ->; congruence.
  - destruct (s_calls s !! j) as [[]|] eqn:Hj; try done. injection Hs as <-. destruct (t_dying _); cbn; (rewrite lookup_insert_ne; [done|]); intros ->; congruence.
  - destruct (s_calls s !! j) as [[]|] eqn:Hj; try done. destruct (t_dying _); [|done]. injection Hs as <-; cbn; (rewrite lookup_insert_ne; [done|]); intros ->; congruence.
  - destruct (s_calls s !! j) as [[]|] eqn:Hj; try done. case_bool_decide; [|done]. injection Hs as <-; cbn; (rewrite lookup_insert_ne; [done|]); intros ->; congruence.
  - destruct (s_calls s !! j) as [[]|] eqn:Hj; try done. injection Hs as <-; cbn; (rewrite lookup_insert_ne; [done|]); intros ->; congruence.
  - destruct (s_calls s !! j) as [[]|] eqn:Hj; try done. destruct (c_ended _ !! _); [|done]. injection Hs as <-; cbn; (rewrite lookup_insert_ne; [done|]); intros ->; congruence.
  - destruct (s_calls s !! j) as [[]|] eqn:Hj; try done. case_bool_decide; [|done]. injection Hs as <-; cbn; (rewrite lookup_insert_ne; [done|]); intros ->; congruence.
  - destruct (s_calls s !! j) as [[]|] eqn:Hj; try done. case_bool_decide; [|done]. injection Hs as <-; cbn; (rewrite lookup_insert_ne; [done|]); intros ->; congruence.
  - destruct (s_waits s !! j) as [[? [] [] ?]|]; try done; by injection Hs as <-.
  - destruct (s_waits s !! j) as [[? [] ? ?]|]; try done; by injection Hs as <-.
  - destruct (tomb_wait _); [|done]. by injection Hs as <-.
Qed.
Lemma mutex_run P ls : forall s s' i k id, run P s ls = Some s' -> s_calls s !! i = Some (CInfo k id) -> mutex_waits ls -> s_calls s' !! i = Some (CInfo k id).
Proof.
  induction ls as [|l ls IH]; intros s s' i k id Hr Hi Hw; cbn in Hr; [by injection Hr as <-|]. destruct (step P s l) as [s1|] eqn:Hs; [|done].
  apply (IH s1); [done| |intros l' ?; apply Hw; by right]. eapply mutex_step; [done|done|]. apply Hw. by left.
Qed.
Lemma inside_locked P s i id ls s' k : reachable P s -> mutex_waits ls -> run P s (LCall i k :: ls) = Some s' ->
  k = KStopRm id \/ k = KWorker id -> forall r, EvC (CvRet i k r) ∉ rlog s'.
Proof.
  intros Hr Hw Hrun Hk r Hin. apply (li_returned s' (reach_linv P s' (run_reach _ _ _ _ Hr Hrun))) in Hin.
  cbn in Hrun. destruct (s_calls s !! i) eqn:Hi; [done|]. set (s1 := tell _ _) in Hrun.
  assert (s_calls s' !! i = Some (CInfo (match k with KWorker _ => IWorker | _ => IStopRm end) id)); [|congruence].
  apply (mutex_run P ls s1); [done| |done]. destruct Hk as [-> | ->]; cbn; by rewrite lookup_insert.
Qed.

Lemma inside_killing P s i id ls s' k : reachable P s -> killing s -> (holds_mutex P s -> mutex_waits ls) -> run P s (LCall i k :: ls) = Some s' ->
  k = KStopRm id \/ k = KWorker id -> forall r, EvC (CvRet i k r) ∉ rlog s'.
Proof.
  intros Hr Hk Hw. apply inside_locked; [done|]. apply Hw. destruct Hk as [H|[[id' H]|(g & w & H)]]; eexists; (split; [exact H|reflexivity]).
Qed.

(** A worker that waits for its own removal. *)
Lemma ended_log P s g e : reachable P s -> c_ended (s_core s) !! g = Some e -> worker_ended (rlog s) g.
Proof.
  intros Hr H. destruct (gl_ended _ (a_gor P _ (reach_all P s Hr)) g e H) as [id He]. by exists id, e.
Qed.
Lemma self_inv P i g w s : reachable P s -> EvC (CvKill i g w) ∈ rlog s -> (exists id d, s_calls s !! i = Some (CWait id g d)) \/ worker_ended (rlog s) g.
Proof.
  revert s. apply (reach_ind P (fun s => EvC (CvKill i g w) ∈ rlog s -> (exists id d, s_calls s !! i = Some (CWait id g d)) \/ worker_ended (rlog s) g)); [intros H; by apply elem_of_nil in H|].
  intros s s' Hr IH Hr' HT Hin.
  assert (Hsub : rlog s ⊆ rlog s'). { destruct (strans_emits P s s' HT) as [H|(ce & post & -> & H & _)]; [by apply adds_sub|]. intros x Hx. right. by apply (adds_sub _ _ H). }
  assert (Hen : worker_ended (rlog s) g -> worker_ended (rlog s') g) by (intros (id & e & He); exists id, e; by apply Hsub).
  destruct HT; unfold rlog, deliver in Hin; cbn in Hin;
    try (destruct r; [|destruct k]; cbn in Hin |- *);
    try (apply (adds_client _ _ _ (own_quiet P _ _ _ H H0)) in Hin);
    repeat (apply elem_of_cons in Hin as [[=]|Hin]); subst;
    try (destruct (IH Hin) as [(id0 & d0 & Hp)|He]; [|by right; apply Hen]);
    try (left; exists id0, d0; cbn; rewrite ?lookup_insert_ne by (intros ->; naive_solver); done).
  - left. exists id, d. cbn. by rewrite lookup_insert.
  - destruct (decide (i = i0)) as [<-|Hne]; [|left; exists id0, d0; cbn; by rewrite lookup_insert_ne]. right. rewrite H in Hp. injection Hp as -> -> ->. apply Hen. by eapply ended_log.
Qed.
Lemma self_waits P s i id g w r : reachable P s -> EvC (CvKill i g w) ∈ rlog s -> EvC (CvRet i (KStopRm id) r) ∈ rlog s -> worker_ended (rlog s) g.
Proof.
  intros Hr Hk Hret. destruct (self_inv P i g w s Hr Hk) as [(id' & d & Hp)|H]; [|done]. apply (li_returned s (reach_linv P s Hr)) in Hret. congruence.
Qed.
Lemma wait_ends P s e : reachable P s -> EvC (CvWait e) ∈ rlog s ->
  (forall g, start_called (rlog s) g -> over (rlog s) g) /\ (forall g id w, EvStartRet g id (inl w) ∈ rlog s -> worker_ended (rlog s) g).
Proof.
  intros Hr H. destruct (elem_split _ _ H) as (p & q & E). destruct (wait_result P s p e q Hr E) as [Hd _].
  assert (EvDead ∈ rlog s) as Hd' by (rewrite E; apply elem_of_app; right; by right). destruct (dead_complete P s Hr Hd') as (H1 & H2 & _). auto.
Qed.
