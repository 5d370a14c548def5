(** Proofs for C83, the engine. *)
From stdpp Require Import gmap strings list.
From Coq Require Import ZArith Lia.
From RecordUpdate Require Import RecordSet.
From Verif Require Import Err Tomb Order Validate ValidateSpec Snapshot Engine EngineSpec EngineMicro EngineSteps EngineLog EngineSafety EngineHandlers EngineObs EngineMore EngineCalls EngineCallsSpec EngineCallsProofs InsideEngineSpec.
Import RecordSetNotations.

Definition epause (s s' : state) : Prop := s_running s' = s_running s /\ exists new, s_log s' = new ++ s_log s /\ forall ev, ev ∈ new -> by_loop ev = false.
Lemma epause_refl s s' : s_running s' = s_running s -> s_log s' = s_log s -> epause s s'.
Proof. intros H1 H2. split; [done|]. exists []. split; [done|]. intros ev H. by apply elem_of_nil in H. Qed.
Lemma epause_one s s' ev : s_running s' = s_running s -> s_log s' = ev :: s_log s -> by_loop ev = false -> epause s s'.
Proof. intros H1 H2 H3. split; [done|]. exists [ev]. split; [done|]. intros ev' H. apply elem_of_list_singleton in H. by subst. Qed.
Lemma epause_trans s1 s2 s3 : epause s1 s2 -> epause s2 s3 -> epause s1 s3.
Proof.
  intros (H1 & n1 & L1 & N1) (H2 & n2 & L2 & N2). split; [congruence|]. exists (n2 ++ n1). rewrite L2, L1, app_assoc. split; [done|].
  intros ev [H|H]%elem_of_app; auto.
Qed.
Lemma epause_kill_tomb e s : epause s (kill_tomb e s).
Proof. unfold kill_tomb. case_match; [by apply (epause_one _ _ EvDying)|by apply epause_refl]. Qed.
Lemma epause_kill_worker g n w s : epause s (kill_worker g n w s).
Proof.
  unfold kill_worker. eapply (epause_trans s (emit (EvKill g n w) s)); [by apply (epause_one _ _ (EvKill g n w))|]. destruct w; [apply epause_kill_tomb|by apply epause_refl].
Qed.
Lemma eng_pause E s l s' : s_running s = true -> inv s -> of_loop (CEng l) = false -> serves l = false -> step E s l = Some s' -> epause s s'.
Proof.
  intros Hrun V Hl Hsv Hs. destruct l; try done; cbn in Hs.
  - injection Hs as <-. apply epause_kill_tomb.
  - destruct (_ <=? _)%Z; [|done]. injection Hs as <-. by apply epause_refl.
  - destruct (s_gors s !! g) as [[? ? ? ? ? []]|]; try done. destruct (_ <=? _)%Z; [|done]. injection Hs as <-. by eapply epause_one.
  - destruct (s_gors s !! g) as [[? ? ? ? ? []]|]; try done. destruct (_ || _); [|done]. injection Hs as <-. by apply epause_refl.
  - destruct (s_gors s !! g) as [r|]; [|done]. destruct (snapshot_get _ _ _ _ _ _) as [[? ?] ?]. injection Hs as <-. by eapply epause_one.
  - destruct (s_gors s !! g) as [[? ? ? ? ? []]|]; try done. injection Hs as <-. by eapply epause_one.
  - destruct (s_gors s !! g) as [[? ? ? ? ? []]|]; try done. injection Hs as <-. by apply epause_refl.
  - destruct (s_gors s !! g) as [[? ? ? ? ? []]|]; try done. destruct (dying s); [|done]. injection Hs as <-.
    eapply epause_trans; [|apply epause_kill_worker]. by apply epause_refl.
  - destruct (s_gors s !! g) as [[? ? ? ? ? []]|]; try done. injection Hs as <-. by eapply epause_one.
  - destruct (s_gors s !! g) as [[? ? ? ? ? []]|]; try done. destruct (dying s); [|done]. injection Hs as <-. by eapply epause_one.
Qed.
(** One step of the clients and the engine while the loop waits. *)
Lemma cstep_pause E x l x' : reachable E (x_e x) -> s_running (x_e x) = true -> of_loop l = false -> cstep E x l = Some x' ->
  epause (x_e x) (x_e x') /\
  (forall i k a u u', HServed i k a u u' ∈ x_hist x' -> HServed i k a u u' ∈ x_hist x \/ (a = AnsInstall (Some (EMsg MsgShuttingDown)) /\ (exists n m, k = KInstall n m) /\ EvDying ∈ s_log (x_e x'))) /\
  (forall i k, x_calls x !! i = Some (Asking k) -> x_calls x' !! i = Some (Asking k) \/ ((exists n m, k = KInstall n m) /\ EvDying ∈ s_log (x_e x'))).
Proof.
  intros Hr Hrun Hl Hs. pose proof (reachable_inv E _ Hr) as V.
  assert (Hnd : t_dead (s_tomb (x_e x)) = false). { destruct (t_dead (s_tomb (x_e x))) eqn:Hd; [|done]. apply (running_dead _ V) in Hd. congruence. }
  destruct l as [i k|i late|i|l]; cbn in Hs.
  - destruct (x_calls x !! i) eqn:Hi; [done|]. injection Hs as <-. cbn. split; [by apply epause_refl|]. split.
    + intros i' k' a u u' [[=]|H]%elem_of_cons. by left.
    + intros i' k' H. left. rewrite lookup_insert_ne; [done|congruence].
  - destruct late; [|done]. destruct (x_calls x !! i) as [[k| |]|] eqn:Hi; try done. destruct k as [n m| |]; cbn in Hs; rewrite ?Hnd in Hs; try done.
    destruct (dying (x_e x)) eqn:Hdy; [|done].
    assert (Hlog : EvDying ∈ s_log (x_e x)) by (by apply (l_dying E _ (proj2 (reachable_linv E _ Hr)))).
    rewrite (new_events_app _ _ [EvInstall n m (Some (EMsg MsgShuttingDown))]) in Hs by done. cbn in Hs. injection Hs as <-. cbn. split; [by eapply epause_one|]. split.
    + intros i' k' a u u' [[= -> -> -> -> ->]|H]%elem_of_cons; [|by left]. right. split_and!; eauto. by right.
    + intros i' k' H. destruct (decide (i' = i)) as [->|Hne]; [|left; by rewrite lookup_insert_ne]. right. rewrite Hi in H. injection H as <-. split; [eauto|by right].
  - destruct (x_calls x !! i) as [[]|] eqn:Hi; try done. injection Hs as <-. cbn. split; [by apply epause_refl|]. split.
    + intros i' k' a' u u' [[=]|H]%elem_of_cons. by left.
    + intros i' k' H. left. rewrite lookup_insert_ne; [done|congruence].
  - destruct (serves l) eqn:Hsv; [done|]. destruct (step E (x_e x) l) as [s'|] eqn:Hst; [|done]. injection Hs as <-. cbn. split; [by eapply eng_pause|]. split; [by left|auto].
Qed.
Lemma crun_pause E ls : forall x x', creachable E x -> s_running (x_e x) = true -> loop_waits ls -> crun E x ls = Some x' ->
  epause (x_e x) (x_e x') /\
  (forall i k a u u', HServed i k a u u' ∈ x_hist x' -> HServed i k a u u' ∈ x_hist x \/ (a = AnsInstall (Some (EMsg MsgShuttingDown)) /\ (exists n m, k = KInstall n m) /\ EvDying ∈ s_log (x_e x'))) /\
  (forall i k, x_calls x !! i = Some (Asking k) -> x_calls x' !! i = Some (Asking k) \/ ((exists n m, k = KInstall n m) /\ EvDying ∈ s_log (x_e x'))).
Proof.
  induction ls as [|l ls IH]; intros x x' Hc Hrun Hw Hr; cbn in Hr.
  { injection Hr as <-. split; [by apply epause_refl|]. auto. }
  destruct (cstep E x l) as [x1|] eqn:Hs; [|done].
  destruct (cstep_pause E x l x1 (creach_reach E x Hc) Hrun (Hw l (elem_of_list_here _ _)) Hs) as (P1 & S1 & A1).
  assert (Hc1 : creachable E x1). { destruct Hc as [l0 H0]. exists (l0 ++ [l]). rewrite crun_app, H0. cbn. by rewrite Hs. }
  destruct (IH x1 x' Hc1) as (P2 & S2 & A2); [by rewrite (proj1 P1)|intros l' ?; apply Hw; by right|done|].
  assert (Hsub : s_log (x_e x1) ⊆ s_log (x_e x')). { destruct P2 as (_ & new & -> & _). intros ev ?. apply elem_of_app. by right. }
  split; [by eapply epause_trans|]. split.
  - intros i k a u u' H. destruct (S2 _ _ _ _ _ H) as [H1|H1]; [|auto]. destruct (S1 _ _ _ _ _ H1) as [H2|(H2 & H3 & H4)]; [auto|]. right. auto.
  - intros i k H. destruct (A1 i k H) as [H1|[H1 H2]]; [|auto]. destruct (A2 i k H1); auto.
Qed.
Lemma alive_running E x : creachable E x -> EvDead ∉ s_log (x_e x) -> s_running (x_e x) = true.
Proof. intros Hc Hd. destruct (s_running (x_e x)) eqn:H; [done|]. by apply (dead_running E _ (creach_reach E x Hc)) in H. Qed.

(** ** The theorems *)
Lemma e_still E x ls x' : creachable E x -> EvDead ∉ s_log (x_e x) -> loop_waits ls -> crun E x ls = Some x' ->
  exists new, s_log (x_e x') = new ++ s_log (x_e x) /\ forall ev, ev ∈ new -> by_loop ev = false.
Proof. intros Hc Hd Hw Hr. destruct (crun_pause E ls x x' Hc (alive_running E x Hc Hd) Hw Hr) as ((_ & H) & _). exact H. Qed.
Lemma e_stuck E x i k ls x' : creachable E x -> EvDead ∉ s_log (x_e x) -> loop_waits ls -> k = KReport \/ k = KWait ->
  crun E x (CCall i k :: ls) = Some x' -> x_calls x' !! i = Some (Asking k) /\ EvDead ∉ s_log (x_e x').
Proof.
  intros Hc Hd Hw Hk Hr. pose proof (alive_running E x Hc Hd) as Hrun. cbn in Hr. destruct (x_calls x !! i) eqn:Hi; [done|]. set (x1 := x <| x_calls ::= _ |> <| x_hist ::= _ |>) in Hr.
  assert (Hc1 : creachable E x1). { destruct Hc as [l0 H0]. exists (l0 ++ [CCall i k]). rewrite crun_app, H0. cbn. by rewrite Hi. }
  destruct (crun_pause E ls x1 x' Hc1 Hrun Hw Hr) as ((_ & new & Hl & Hn) & _ & HA). split.
  - destruct (HA i k) as [H|[(n & m & ->) _]]; [cbn; by rewrite lookup_insert|done|]. by destruct Hk.
  - rewrite Hl. intros [H|H]%elem_of_app; [by apply Hn in H|done].
Qed.
Lemma e_install E x i n m ls x' : creachable E x -> EvDead ∉ s_log (x_e x) -> loop_waits ls ->
  crun E x (CCall i (KInstall n m) :: ls) = Some x' ->
  (forall a u u', HServed i (KInstall n m) a u u' ∈ x_hist x' -> is_dying (s_log (x_e x')) /\ a = AnsInstall (Some (EMsg MsgShuttingDown))) /\
  (~ is_dying (s_log (x_e x')) -> x_calls x' !! i = Some (Asking (KInstall n m))) /\
  (is_dying (s_log (x_e x')) -> x_calls x' !! i = Some (Asking (KInstall n m)) ->
     exists x2, cstep E x' (CServe i true) = Some x2 /\ x_calls x2 !! i = Some (Holding (KInstall n m) (AnsInstall (Some (EMsg MsgShuttingDown))))).
Proof.
  intros Hc Hd Hw Hr. pose proof (alive_running E x Hc Hd) as Hrun. pose proof Hr as Hr0. cbn in Hr. destruct (x_calls x !! i) eqn:Hi; [done|]. set (x1 := x <| x_calls ::= _ |> <| x_hist ::= _ |>) in Hr.
  assert (Hc1 : creachable E x1). { destruct Hc as [l0 H0]. exists (l0 ++ [CCall i (KInstall n m)]). rewrite crun_app, H0. cbn. by rewrite Hi. }
  assert (Hc' : creachable E x'). { destruct Hc1 as [l0 H0]. exists (l0 ++ ls). by rewrite crun_app, H0. }
  destruct (crun_pause E ls x1 x' Hc1 Hrun Hw Hr) as (_ & HS & HA). split_and!.
  - intros a u u' H. destruct (HS _ _ _ _ _ H) as [[[=]|H1]%elem_of_cons|(-> & _ & H1)]; [|done].
    exfalso. destruct (creach_hinv E x Hc) as [_ HN]. specialize (HN i). rewrite Hi in HN. destruct HN as (_ & HN & _). apply HN. by exists (KInstall n m), a, u, u'.
  - intros Hnd. destruct (HA i (KInstall n m)) as [H|[_ H]]; [cbn; by rewrite lookup_insert|done|done].
  - intros Hdy Hi'. pose proof (creach_reach E x' Hc') as Hr'. assert (dying (x_e x') = true) as Hd' by (by apply (l_dying E _ (proj2 (reachable_linv E _ Hr')))).
    eexists. cbn. rewrite Hi'. cbn. rewrite Hd'. rewrite (new_events_app _ _ [EvInstall n m (Some (EMsg MsgShuttingDown))]) by done. cbn. split; [reflexivity|]. cbn. by rewrite lookup_insert.
Qed.

Lemma e_wait_ends E x i e t : creachable E x -> HRet i KWait (AnsWait e) t ∈ x_hist x ->
  (forall g n f t', EvStartCall g n f t' ∈ s_log (x_e x) -> exists r, EvStartRet g n r ∈ s_log (x_e x)) /\
  (forall g n w, EvStartRet g n (inl w) ∈ s_log (x_e x) -> w = WSelf \/ worker_exited (s_log (x_e x)) g).
Proof.
  intros Hc H. apply elem_of_list_split in H as (p & q & Hq). destruct (call_linear E x p i KWait (AnsWait e) t q Hc Hq) as (t1 & u & u' & _ & _ & _ & _ & _ & Hd & _).
  assert (EvDead ∈ s_log (x_e x)) as Hdead. { destruct (log_at_pre x u) as [pre Hp]. rewrite Hp. apply elem_of_app. by right. }
  exact (shutdown_complete E (x_e x) (creach_reach E x Hc) Hdead).
Qed.
