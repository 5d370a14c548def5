(** Properties of the fine-grained loop (EngineFine.v): handlers end, and what holds with atomic handlers holds
    for any interleaving; at most one action of the loop comes after the kill of the engine. *)
From stdpp Require Import gmap strings list sorting.
From Coq Require Import ZArith Lia.
From RecordUpdate Require Import RecordSet.
From Verif Require Import Err Tomb Order Validate Snapshot Engine EngineSpec EngineMicro EngineSteps EngineSafety EngineFresh
  EngineMore EngineObs EngineFine EngineFineSpec EngineFineProofs.
Import RecordSetNotations.

(** ** Handlers end *)

Definition comp (E : env) (t : list act) : Prop := forall s, exists s', exec (plain E) t s s'.

Lemma comp_step E a t : (forall s, comp E ((act_step (plain E) a s).1 ++ t)) -> comp E (a :: t).
Proof. intros H s. destruct (H s (act_step (plain E) a s).2) as [s' He]. exists s'. by constructor. Qed.

Lemma comp_map E (mk : string -> act) l t : (forall d t, comp E t -> comp E (mk d :: t)) -> comp E t -> comp E (map mk l ++ t).
Proof. intros Hm Ht. induction l as [|d l IH]; simpl; auto. Qed.

Lemma comp_act E a t : comp E t -> comp E (a :: t).
Proof.
  assert (Hleaf : forall a, (forall s, (act_step (plain E) a s).1 = []) -> forall t, comp E t -> comp E (a :: t)).
  { intros b Hb u Hu. apply comp_step. intros s. rewrite Hb. exact Hu. }
  assert (Hkill : forall g n w t, comp E t -> comp E (AKill g n w :: t)).
  { intros g n w u Hu. apply comp_step. intros s. simpl. destruct w; simpl; auto. }
  assert (Hs3 : forall n d t, comp E t -> comp E (AStart3 n d :: t)).
  { intros n d u Hu. apply comp_step. intros s. simpl. destruct (dying _); simpl; auto. }
  assert (Hs2 : forall n d t, comp E t -> comp E (AStart2 n d :: t)).
  { intros n d u Hu. apply comp_step. intros s. simpl. destruct (i_stopped _); simpl; auto. }
  assert (Hstart : forall n d t, comp E t -> comp E (AStart n d :: t)).
  { intros n d u Hu. apply comp_step. intros s. simpl. destruct (s_manifolds s !! n); simpl; auto. }
  assert (Hstop : forall n t, comp E t -> comp E (AStop n :: t)).
  { intros n u Hu. apply comp_step. intros s. simpl. destruct (i_stopping _ || i_stopped _); simpl; auto.
    destruct (i_cancel _), (i_worker _); simpl; auto 6. }
  assert (Hbounce : forall n t, comp E t -> comp E (ABounce n :: t)).
  { intros n u Hu. apply comp_step. intros s. simpl. destruct (i_stopped _); auto. }
  assert (Hbounces : forall n t, comp E t -> comp E (ABounces n :: t)).
  { intros n u Hu. apply comp_step. intros s. simpl. apply comp_map; auto. }
  assert (Hafter : forall n e t, comp E t -> comp E (AAfter n e :: t)).
  { intros n e u Hu. apply comp_step. intros s. simpl. destruct e as [e|]; simpl; auto.
    destruct (err_is e _); simpl; auto. destruct (err_is e _); simpl; auto.
    destruct (err_is e _); simpl; auto. destruct (err_is e _); simpl; auto. }
  assert (Hst2 : forall n b h e t, comp E t -> comp E (AStopped2 n b h e :: t)).
  { intros n b h e u Hu. apply comp_step. intros s. simpl. destruct (dying _); simpl; auto.
    destruct b, h; simpl; auto. }
  assert (Hreg : forall g n w al t, comp E t -> comp E (ARegister g n w al :: t)).
  { intros g n w al u Hu. apply comp_step. intros s. simpl. auto. }
  assert (Hsd2 : forall g n w al t, comp E t -> comp E (AStarted2 g n w al :: t)).
  { intros g n w al u Hu. apply comp_step. intros s. simpl. destruct (dying _); simpl; auto. }
  intros Ht. destruct a; auto; apply comp_step; intros s; simpl.
  - destruct (s_manifolds s !! n); simpl; auto. destruct (check_acyclic _ _ _ _); simpl; auto.
  - destruct (i_worker _); simpl; auto. destruct (i_stopping _); simpl; auto.
  - destruct (i_stopped _); simpl; auto. destruct (c_isFatal _ _); simpl; auto 6.
  - apply comp_map; auto.
Qed.

Lemma comp_all E t : comp E t.
Proof. induction t as [|a t IH]; [intros s; eexists; constructor|]. by apply comp_act. Qed.

Lemma exec_frun E t s s' : exec (plain E) t s s' -> exists k, frun E (mkFine s t) (repeat FLoop k) = Some (mkFine s' []).
Proof.
  induction 1 as [s|a t s e H [k IH]]; [by exists 0|]. exists (S k). simpl.
  rewrite (surjective_pairing (act_step (plain E) a s)). exact IH.
Qed.

Lemma act_log_ext E a s : act_ok a -> exists new, s_log (act_step (plain E) a s).2 = new ++ s_log s /\ List.filter other_event new = [].
Proof.
  intros Hok. destruct (decide (kind_of a = 1)) as [Hk|Hk].
  - destruct a; try discriminate; simpl; rewrite kill_ws; simpl; eexists; (split; [reflexivity|]); destruct (_ && _); done.
  - destruct (act_general E a s Hok Hk) as (new & gr & Hn & _ & tf & _ & H).
    specialize (H (s_tomb s) (s_gors s) (s_log s) ltac:(done)). rewrite ws_self in H.
    exists new. split; [|done]. rewrite H. done.
Qed.

Lemma tomb_kill_err T e x : t_reason T = Reason (Some x) -> t_reason (tomb_kill T e) = Reason (Some x).
Proof. unfold tomb_kill. intros H. destruct e as [[]|]; rewrite ?H; done. Qed.

Lemma tomb_done_err T e x : t_reason T = Reason (Some x) -> t_reason (tomb_done T e) = Reason (Some x).
Proof.
  intros H. unfold tomb_done. set (t1 := T <| t_alive ::= pred |>).
  assert (H1 : t_reason t1 = Reason (Some x)) by (destruct T; exact H).
  pose proof (tomb_kill_err t1 e x H1) as H2. cbv zeta. repeat case_match; try done.
Qed.

Lemma act_reason E a s x : t_reason (s_tomb s) = Reason (Some x) -> t_reason (s_tomb (act_step (plain E) a s).2) = Reason (Some x).
Proof.
  intros Hr. destruct (decide (kind_of a = 0)) as [Hk|Hk].
  { destruct (act_frame E a s (s_tomb s) (s_gors s) (s_log s) Hk) as (_ & Ht & _). by rewrite Ht. }
  destruct a; try done; simpl.
  - rewrite kill_ws. by apply (tomb_kill_err (s_tomb s)).
  - rewrite kill_ws. by apply (tomb_kill_err (s_tomb s)).
  - unfold end_iteration. rewrite poll_plain. cbv zeta. destruct (_ && _); [|done].
    by apply (tomb_done_err (s_tomb s)).
Qed.

Lemma exec_keeps E t s s' : exec (plain E) t s s' -> Forall act_ok t ->
  (exists new, s_log s' = new ++ s_log s /\ List.filter other_event new = []) /\
  (forall x, t_reason (s_tomb s) = Reason (Some x) -> t_reason (s_tomb s') = Reason (Some x)).
Proof.
  induction 1 as [s|a t s e H IH]; intros Hok.
  { split; [by exists []|done]. }
  inversion Hok; subst. destruct IH as [(n1 & E1 & F1) R1].
  { apply Forall_app. split; [by apply act_push_ok|done]. }
  destruct (act_log_ext E a s H2) as (n2 & E2 & F2). split.
  - exists (n1 ++ n2). rewrite E1, E2, app_assoc. split; [done|]. rewrite List.filter_app, F1, F2. done.
  - intros x Hx. apply R1. by apply act_reason.
Qed.

Lemma freach_ok E fs : freachable E fs -> Forall act_ok (f_todo fs).
Proof.
  intros [ls Hr]. revert fs Hr. induction ls as [|l ls IH] using rev_ind; intros fs Hr.
  { simpl in Hr. simplify_eq. constructor. }
  apply frun_last in Hr as (fs1 & Hr & Hs). specialize (IH _ Hr). destruct l; simpl in Hs.
  - destruct (actor_of l) as [|b]; [discriminate|]. destruct b, (f_todo fs1); try discriminate;
      destruct (step _ _ _); simplify_eq; done.
  - destruct (f_todo fs1); [|discriminate]. destruct (recv _ _ _) as [[todo s']|] eqn:Hrc; [|discriminate]. simplify_eq. simpl.
    destruct l; simpl in Hrc; repeat case_match; simplify_eq; repeat constructor.
  - destruct (f_todo fs1) as [|a t]; [discriminate|]. rewrite (surjective_pairing (act_step (plain E) a (f_s fs1))) in Hs.
    simplify_eq. simpl. inversion IH; subst. apply Forall_app. split; [by apply act_push_ok|done].
Qed.

Lemma frun_app E : forall ls1 ls2 s s', frun E s ls1 = Some s' -> frun E s (ls1 ++ ls2) = frun E s' ls2.
Proof.
  induction ls1 as [|k ls IH]; simpl; intros ls2 s s' H1; [by simplify_eq|].
  destruct (fstep E s k); [|discriminate]. eauto.
Qed.

(** The loop can always finish what it is doing, by itself. *)
Lemma fine_completes E fs : freachable E fs -> exists k fs' new,
  frun E fs (repeat FLoop k) = Some fs' /\ f_todo fs' = [] /\ freachable E fs' /\
  s_log (f_s fs') = new ++ s_log (f_s fs) /\ List.filter other_event new = [] /\
  (forall x, t_reason (s_tomb (f_s fs)) = Reason (Some x) -> t_reason (s_tomb (f_s fs')) = Reason (Some x)).
Proof.
  intros Hf. destruct (comp_all E (f_todo fs) (f_s fs)) as [s' He].
  destruct (exec_frun _ _ _ _ He) as [k Hk].
  destruct (exec_keeps _ _ _ _ He (freach_ok _ _ Hf)) as [(new & Hn & Hfn) Hr].
  exists k, (mkFine s' []), new. destruct fs as [s t]; simpl in *. split; [done|]. split; [done|].
  split; [|done]. destruct Hf as [ls Hls]. exists (ls ++ repeat FLoop k). by rewrite (frun_app _ _ _ _ _ Hls).
Qed.

(** ** Transfer *)

Lemma fine_any E fs : freachable E fs -> exists p s new, reachable (with_preempt p E) s /\
  new ++ s_log (f_s fs) ≡ₚ s_log s /\ List.filter other_event new = [] /\
  List.filter other_event (s_log s) = List.filter other_event (s_log (f_s fs)) /\
  List.filter loop_event (s_log s) = List.filter loop_event (new ++ s_log (f_s fs)) /\
  (forall x, t_reason (s_tomb (f_s fs)) = Reason (Some x) -> t_reason (s_tomb s) = Reason (Some x)).
Proof.
  intros Hf. destruct (fine_completes E fs Hf) as (k & fs' & new & _ & Ht & Hf' & Hl & Hn & Hr).
  destruct (fine_reduction E fs' Hf' Ht) as (p & s & Hrs & Hs). exists p, s, new. split; [done|].
  pose proof (same_ws _ _ Hs) as Hw. destruct Hs as [_ H2 H3 H4]. rewrite Hl in *. split; [by symmetry|].
  split; [done|]. split; [rewrite H4, List.filter_app, Hn; done|]. split; [done|].
  intros x Hx. rewrite Hw. simpl. auto.
Qed.

(** Splitting a list at an element that a filter keeps *)
Lemma filter_split {A} (q : A -> bool) : forall (l pre post : list A) (ev : A),
  List.filter q l = pre ++ ev :: post -> exists pre' post', l = pre' ++ ev :: post' /\
    List.filter q pre' = pre /\ List.filter q post' = post.
Proof.
  induction l as [|a l IH]; simpl; intros pre post ev H; [by destruct pre|].
  destruct (q a) eqn:Ha.
  - destruct pre as [|b pre]; simpl in H; injection H as -> H.
    + subst. by exists [], l.
    + destruct (IH _ _ _ H) as (p1 & p2 & -> & H1 & H2). exists (b :: p1), p2. simpl. rewrite Ha, H1. done.
  - destruct (IH _ _ _ H) as (p1 & p2 & -> & H1 & H2). exists (a :: p1), p2. simpl. rewrite Ha. done.
Qed.

Lemma filter_in {A} (q : A -> bool) (l k : list A) (ev : A) :
  List.filter q l = List.filter q k -> q ev = true -> ev ∈ l -> ev ∈ k.
Proof.
  intros H Hq Hin. rewrite elem_of_list_In in *. apply (filter_In q ev k). rewrite <- H. by apply filter_In.
Qed.

Lemma fine_one_worker E fs pre g n f t post : freachable E fs ->
  s_log (f_s fs) = pre ++ EvStartCall g n f t :: post ->
  forall g' f' t', EvStartCall g' n f' t' ∈ post -> g' <> g /\ finished post g'.
Proof.
  intros Hf Hl g' f' t' Hin. destruct (fine_any E fs Hf) as (p & s & new & Hr & _ & _ & Ho & _).
  rewrite Hl, List.filter_app in Ho. simpl in Ho.
  destruct (filter_split _ _ _ _ _ Ho) as (pre' & post' & Hs & _ & Hp).
  destruct (no_overlap _ _ _ _ _ _ _ _ Hr Hs g' f' t') as [Hne Hfin].
  { eapply filter_in; [symmetry; exact Hp|done|done]. }
  split; [done|]. destruct Hfin as [(n' & e & H)|(n' & e & H)].
  - left. exists n', e. eapply filter_in; [exact Hp|done|done].
  - right. exists n', e. eapply filter_in; [exact Hp|done|done].
Qed.

Lemma fine_shutdown E fs : freachable E fs -> EvDead ∈ s_log (f_s fs) ->
  (forall g n f t, EvStartCall g n f t ∈ s_log (f_s fs) -> exists r, EvStartRet g n r ∈ s_log (f_s fs)) /\
  (forall g n w, EvStartRet g n (inl w) ∈ s_log (f_s fs) -> w = WSelf \/ worker_exited (s_log (f_s fs)) g).
Proof.
  intros Hf Hd. destruct (fine_any E fs Hf) as (p & s & new & Hr & Hperm & _ & Ho & _).
  assert (Hin : forall ev, ev ∈ s_log (f_s fs) -> ev ∈ s_log s).
  { intros ev H. rewrite <- Hperm. apply elem_of_app. by right. }
  destruct (shutdown_complete _ s Hr (Hin _ Hd)) as [H1 H2]. split.
  - intros g n f t H. apply Hin in H. destruct (H1 _ _ _ _ H) as [r Hrr]. exists r. by eapply filter_in.
  - intros g n w H. apply Hin in H. destruct (H2 _ _ _ H) as [|(n' & e & Hx)]; [by left|]. right. exists n', e. by eapply filter_in.
Qed.

Lemma fine_checks E fs : freachable E fs ->
  t_reason (s_tomb (f_s fs)) = StillAlive \/ t_reason (s_tomb (f_s fs)) = Reason None.
Proof.
  intros Hf. destruct (fine_any E fs Hf) as (p & s & new & Hr & _ & _ & _ & _ & Hx).
  destruct (t_reason (s_tomb (f_s fs))) as [|[x|]]; auto.
  specialize (Hx x eq_refl). destruct (tomb_clean _ _ Hr) as [[H|H] _]; congruence.
Qed.

Lemma perm_once {A} (P : A -> Prop) (l k : list A) : l ≡ₚ k ->
  (forall pre a post, l = pre ++ a :: post -> P a -> forall b, b ∈ post -> ~ P b) ->
  forall pre a post, k = pre ++ a :: post -> P a -> forall b, b ∈ post -> ~ P b.
Proof.
  intros Hp Hl pre a post -> Ha b Hb Hpb.
  apply elem_of_list_split in Hb as (m1 & m2 & ->).
  assert (Hab : exists p1 p2 p3 x y, l = p1 ++ x :: p2 ++ y :: p3 /\ P x /\ P y).
  { clear Hl. symmetry in Hp. revert Hp. generalize l as k. clear l. intros k Hp.
    assert (Hk : k ≡ₚ a :: b :: pre ++ m1 ++ m2).
    { rewrite <- Hp. rewrite <- Permutation_middle. f_equiv. rewrite !app_assoc. rewrite <- Permutation_middle. done. }
    assert (Hain : a ∈ k) by (rewrite Hk; set_solver).
    apply elem_of_list_split in Hain as (k1 & k2 & ->).
    rewrite <- Permutation_middle in Hk. apply Permutation_cons_inv in Hk.
    assert (Hbin : b ∈ k1 ++ k2) by (rewrite Hk; set_solver).
    apply elem_of_app in Hbin as [Hbin|Hbin]; apply elem_of_list_split in Hbin as (q1 & q2 & ->).
    - exists q1, q2, k2, b, a. split; [|done]. by rewrite <- app_assoc.
    - exists k1, q1, q2, a, b. done. }
  destruct Hab as (p1 & p2 & p3 & x & y & -> & Hx & Hy).
  eapply (Hl p1 x _ eq_refl Hx y); [|done]. set_solver.
Qed.

Lemma fine_kill_once E fs pre g n w post : freachable E fs -> s_log (f_s fs) = pre ++ EvKill g n w :: post ->
  (forall n' w', EvKill g n' w' ∉ post) /\ EvStartRet g n (inl w) ∈ s_log (f_s fs).
Proof.
  intros Hf Hl. destruct (fine_any E fs Hf) as (p & s & new & Hr & Hperm & _ & Ho & _). symmetry in Hperm. split.
  - intros n' w' Hin.
    eapply (perm_once (fun ev => exists n w, ev = EvKill g n w) _ _ Hperm) with (pre := new ++ pre) (b := EvKill g n' w'); [| |by eexists _, _|exact Hin|by eexists _, _].
    + intros p1 a p2 Hs (n1 & w1 & ->) b Hb (n2 & w2 & ->).
      destruct (kill_once _ _ _ _ _ _ _ Hr Hs) as [H _]. by apply (H n2 w2).
    + rewrite Hl, app_assoc. done.
  - assert (Hin : EvKill g n w ∈ s_log s) by (rewrite Hperm, Hl; set_solver).
    apply elem_of_list_split in Hin as (p1 & p2 & Hs). destruct (kill_once _ _ _ _ _ _ _ Hr Hs) as (_ & H & _).
    eapply filter_in; [exact Ho|done|]. rewrite Hs. set_solver.
Qed.

Lemma fine_idle E fs : freachable E fs -> f_todo fs = [] -> exists p s, reachable (with_preempt p E) s /\ same s (f_s fs).
Proof. apply fine_reduction. Qed.

(** The vocabulary of EngineSpec.v that only looks at the loop's events *)
Lemma installed_loop log n : installed log n = installed (List.filter loop_event log) n.
Proof. induction log as [|[] log IH]; simpl; auto; try (by rewrite IH); case_match; simpl; auto. Qed.
Lemma registered_loop log n : registered log n = registered (List.filter loop_event log) n.
Proof. induction log as [|[] log IH]; simpl; auto; try (by rewrite IH); case_match; simpl; auto. Qed.
Lemma registrations_loop log n : registrations log n = registrations (List.filter loop_event log) n.
Proof. induction log as [|[] log IH]; simpl; auto; try (by rewrite IH); case_match; simpl; auto. Qed.
Lemma worst_loop cfg log : worst_of cfg log = worst_of cfg (List.filter loop_event log).
Proof. induction log as [|[] log IH]; simpl; auto; try (by rewrite IH); case_match; simpl; rewrite ?IH; auto. Qed.
Lemma attempt_loop log n : (fun '(g, sn, post) => (g, sn, List.filter loop_event post)) <$> last_attempt log n =
  last_attempt (List.filter loop_event log) n.
Proof. induction log as [|[] log IH]; simpl; auto; repeat (case_match; simpl; auto). Qed.

Lemma fine_no_stale E fs n m : freachable E fs -> f_todo fs = [] ->
  ~ is_dying (s_log (f_s fs)) -> installed (s_log (f_s fs)) n = Some m ->
  exists g sn post, last_attempt (s_log (f_s fs)) n = Some (g, sn, post) /\ installed post n = Some m /\
    (~ asked_to_stop (s_log (f_s fs)) g -> forall x, x ∈ m_inputs m ->
      sn_workers sn !! x = Some (snd <$> registered (s_log (f_s fs)) x) /\
      registered post x = registered (s_log (f_s fs)) x /\ registrations post x = registrations (s_log (f_s fs)) x).
Proof.
  intros Hf Ht Hd Hi. destruct (fine_idle E fs Hf Ht) as (p & s & Hr & [_ Hp Hl _]).
  rewrite installed_loop, <- Hl, <- installed_loop in Hi.
  destruct (no_stale_inputs _ s n m Hr) as (g & sn & post & Ha & Hip & Hx); [|done|].
  { unfold is_dying. by rewrite Hp. }
  pose proof (attempt_loop (s_log s) n) as Ha1. pose proof (attempt_loop (s_log (f_s fs)) n) as Ha2.
  rewrite Hl, <- Ha2, Ha in Ha1. simpl in Ha1.
  destruct (last_attempt (s_log (f_s fs)) n) as [[[g2 sn2] post2]|]; [|discriminate]. simpl in Ha1.
  injection Ha1 as -> -> Hpost. exists g2, sn2, post2. split; [done|].
  split; [by rewrite installed_loop, <- Hpost, <- installed_loop|].
  intros Has x Hin. destruct (Hx ltac:(intros [k Hk]; apply Has; exists k; by rewrite <- Hp) x Hin) as (A & B & C).
  assert (Hreg : registered (s_log (f_s fs)) x = registered (s_log s) x).
  { by rewrite registered_loop, <- Hl, <- registered_loop. }
  rewrite Hreg. split; [done|]. split.
  - by rewrite registered_loop, <- Hpost, <- registered_loop.
  - rewrite (registrations_loop post2), <- Hpost, <- registrations_loop, C, !(registrations_loop (s_log _)), Hl. done.
Qed.

Lemma fine_wait E fs e : freachable E fs -> f_todo fs = [] -> EvWait e ∈ s_log (f_s fs) ->
  EvDead ∈ s_log (f_s fs) /\
  e = (match c_filter (e_cfg E) with Some f => f | None => id end) (worst_of (e_cfg E) (s_log (f_s fs))).
Proof.
  intros Hf Ht Hin. destruct (fine_idle E fs Hf Ht) as (p & s & Hr & [_ Hp Hl _]).
  rewrite <- Hp in Hin. apply elem_of_list_split in Hin as (pre & post & Hs).
  pose proof (wait_after_dead _ _ _ _ _ Hr Hs) as Hd.
  split; [rewrite <- Hp, Hs; set_solver|].
  rewrite (wait_is_worst _ _ _ _ _ Hr Hs). simpl. f_equal.
  rewrite (worst_loop _ (s_log (f_s fs))), <- Hl, <- worst_loop.
  assert (Hpre : forall l1 l2, pre = l1 ++ l2 -> worst_of (e_cfg E) post = worst_of (e_cfg E) (l2 ++ EvWait e :: post)).
  { intros l1 l2. revert l1. induction l2 as [|ev l2 IH]; intros l1 H; [done|].
    rewrite (IH (l1 ++ [ev])) by (rewrite <- app_assoc; done).
    assert (Hnf : ~ forbidden_when_dead ev).
    { eapply (dead_no_events _ _ l1 ev (l2 ++ EvWait e :: post) Hr); [|set_solver]. rewrite Hs, H. by rewrite <- app_assoc. }
    destruct ev; simpl in *; done. }
  rewrite Hs. by apply (Hpre [] pre).
Qed.

(** ** After the kill at most one action that starts something *)

Definition starting_event (ev : event) : bool :=
  match ev with EvAttempt _ _ _ _ _ | EvRegister _ _ _ _ | EvUninstall _ => true | _ => false end.

(** The loop is committed to start something *)
Definition armed (a : act) : bool :=
  match a with ALaunch _ _ | ARegister _ _ _ _ | AUninstall _ | AAfter _ _ => true | _ => false end.
Definition armed_head (t : list act) : nat := match t with a :: _ => if armed a then 1 else 0 | [] => 0 end.
Definition tail_ok (t : list act) : Prop := Forall (fun a => armed a = false) (tail t).

Definition late_ok (b : bool) (k : nat) (log : list event) : Prop :=
  if b then exists pre post, log = pre ++ EvDying :: post /\ EvDying ∉ pre /\ EvDying ∉ post /\
    length (List.filter starting_event pre) + k <= 1
  else EvDying ∉ log.

Lemma late_app k k' log new : late_ok true k log -> EvDying ∉ new ->
  length (List.filter starting_event new) + k' <= k -> late_ok true k' (new ++ log).
Proof.
  intros (pre & post & -> & H1 & H2 & H3) Hn Hl. exists (new ++ pre), post. rewrite app_assoc. split; [done|].
  split; [set_solver|]. split; [done|]. rewrite List.filter_app, app_length. lia.
Qed.
Lemma late_app_false log new : late_ok false 0 log -> EvDying ∉ new -> late_ok false 0 (new ++ log).
Proof. unfold late_ok. set_solver. Qed.
Lemma late_kill log k : late_ok false 0 log -> k <= 1 -> late_ok true k (EvDying :: log).
Proof. intros H Hk. exists [], log. simpl. split; [done|]. split; [set_solver|]. split; [done|lia]. Qed.

Lemma tail_push push t : tail_ok push -> Forall (fun a => armed a = false) t -> tail_ok (push ++ t).
Proof.
  unfold tail_ok. intros Hp Ht. destruct push as [|a push]; simpl in *.
  - destruct t; simpl; [constructor|]. by inversion Ht.
  - apply Forall_app. done.
Qed.
Lemma armed_tail t : Forall (fun a => armed a = false) t -> armed_head t = 0.
Proof. destruct t; simpl; [done|]. inversion 1; subst. by rewrite H2. Qed.

(** What an action pushes and emits *)
Lemma act_arms E a s : tail_ok (act_step (plain E) a s).1 /\
  (dying s = true -> exists new, s_log (act_step (plain E) a s).2 = new ++ s_log s /\ EvDying ∉ new /\
     dying (act_step (plain E) a s).2 = true /\
     length (List.filter starting_event new) + armed_head (act_step (plain E) a s).1 <= (if armed a then 1 else 0)) /\
  (dying s = false -> exists new, EvDying ∉ new /\
     ((s_log (act_step (plain E) a s).2 = new ++ s_log s /\ dying (act_step (plain E) a s).2 = false) \/
      (s_log (act_step (plain E) a s).2 = EvDying :: s_log s /\ dying (act_step (plain E) a s).2 = true /\
       (act_step (plain E) a s).1 = []))).
Proof.
  destruct (decide (kind_of a = 1)) as [Hk|Hk].
  - assert (Hkill : forall e, dying s = true -> exists new, s_log (kill_tomb e s) = new ++ s_log s /\ EvDying ∉ new /\
      dying (kill_tomb e s) = true /\ length (List.filter starting_event new) + 0 <= 0).
    { intros e Hd. rewrite kill_ws. unfold dying in *. rewrite Hd. exists []. simpl. split; [done|]. split; [set_solver|].
      split; [by apply tomb_kill_dying|done]. }
    assert (Hkill2 : forall e, e <> Some ETombDying -> e <> Some ETombStillAlive -> dying s = false ->
      s_log (kill_tomb e s) = EvDying :: s_log s /\ dying (kill_tomb e s) = true).
    { intros e He1 He2 Hd. rewrite kill_ws. unfold dying in *. rewrite Hd.
      assert (Ht : t_dying (tomb_kill (s_tomb s) e) = true).
      { unfold t_dying, tomb_kill in *. destruct (t_reason (s_tomb s)) eqn:Hr; [|discriminate]. destruct e as [[]|]; simpl; congruence. }
      simpl. rewrite Ht. done. }
    destruct a; try discriminate; simpl; (split; [constructor|]); (split; [apply Hkill|]);
      intros Hd; exists []; (split; [set_solver|]); right;
      (edestruct Hkill2 as [H1 H2]; [| |done|]; [| |split; [exact H1|]; split; [exact H2|done]]; discriminate).
  - assert (Hgen : forall new, s_log (act_step (plain E) a s).2 = new ++ s_log s -> EvDying ∉ new ->
      dying (act_step (plain E) a s).2 = dying s -> tail_ok (act_step (plain E) a s).1 ->
      (dying s = true -> length (List.filter starting_event new) + armed_head (act_step (plain E) a s).1 <= (if armed a then 1 else 0)) ->
      tail_ok (act_step (plain E) a s).1 /\
      (dying s = true -> exists new, s_log (act_step (plain E) a s).2 = new ++ s_log s /\ EvDying ∉ new /\
         dying (act_step (plain E) a s).2 = true /\
         length (List.filter starting_event new) + armed_head (act_step (plain E) a s).1 <= (if armed a then 1 else 0)) /\
      (dying s = false -> exists new, EvDying ∉ new /\
         ((s_log (act_step (plain E) a s).2 = new ++ s_log s /\ dying (act_step (plain E) a s).2 = false) \/
          (s_log (act_step (plain E) a s).2 = EvDying :: s_log s /\ dying (act_step (plain E) a s).2 = true /\
           (act_step (plain E) a s).1 = [])))).
    { intros new H1 H2 H3 H4 H5. split; [done|]. split.
      - intros Hd. exists new. rewrite H3. auto.
      - intros Hd. exists new. split; [done|]. left. rewrite H3. done. }
    assert (Hmap : forall (mk : string -> act) l, (forall d, armed (mk d) = false) -> Forall (fun a => armed a = false) (map mk l)).
    { intros mk l Hm. apply Forall_forall. intros b Hb. apply elem_of_list_fmap in Hb as (d & -> & _). apply Hm. }
    destruct a; try (simpl in Hk; done).
    + apply (Hgen []); simpl; try done; [set_solver| |].
      * destruct (s_manifolds s !! n); repeat constructor.
      * destruct (s_manifolds s !! n); simpl; lia.
    + apply (Hgen []); simpl; try done; [set_solver| |].
      * destruct (i_stopped _); repeat constructor.
      * destruct (i_stopped _); simpl; lia.
    + apply (Hgen []); simpl; try done; [set_solver| |].
      * destruct (dying _); repeat constructor.
      * rewrite poll_plain. intros Hd. change (dying (s <| s_polls ::= S |>)) with (dying s). rewrite Hd. simpl. lia.
    + destruct (launch_frame E n d s) as (r & ev & He & _ & H).
      specialize (H (s_tomb s) (s_gors s) (s_log s)). rewrite ws_self in H.
      apply (Hgen [ev]); try done.
      * by rewrite H.
      * intros Hx%elem_of_list_singleton. subst ev. discriminate.
      * constructor.
      * intros _. simpl. destruct (starting_event ev); simpl; lia.
    + unfold act_step in *. destruct (i_stopping (info_of s n) || i_stopped (info_of s n)).
      { apply (Hgen []); simpl; try done; [set_solver|constructor]. }
      apply (Hgen []); simpl; try done; [set_solver| |].
      * destruct (i_cancel (info_of s n)), (i_worker (info_of s n)); repeat constructor.
      * destruct (i_cancel (info_of s n)), (i_worker (info_of s n)); simpl; lia.
    + apply (Hgen [EvCancel c n]); simpl; try done; [|constructor]. intros ?%elem_of_list_singleton. discriminate.
    + apply (Hgen [EvKill g n w]); simpl; try done; [|destruct w; constructor|destruct w; simpl; lia]. intros ?%elem_of_list_singleton. discriminate.
    + apply (Hgen []); simpl; try done; [set_solver|constructor].
    + apply (Hgen []); simpl; try done; [set_solver| |].
      * unfold tail_ok. destruct (dependents_of s n); simpl; [constructor|]. by apply Hmap.
      * intros _. rewrite armed_tail; [lia|]. by apply Hmap.
    + apply (Hgen []); simpl; try done; [set_solver|constructor|]. destruct (i_stopped _); simpl; lia.
    + unfold act_step in *. destruct (s_manifolds s !! n).
      { apply (Hgen []); simpl; try done; [set_solver|constructor]. }
      destruct (check_acyclic _ _ _ _).
      { apply (Hgen []); simpl; try done; [set_solver|constructor]. }
      apply (Hgen [EvInstalled n m]); simpl; try done; [|repeat constructor]. intros ?%elem_of_list_singleton. discriminate.
    + apply (Hgen [EvInstall n m r]); simpl; try done; [|constructor]. intros ?%elem_of_list_singleton. discriminate.
    + unfold act_step in *. destruct (i_worker _).
      { apply (Hgen []); simpl; try done; [set_solver|repeat constructor]. }
      apply (Hgen []); simpl; try done; [set_solver| |]; destruct (i_stopping _); try constructor; simpl; lia.
    + apply (Hgen []); simpl; try done; [set_solver| |].
      * destruct (dying _); constructor.
      * rewrite poll_plain. intros Hd. change (dying (s <| s_polls ::= S |>)) with (dying s). rewrite Hd. simpl. lia.
    + apply (Hgen [EvMetric n; EvRegister g n w (s_now s)]); simpl; try done; [|constructor].
      intros [?|?%elem_of_list_singleton]%elem_of_cons; discriminate.
    + apply (Hgen [EvStopped g n raw (filtered s n raw) (s_now s)]); try done.
      * intros ?%elem_of_list_singleton. discriminate.
      * simpl. destruct (i_stopped _); [repeat constructor|]. destruct (c_isFatal _ _); repeat constructor.
      * intros _. simpl. destruct (i_stopped _); [simpl; lia|]. destruct (c_isFatal _ _); simpl; lia.
    + apply (Hgen []); simpl; try done; [set_solver|constructor].
    + apply (Hgen []); simpl; try done; [set_solver| |].
      * destruct (dying _); [constructor|]. destruct had; repeat constructor.
      * rewrite poll_plain. intros Hd. change (dying (s <| s_polls ::= S |>)) with (dying s). rewrite Hd. simpl. lia.
    + apply (Hgen []); simpl; try done; [set_solver| |].
      * destruct e as [e|]; [|constructor]. repeat case_match; constructor.
      * intros _. destruct e as [e|]; [|simpl; lia]. repeat case_match; simpl; lia.
    + apply (Hgen [EvUninstall n]); simpl; try done; [|constructor]. intros ?%elem_of_list_singleton. discriminate.
    + apply (Hgen []); simpl; try done; [set_solver| |].
      * unfold tail_ok. destruct (iter_order _ _); simpl; [constructor|]. by apply Hmap.
      * intros _. rewrite armed_tail; [lia|]. by apply Hmap.
    + unfold act_step, end_iteration in *. rewrite poll_plain in *. cbv zeta in *.
      destruct (dying (s <| s_polls ::= S |>) && all_others_stopped (s <| s_polls ::= S |>)) eqn:Hc.
      * apply (Hgen [EvDead]); simpl; try done; [intros ?%elem_of_list_singleton; discriminate| |constructor].
        apply andb_true_iff in Hc as [Hd _]. change (dying (s <| s_polls ::= S |>)) with (dying s) in Hd. rewrite Hd.
        by apply tomb_done_dying.
      * apply (Hgen []); simpl; try done; [set_solver|constructor].
Qed.

Lemma other_log E s l s' b : actor_of l = ByOthers b -> step (plain E) s l = Some s' ->
  (exists new, s_log s' = new ++ s_log s /\ EvDying ∉ new /\ List.filter starting_event new = [] /\ dying s' = dying s) \/
  (dying s = false /\ dying s' = true /\ s_log s' = EvDying :: s_log s).
Proof.
  intros Ha Hs. destruct b.
  - assert (Hk : l = LKill \/ l <> LKill) by (destruct l; auto; right; discriminate). destruct Hk as [->|Hk].
    + simpl in Hs. simplify_eq. destruct (dying s) eqn:Hd.
      * left. exists []. rewrite kill_none_dying by done. split; [done|]. split; [set_solver|]. done.
      * right. rewrite kill_ws. unfold dying, t_dying, tomb_kill in *. destruct (t_reason (s_tomb s)); [|discriminate]. done.
    + left. assert (Hev : exists new, s_log s' = new ++ s_log s /\ (forall ev, ev ∈ new -> other_event ev = true \/ exists g n w, ev = EvKill g n w) /\ dying s' = dying s).
      { destruct (other_step _ _ _ _ Ha Hk Hs) as (u & evs & _ & -> & _ & _). exists evs. split; [done|]. split; [|done].
        clear -Ha Hk Hs. assert (Hl : evs ++ s_log s = s_log (ws s (s_tomb s) (upd u (s_gors s)) (evs ++ s_log s))) by done.
        revert Hs Hl. generalize (ws s (s_tomb s) (upd u (s_gors s)) (evs ++ s_log s)) as s'. intros s' Hs Hl ev Hin.
        assert (Hcases : evs = [] \/ exists e0, evs = [e0] /\ (other_event e0 = true \/ exists g n w, e0 = EvKill g n w)).
        { destruct l; try discriminate; try done; simpl in Hs; repeat (case_match; try discriminate); simplify_eq;
            try (unfold kill_worker, set_pc in Hl; simpl in Hl);
            try (left; apply (app_inv_tail (s_log s) _ []); exact Hl);
            try (right; eexists; split; [apply (app_inv_tail (s_log s)); exact Hl|]; by left);
            try (right; eexists; split; [apply (app_inv_tail (s_log s)); exact Hl|]; right; by eexists _, _, _).
          all: right; eexists; (split; [apply (app_inv_tail (s_log s)); rewrite Hl; rewrite kill_none_dying by done; reflexivity|]); right; by eexists _, _, _. }
        destruct Hcases as [->|(e0 & -> & H)]; [set_solver|]. apply elem_of_list_singleton in Hin as ->. done. }
      destruct Hev as (new & Hn & Hev & Hd). exists new. split; [done|]. split; [|split; [|done]].
      * intros Hin. destruct (Hev _ Hin) as [?|(?&?&?&?)]; discriminate.
      * clear Hn. induction new as [|ev new IH]; simpl; [done|].
        assert (starting_event ev = false) as ->.
        { destruct (Hev ev) as [H|(?&?&?&->)]; [set_solver|destruct ev; done|done]. }
        apply IH. intros. apply Hev. set_solver.
  - left. destruct l; try discriminate; simpl in Hs; case_match; try discriminate; simplify_eq.
    + exists []. repeat split; try done. set_solver.
    + exists [EvReport (dead_report (plain E) s)]. repeat split; try done. intros ?%elem_of_list_singleton. discriminate.
    + exists [EvWait (wait_result (plain E) s)]. repeat split; try done. intros ?%elem_of_list_singleton. discriminate.
Qed.

Lemma fine_late E fs : freachable E fs ->
  tail_ok (f_todo fs) /\ late_ok (dying (f_s fs)) (if dying (f_s fs) then armed_head (f_todo fs) else 0) (s_log (f_s fs)).
Proof.
  intros [ls Hr]. revert fs Hr. induction ls as [|l ls IH] using rev_ind; intros fs Hr.
  { simpl in Hr. simplify_eq. simpl. split; [constructor|]. unfold late_ok. simpl. set_solver. }
  apply frun_last in Hr as (fs1 & Hr & Hs). destruct (IH _ Hr) as [Ht Hl]. destruct l; simpl in Hs.
  - destruct (actor_of l) as [|b] eqn:Ha; [discriminate|].
    destruct (step (plain E) (f_s fs1) l) as [s'|] eqn:Hst.
    2:{ destruct b, (f_todo fs1); discriminate. }
    assert (fs = mkFine s' (f_todo fs1)) as ->.
    { destruct b, (f_todo fs1); try discriminate; congruence. }
    simpl. split; [done|]. destruct (other_log _ _ _ _ _ Ha Hst) as [(new & -> & Hn & Hf & Hd)|(Hd1 & Hd2 & ->)].
    + rewrite Hd. destruct (dying (f_s fs1)); [|by apply late_app_false]. eapply late_app; [done|done|]. rewrite Hf. simpl. lia.
    + rewrite Hd2. rewrite Hd1 in Hl. apply late_kill; [done|]. destruct (f_todo fs1) as [|a t]; simpl; [lia|]. destruct (armed a); lia.
  - destruct (f_todo fs1); [|discriminate]. destruct (recv _ _ _) as [[todo s']|] eqn:Hrc; [|discriminate]. simplify_eq. simpl.
    assert (Hx : tail_ok todo /\ armed_head todo = 0 /\ exists new, s_log s' = new ++ s_log (f_s fs1) /\ EvDying ∉ new /\
      List.filter starting_event new = [] /\ dying s' = dying (f_s fs1)).
    { destruct l; simpl in Hrc; repeat (case_match; try discriminate); simplify_eq;
        (split; [repeat constructor|]); (split; [done|]); try (exists []; split; [done|]; split; [set_solver|done]).
      all: eexists [_]; (split; [done|]); (split; [intros ?%elem_of_list_singleton; discriminate|]); (split; [done|]); assumption. }
    destruct Hx as (Hx1 & Hx2 & new & -> & Hn & Hf & ->). split; [done|]. rewrite Hx2.
    destruct (dying (f_s fs1)); [|by apply late_app_false]. eapply late_app; [done|done|]. rewrite Hf. simpl. lia.
  - destruct (f_todo fs1) as [|a t] eqn:Htd; [discriminate|]. rewrite (surjective_pairing (act_step (plain E) a (f_s fs1))) in Hs.
    simplify_eq. simpl. destruct (act_arms E a (f_s fs1)) as (H1 & H2 & H3). unfold tail_ok in Ht. simpl in Ht.
    split; [by apply tail_push|].
    assert (Hah : armed_head ((act_step (plain E) a (f_s fs1)).1 ++ t) = armed_head (act_step (plain E) a (f_s fs1)).1).
    { destruct ((act_step (plain E) a (f_s fs1)).1); [|done]. simpl. by apply armed_tail. }
    rewrite Hah. destruct (dying (f_s fs1)).
    + destruct (H2 eq_refl) as (new & -> & Hn & -> & Hle). eapply late_app; [done|done|]. simpl. exact Hle.
    + destruct (H3 eq_refl) as (new & Hn & [(-> & ->)|(-> & -> & ->)]); [by apply late_app_false|].
      apply late_kill; [done|]. simpl. lia.
Qed.

Lemma dying_split (log pre post pre' post' : list event) : log = pre ++ EvDying :: post -> log = pre' ++ EvDying :: post' ->
  EvDying ∉ pre' -> EvDying ∉ post' -> pre = pre'.
Proof.
  intros -> H. revert pre' H. induction pre as [|a pre IH]; intros [|b pre'] H H1 H2; simplify_eq/=; auto.
  - set_solver.
  - exfalso. apply H2. set_solver.
  - f_equal. apply (IH pre'); auto. set_solver.
Qed.

Lemma fine_late_once E fs pre post : freachable E fs -> s_log (f_s fs) = pre ++ EvDying :: post ->
  length (List.filter starting_event pre) <= 1.
Proof.
  intros Hf Hl. destruct (fine_late E fs Hf) as [_ H]. destruct (dying (f_s fs)); simpl in H.
  - destruct H as (pre' & post' & Hl' & Hn1 & Hn2 & Hc). rewrite (dying_split _ _ _ _ _ Hl Hl' Hn1 Hn2). lia.
  - exfalso. apply H. rewrite Hl. set_solver.
Qed.
