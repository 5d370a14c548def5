(** Reduction of the fine-grained loop (EngineFine.v) to the atomic handlers of Engine.v. *)
From stdpp Require Import gmap strings list sorting.
From Coq Require Import ZArith Lia.
From RecordUpdate Require Import RecordSet.
From Verif Require Import Err Tomb Order Validate Snapshot Engine EngineSpec EngineMicro EngineSteps EngineFine EngineFineSpec.
Import RecordSetNotations.

(** ** Big-step execution of a list of actions *)
Inductive exec (E : env) : list act -> state -> state -> Prop :=
  | exec_nil s : exec E [] s s
  | exec_cons a t s e : exec E ((act_step E a s).1 ++ t) (act_step E a s).2 e -> exec E (a :: t) s e.

Lemma exec_inv E a t s e : exec E (a :: t) s e -> exec E ((act_step E a s).1 ++ t) (act_step E a s).2 e.
Proof. inversion 1; subst; auto. Qed.
Lemma exec_nil_inv E s e : exec E [] s e -> e = s.
Proof. inversion 1; auto. Qed.

Lemma ex_start E n d t s e : exec E (AStart n d :: t) s e -> exec E t (request_start E n d s) e.
Proof.
  intros H. apply exec_inv in H. simpl in H.
  set (s1 := match s_manifolds s !! n with Some _ => s | None => kill_tomb (Some (EMsg (MsgUnknownManifold n))) s end).
  assert (H1 : exec E (AStart2 n d :: t) s1 e).
  { unfold s1. destruct (s_manifolds s !! n); simpl in H; auto. apply exec_inv in H. exact H. }
  clear H. apply exec_inv in H1. simpl in H1.
  set (s2 := if i_stopped (info_of s1 n) then s1 else kill_tomb (Some (EMsg (MsgSecondWorker n))) s1).
  assert (H2 : exec E (AStart3 n d :: t) s2 e).
  { unfold s2. destruct (i_stopped (info_of s1 n)); simpl in H1; auto. apply exec_inv in H1. exact H1. }
  clear H1. apply exec_inv in H2. simpl in H2.
  unfold request_start. fold s1. cbv zeta. fold s2.
  destruct (dying (poll E s2)); simpl in H2; auto. apply exec_inv in H2. exact H2.
Qed.

Lemma ex_kill E g n w t s e : exec E (AKill g n w :: t) s e -> exec E t (kill_worker g n w s) e.
Proof.
  intros H. apply exec_inv in H. simpl in H. unfold kill_worker. destruct w; simpl in H; auto.
  all: apply exec_inv in H; exact H.
Qed.

Lemma ex_stop E n t s e : exec E (AStop n :: t) s e -> exec E t (request_stop n s) e.
Proof.
  intros H. apply exec_inv in H. simpl in H. unfold request_stop.
  destruct (i_stopping (info_of s n) || i_stopped (info_of s n)); simpl in H; auto.
  unfold do_stop. cbv zeta. set (i := info_of s n) in *.
  change (i_cancel (i <| i_stopping := true |>)) with (i_cancel i).
  change (i_worker (i <| i_stopping := true |>)) with (i_worker i).
  set (s1 := match i_cancel i with Some c => emit (EvCancel c n) (s <| s_cancelled ::= union {[c]} |>) | None => s end).
  assert (H1 : exec E ((match i_worker i with Some w => [AKill (default 0 (i_cancel i)) n w] | None => [] end ++
     [ASet n (i <| i_stopping := true |> <| i_cancel := None |>)]) ++ t) s1 e).
  { unfold s1. destruct (i_cancel i); simpl in H; auto. apply exec_inv in H. exact H. }
  clear H. destruct (i_worker i) as [w|]; simpl in H1.
  - apply ex_kill in H1. apply exec_inv in H1. exact H1.
  - apply exec_inv in H1. exact H1.
Qed.

Lemma ex_bounce E d t s e : exec E (ABounce d :: t) s e -> exec E t (bounce_one E d s) e.
Proof.
  intros H. apply exec_inv in H. simpl in H. unfold bounce_one.
  destruct (i_stopped (info_of s d)); [apply ex_start in H|apply ex_stop in H]; exact H.
Qed.

Lemma ex_fold E (mk : string -> act) (f : string -> state -> state) l t : forall s e,
  (forall d t s e, exec E (mk d :: t) s e -> exec E t (f d s) e) ->
  exec E (map mk l ++ t) s e -> exec E t (fold_left (fun s d => f d s) l s) e.
Proof.
  induction l as [|d l IH]; simpl; intros s e Hf H; auto.
Qed.

Lemma ex_bounces E n t s e : exec E (ABounces n :: t) s e -> exec E t (bounce_dependents E n s) e.
Proof.
  intros H. apply exec_inv in H. simpl in H. unfold bounce_dependents.
  eapply ex_fold in H; [exact H|]. apply ex_bounce.
Qed.

Lemma ex_stop_all E t s e : exec E (AStopAll :: t) s e -> exec E t (stop_all E s) e.
Proof.
  intros H. apply exec_inv in H. simpl in H. unfold stop_all.
  eapply (ex_fold E AStop request_stop) in H; [exact H|]. apply ex_stop.
Qed.

Lemma ex_install E n m t s e : exec E (AInstall n m :: t) s e ->
  exec E t (let '(r, s1) := got_install E n m s in emit (EvInstall n m r) s1) e.
Proof.
  intros H. apply exec_inv in H. simpl in H. unfold got_install.
  destruct (s_manifolds s !! n); simpl in H.
  { apply exec_inv in H. exact H. }
  destruct (check_acyclic E n m s); simpl in H.
  { apply exec_inv in H. exact H. }
  apply ex_start in H. apply exec_inv in H. exact H.
Qed.

Lemma ex_started E g n w al t s e : exec E (AStarted g n w al :: t) s e -> exec E t (got_started E g n w al s) e.
Proof.
  intros H. apply exec_inv in H. simpl in H. unfold got_started.
  destruct (i_worker (info_of s n)); simpl in H.
  { apply exec_inv in H. simpl in H. apply ex_kill in H. exact H. }
  destruct (i_stopping (info_of s n)); simpl in H.
  { apply ex_kill in H. exact H. }
  apply exec_inv in H. simpl in H. cbv zeta.
  destruct (dying (poll E s)); simpl in H.
  { apply ex_kill in H. exact H. }
  apply exec_inv in H. simpl in H. apply ex_bounces in H. exact H.
Qed.

Lemma ex_after E n o t s e : exec E (AAfter n o :: t) s e -> exec E t (after_stop E n o s) e.
Proof.
  intros H. apply exec_inv in H. simpl in H. unfold after_stop.
  destruct o as [o|]; simpl in H; auto.
  destruct (err_is o _); simpl in H; auto.
  destruct (err_is o _); simpl in H; auto.
  destruct (err_is o _); simpl in H; [apply ex_start in H; exact H|].
  destruct (err_is o _); simpl in H; [apply exec_inv in H; exact H|].
  apply ex_start in H; exact H.
Qed.

Lemma ex_stopped E g n raw al t s e : exec E (AStopped g n raw al :: t) s e -> exec E t (got_stopped E g n raw al s) e.
Proof.
  intros H. apply exec_inv in H. cbn [act_step fst snd] in H.
  unfold got_stopped. cbv zeta. unfold end_attempt. cbv zeta in H |- *.
  set (i := recent_errors (e_cfg E) (info_of s n) raw (s_now s)) in *.
  set (o := filtered s n raw) in *.
  set (s0 := emit (EvStopped g n raw o (s_now s)) s) in *.
  set (s1 := if i_stopped i then kill_tomb (Some (EMsg (MsgUnexpectedStop n))) s0 else _).
  match type of H with exec _ ((_ ++ ?L) ++ _) _ _ => set (rest := L) in H end.
  assert (H1 : exec E (rest ++ t) s1 e).
  { unfold s1. destruct (i_stopped i); simpl in H.
    { apply exec_inv in H. exact H. }
    destruct (c_isFatal (e_cfg E) o); simpl in H; auto.
    apply exec_inv in H. simpl in H. apply exec_inv in H. exact H. }
  clear H. unfold rest in H1. clear rest. simpl in H1.
  apply exec_inv in H1. simpl in H1. apply exec_inv in H1. cbn [act_step fst snd] in H1. cbv zeta in H1.
  match goal with |- context [poll E ?X] => set (sp := poll E X) in * end.
  destruct (dying sp); simpl in H1; auto.
  destruct (i_stopping (info_of s n)), (i_worker (info_of s n)); simpl in H1.
  - apply ex_start, ex_bounces in H1. exact H1.
  - apply ex_start in H1. exact H1.
  - apply ex_after, ex_bounces in H1. exact H1.
  - apply ex_after in H1. exact H1.
Qed.

Lemma ex_end E s e : exec E [AEnd] s e -> e = end_iteration E s.
Proof. intros H. apply exec_inv in H. simpl in H. apply exec_nil_inv in H. exact H. Qed.

(** A received message and the actions it leads to are the atomic step. *)
Lemma recv_exec E s l todo s1 e : recv E s l = Some (todo, s1) -> exec E todo s1 e -> step E s l = Some e.
Proof.
  intros Hr He. destruct l; simpl in Hr; try discriminate.
  - simpl. destruct (s_running s); [|discriminate]. simplify_eq. apply ex_install in He.
    destruct (got_install E n m s1) as [r s2]. apply ex_end in He. congruence.
  - simpl. destruct (s_running s); [|discriminate]. simplify_eq. apply ex_end in He. congruence.
  - simpl. destruct (s_running s && s_oneShot s && dying s); [|discriminate]. simplify_eq.
    apply ex_stop_all, ex_end in He. congruence.
  - simpl. destruct (s_gors s !! g) as [[n f sn x al p]|]; [|discriminate]. destruct p; try discriminate.
    destruct (s_running s); [|discriminate]. simplify_eq. apply ex_started, ex_end in He. congruence.
  - simpl. destruct (s_gors s !! g) as [[n f sn x al p]|]; [|discriminate]. destruct p; try discriminate.
    destruct (s_running s); [|discriminate]. simplify_eq. apply ex_stopped, ex_end in He. congruence.
Qed.

(** ** The actions depend neither on the log nor on the goroutines *)

Definition kind_of (a : act) : nat :=
  match a with
  | AKillSelf | AComplain _ => 1                                     (* kills the tomb *)
  | AStart3 _ _ | AStarted2 _ _ _ _ | AStopped2 _ _ _ _ | AEnd => 2   (* polls the tomb *)
  | ALaunch _ _ => 3
  | _ => 0
  end.

(** The state with other contents in the tomb, the table of goroutines and the log *)
Definition ws (s : state) (T : tomb) (G : gmap nat gor) (L : list event) : state :=
  mkState T (s_worst s) (s_manifolds s) (s_dependents s) (s_current s) (s_oneShot s) (s_running s) G (s_next s)
    (s_cancelled s) (s_now s) (s_polls s) L.

Lemma ws_self s : ws s (s_tomb s) (s_gors s) (s_log s) = s.
Proof. destruct s; reflexivity. Qed.
Lemma ws_ws s T G L T' G' L' : ws (ws s T G L) T' G' L' = ws s T' G' L'.
Proof. reflexivity. Qed.

Definition act_new (E : env) (a : act) (s : state) : list event :=
  s_log (act_step (plain E) a (ws s (s_tomb s) (s_gors s) [])).2.

Lemma poll_plain E s : poll (plain E) s = s <| s_polls ::= S |>.
Proof. reflexivity. Qed.

Lemma act_frame E a s T G L : kind_of a = 0 ->
  act_step (plain E) a (ws s T G L) =
  ((act_step (plain E) a s).1, ws (act_step (plain E) a s).2 T G (act_new E a s ++ L)) /\
  s_tomb (act_step (plain E) a s).2 = s_tomb s /\ s_gors (act_step (plain E) a s).2 = s_gors s.
Proof.
  intros Hk. destruct s as [tb wr ms ds cu os rn gs nx cc nw pl lg].
  destruct a; simpl in Hk; try discriminate; clear Hk; try (repeat split; reflexivity).
  - unfold act_new, act_step, info_of, ws; simpl.
    destruct (cu !! n) as [i|]; simpl; [|repeat split].
    destruct (i_stopping i || i_stopped i); repeat split.
  - unfold act_new, act_step, ws; simpl.
    destruct (ms !! n); simpl; [repeat split|].
    change (check_acyclic (plain E) n m (mkState T wr ms ds cu os rn G nx cc nw pl L))
      with (check_acyclic (plain E) n m (mkState tb wr ms ds cu os rn gs nx cc nw pl lg)).
    change (check_acyclic (plain E) n m (mkState tb wr ms ds cu os rn gs nx cc nw pl []))
      with (check_acyclic (plain E) n m (mkState tb wr ms ds cu os rn gs nx cc nw pl lg)).
    destruct (check_acyclic _ _ _ _); simpl; repeat split.
  - unfold act_new, act_step, ws, info_of; simpl.
    destruct (cu !! n) as [i|]; simpl; [|repeat split].
    destruct (i_worker i); simpl; [repeat split|]. destruct (i_stopping i); repeat split.
Qed.

Lemma launch_frame E n d s : exists r ev, loop_event ev = true /\ other_event ev = false /\ forall T G L,
  act_step (plain E) (ALaunch n d) (ws s T G L) =
  ([], ws (launch (plain E) n d s) T (<[s_next s := r]> G) ([ev] ++ L)).
Proof.
  pose (g := s_next s).
  pose (i := info_of s n <| i_starting := true |> <| i_attempts ::= S |> <| i_err := None |> <| i_cancel := Some g |>).
  pose (s1 := set_info n i s). pose (m := manifold_of s1 n). pose (sn := take_snapshot s1 (m_inputs m)).
  pose (dd := if (0 <? d)%Z then e_delay (plain E) g d (i_recent i) else d).
  exists (mkGor n (m_start m) sn false [] (PDelay (s_now s1 + dd)%Z)), (EvAttempt g n sn (s_now s1) dd).
  split; [reflexivity|split; [reflexivity|]].
  intros T G L. reflexivity.
Qed.

Lemma kill_frame e s T G L :
  kill_tomb e (ws s T G L) =
  ws s (tomb_kill T e) G ((if negb (t_dying T) && t_dying (tomb_kill T e) then [EvDying] else []) ++ L).
Proof. unfold kill_tomb. simpl. destruct (negb _ && _); reflexivity. Qed.

Lemma kill_ws e s :
  kill_tomb e s = ws s (tomb_kill (s_tomb s) e) (s_gors s)
    ((if negb (t_dying (s_tomb s)) && t_dying (tomb_kill (s_tomb s) e) then [EvDying] else []) ++ s_log s).
Proof. rewrite <- kill_frame, ws_self. done. Qed.

Lemma tomb_kill_none T : t_dying T = true -> tomb_kill T None = T.
Proof. unfold t_dying, tomb_kill. destruct T as [[|[e|]] a d p]; simpl; intros; try discriminate; reflexivity. Qed.

Lemma kill_none_dying s : dying s = true -> kill_tomb None s = s.
Proof.
  intros H. rewrite <- (ws_self s) at 1. rewrite kill_frame, tomb_kill_none; auto.
  unfold dying in H. rewrite H. simpl. apply ws_self.
Qed.

Definition act_ok (a : act) : Prop :=
  match a with AAnswer _ _ r => r <> Some (EMsg MsgShuttingDown) | _ => True end.

Lemma act_new_other E a s : kind_of a = 0 -> act_ok a -> List.filter other_event (act_new E a s) = [].
Proof.
  intros Hk Hok. destruct s as [tb wr ms ds cu os rn gs nx cc nw pl lg].
  destruct a; simpl in Hk; try discriminate; clear Hk; try reflexivity.
  - unfold act_new, act_step, info_of, ws; simpl.
    destruct (cu !! n) as [i|]; simpl; [|reflexivity].
    destruct (i_stopping i || i_stopped i); reflexivity.
  - unfold act_new, act_step, ws; simpl.
    destruct (ms !! n); simpl; [reflexivity|]. destruct (check_acyclic _ _ _ _); reflexivity.
  - simpl in *. destruct r as [[]|]; try reflexivity. destruct m0; try reflexivity. congruence.
  - unfold act_new, act_step, ws, info_of; simpl.
    destruct (cu !! n) as [i|]; simpl; [|reflexivity].
    destruct (i_worker i); simpl; [reflexivity|]. destruct (i_stopping i); reflexivity.
Qed.

Lemma act_push_ok E a s : act_ok a -> Forall act_ok (act_step E a s).1.
Proof.
  intros _. destruct a; simpl; repeat case_match; simpl; repeat constructor; simpl; try done;
    apply Forall_forall; intros x Hx; apply elem_of_list_fmap in Hx as (y & -> & _); done.
Qed.

(** ** Steps of other goroutines *)

Definition upd (u : option (nat * gor)) (G : gmap nat gor) : gmap nat gor :=
  match u with Some (g, r) => <[g := r]> G | None => G end.

(** [x] is a later state of the same handler as [s] *)
Record later (s x : state) : Prop := {
  la_now : s_now x = s_now s;
  la_dying : dying s = true -> dying x = true;
  la_canc : s_cancelled s ⊆ s_cancelled x;
  la_gors : forall g r, s_gors s !! g = Some r -> s_gors x !! g = Some r
}.

Lemma alter_upd (f : gor -> gor) g r (G : gmap nat gor) : G !! g = Some r -> alter f g G = <[g := f r]> G.
Proof.
  intros H. apply map_eq. intros k. destruct (decide (k = g)) as [->|Hn].
  - rewrite lookup_alter, lookup_insert, H. done.
  - rewrite lookup_alter_ne, lookup_insert_ne by done. done.
Qed.

Lemma set_pc_ws s g r p : s_gors s !! g = Some r ->
  set_pc g p s = ws s (s_tomb s) (<[g := r <| g_pc := p |>]> (s_gors s)) (s_log s).
Proof. intros H. unfold set_pc. destruct s; simpl in *. unfold set; simpl. rewrite (alter_upd _ _ r) by done. reflexivity. Qed.

Lemma set_pc_exp_ws s g r p : s_gors s !! g = Some r ->
  set_pc g p (s <| s_gors ::= alter (fun r => r <| g_expired := true |>) g |>) =
  ws s (s_tomb s) (<[g := r <| g_expired := true |> <| g_pc := p |>]> (s_gors s)) (s_log s).
Proof.
  intros H. unfold set_pc. destruct s; simpl in *. unfold set; simpl.
  rewrite <- alter_compose, (alter_upd _ _ r) by done. reflexivity.
Qed.

Lemma emit_ws ev s T G L : emit ev (ws s T G L) = ws s T G ([ev] ++ L).
Proof. reflexivity. Qed.

Lemma other_step E s l s' : actor_of l = ByOthers true -> l <> LKill -> step E s l = Some s' ->
  exists u evs, (forall g r, u = Some (g, r) -> is_Some (s_gors s !! g)) /\
    s' = ws s (s_tomb s) (upd u (s_gors s)) (evs ++ s_log s) /\
    List.filter loop_event evs = [] /\
    forall x, later s x -> step E x l = Some (ws x (s_tomb x) (upd u (s_gors x)) (evs ++ s_log x)).
Proof.
  intros Ha Hl Hs. destruct l; try discriminate; try done; simpl in Hs.
  - (* refused *)
    destruct (dying s) eqn:Hd; [|discriminate]. simplify_eq.
    exists None, [EvInstall n m (Some (EMsg MsgShuttingDown))]. split; [done|split; [by destruct s|split; [done|]]].
    intros x [_ Hx _ _]. simpl. rewrite Hx by done. by destruct x.
  - (* delay *)
    destruct (s_gors s !! g) as [[n f sn ex al p]|] eqn:Hg; [|discriminate]. destruct p; try discriminate.
    destruct (ready <=? s_now s)%Z eqn:Hr; [|discriminate]. simplify_eq.
    rewrite (set_pc_ws _ _ _ _ Hg), emit_ws.
    exists (Some (g, mkGor n f sn ex al PStart)), [EvStartCall g n f (s_now s)].
    split; [intros ?? [= <- _]; rewrite Hg; done|split; [done|split; [done|]]].
    intros x [Hn _ _ Hx]. simpl. rewrite (Hx _ _ Hg), Hn, Hr, (set_pc_ws _ _ _ _ (Hx _ _ Hg)), emit_ws. done.
  - (* abort *)
    destruct (s_gors s !! g) as [[n f sn ex al p]|] eqn:Hg; [|discriminate]. destruct p; try discriminate.
    destruct (dying s || ctx_done s g) eqn:Hr; [|discriminate]. simplify_eq.
    rewrite (set_pc_exp_ws _ _ _ _ Hg).
    eexists (Some (g, _)), [].
    split; [intros ?? [= <- _]; rewrite Hg; done|split; [done|split; [done|]]].
    intros x [_ Hd Hc Hx]. simpl. rewrite (Hx _ _ Hg).
    assert (dying x || ctx_done x g = true) as ->.
    { apply orb_true_iff. unfold ctx_done in *. apply orb_true_iff in Hr as [Hr|Hr]; [left; auto|].
      apply orb_true_iff in Hr as [Hr|Hr]; [left; auto|]. right. apply orb_true_iff. right.
      apply bool_decide_eq_true in Hr. apply bool_decide_eq_true. set_solver. }
    rewrite (set_pc_exp_ws _ _ _ _ (Hx _ _ Hg)). done.
  - (* get *)
    destruct (s_gors s !! g) as [r|] eqn:Hg; [|discriminate].
    destruct (snapshot_get _ _ _ _ _ _) as [[e c] al] eqn:Hsn. simplify_eq.
    eexists (Some (g, _)), [EvGet g n out e c].
    split; [intros ?? [= <- _]; rewrite Hg; done|split; [|split; [done|]]].
    + destruct s; simpl; reflexivity.
    + intros x [_ _ _ Hx]. simpl. rewrite (Hx _ _ Hg), Hsn. destruct x; reflexivity.
  - (* start returned *)
    destruct (s_gors s !! g) as [[n f sn ex al p]|] eqn:Hg; [|discriminate]. destruct p; try discriminate.
    simplify_eq. rewrite (set_pc_ws _ _ _ _ Hg), emit_ws.
    eexists (Some (g, _)), [_].
    split; [intros ?? [= <- _]; rewrite Hg; done|split; [done|split; [done|]]].
    intros x [Hn _ _ Hx]. simpl. rewrite (Hx _ _ Hg), (set_pc_ws _ _ _ _ (Hx _ _ Hg)), emit_ws. done.
  - (* expire *)
    destruct (s_gors s !! g) as [[n f sn ex al p]|] eqn:Hg; [|discriminate]. destruct p; try discriminate.
    simplify_eq. rewrite (set_pc_exp_ws _ _ _ _ Hg).
    eexists (Some (g, _)), [].
    split; [intros ?? [= <- _]; rewrite Hg; done|split; [done|split; [done|]]].
    intros x [Hn _ _ Hx]. simpl. rewrite (Hx _ _ Hg), (set_pc_exp_ws _ _ _ _ (Hx _ _ Hg)). done.
  - (* dying instead of started *)
    destruct (s_gors s !! g) as [[n f sn ex al p]|] eqn:Hg; [|discriminate]. destruct p; try discriminate.
    destruct (dying s) eqn:Hd; [|discriminate]. simplify_eq.
    assert (Hk : forall x, later s x ->
      kill_worker g n w (set_pc g (match w with WSelf => PSelf | WExt _ => PWait w end) x) =
      ws x (s_tomb x) (<[g := mkGor n f sn ex al (match w with WSelf => PSelf | WExt _ => PWait w end)]> (s_gors x))
         ([EvKill g n w] ++ s_log x)).
    { intros x [_ Hdx _ Hx]. rewrite (set_pc_ws _ _ _ _ (Hx _ _ Hg)).
      unfold kill_worker. rewrite emit_ws. destruct w; try reflexivity.
      rewrite kill_frame, tomb_kill_none by auto. unfold dying in Hdx. rewrite Hdx by done. reflexivity. }
    rewrite Hk by (split; auto).
    eexists (Some (g, _)), [_].
    split; [intros ?? [= <- _]; rewrite Hg; done|split; [done|split; [done|]]].
    intros x Hl'. pose proof Hl' as [_ Hdx _ Hx]. simpl. rewrite (Hx _ _ Hg), Hdx, Hk; auto.
  - (* exit *)
    destruct (s_gors s !! g) as [[n f sn ex al p]|] eqn:Hg; [|discriminate]. destruct p; try discriminate.
    simplify_eq. rewrite (set_pc_ws _ _ _ _ Hg), emit_ws.
    eexists (Some (g, _)), [_].
    split; [intros ?? [= <- _]; rewrite Hg; done|split; [done|split; [done|]]].
    intros x [Hn _ _ Hx]. simpl. rewrite (Hx _ _ Hg), (set_pc_ws _ _ _ _ (Hx _ _ Hg)), emit_ws. done.
  - (* self *)
    destruct (s_gors s !! g) as [[n f sn ex al p]|] eqn:Hg; [|discriminate]. destruct p; try discriminate.
    destruct (dying s) eqn:Hd; [|discriminate].
    simplify_eq. rewrite (set_pc_ws _ _ _ _ Hg), emit_ws.
    eexists (Some (g, _)), [_].
    split; [intros ?? [= <- _]; rewrite Hg; done|split; [done|split; [done|]]].
    intros x [Hn Hdx _ Hx]. simpl. rewrite (Hx _ _ Hg), Hdx, (set_pc_ws _ _ _ _ (Hx _ _ Hg)), emit_ws by done. done.
Qed.

(** ** Commutation *)

Definition fresh (s : state) : Prop := forall g r, s_gors s !! g = Some r -> g < s_next s.

Lemma same_refl s : same s s.
Proof. split; auto. destruct s; reflexivity. Qed.
Lemma same_trans a b c : same a b -> same b c -> same a c.
Proof.
  intros [A1 A2 A3 A4] [B1 B2 B3 B4]. split; [|by etrans|by etrans|by etrans].
  rewrite A1, B1. destruct c; reflexivity.
Qed.
Lemma same_ws c f : same c f -> c = ws f (s_tomb f) (s_gors f) (s_log c).
Proof. intros [H _ _ _]. rewrite H at 1. destruct f; reflexivity. Qed.

Lemma same_swap s T G evs new L :
  List.filter loop_event evs = [] -> List.filter other_event new = [] ->
  same (ws s T G (evs ++ new ++ L)) (ws s T G (new ++ evs ++ L)).
Proof.
  intros He Hn. split; simpl; auto.
  - rewrite !app_assoc. f_equiv. apply Permutation_app_comm.
  - rewrite !List.filter_app, He. done.
  - rewrite !List.filter_app, Hn. done.
Qed.

Lemma tomb_kill_dying T e : t_dying T = true -> t_dying (tomb_kill T e) = true.
Proof. unfold t_dying, tomb_kill. destruct T as [[|[x|]] a d p]; destruct e as [[]|]; simpl; intros; try discriminate; reflexivity. Qed.

Lemma tomb_done_dying T e : t_dying T = true -> t_dying (tomb_done T e) = true.
Proof.
  intros H. unfold tomb_done. set (t1 := T <| t_alive ::= pred |>).
  assert (Ht : t_dying t1 = true) by (destruct T; exact H).
  destruct (bool_decide _ || bool_decide _); [|exact Ht].
  pose proof (tomb_kill_dying t1 e Ht) as Hk. destruct (t_panic _); [exact Hk|].
  destruct (bool_decide _); [|exact Hk]. unfold t_dying in *. exact Hk.
Qed.

Lemma act_later E a s : fresh s -> later s (act_step (plain E) a s).2 /\ fresh (act_step (plain E) a s).2.
Proof.
  intros Hf. destruct (kind_of a) as [|k] eqn:Hk.
  { destruct (act_frame E a s (s_tomb s) (s_gors s) (s_log s) Hk) as (_ & Ht & Hg).
    assert (Hc : s_cancelled s ⊆ s_cancelled (act_step (plain E) a s).2 /\
      s_now (act_step (plain E) a s).2 = s_now s /\ s_next (act_step (plain E) a s).2 = s_next s).
    { destruct s as [tb wr ms ds cu os rn gs nx cc nw pl lg].
      destruct a; try discriminate; try (simpl; done).
      - unfold act_step. destruct (i_stopping _ || i_stopped _); done.
      - simpl. set_solver.
      - unfold act_step. destruct (s_manifolds _ !! _); [done|]. destruct (check_acyclic _ _ _ _); done.
      - unfold act_step. destruct (i_worker _); done. }
    destruct Hc as (Hc & Hn & Hx). split; [split; auto|].
    + unfold dying. rewrite Ht. auto.
    + rewrite Hg. auto.
    + unfold fresh. rewrite Hg, Hx. exact Hf. }
  assert (Hkill : forall e, later s (kill_tomb e s) /\ fresh (kill_tomb e s)).
  { intros e. rewrite <- (ws_self s). rewrite kill_frame. split; [split; simpl; auto|exact Hf].
    unfold dying. simpl. apply tomb_kill_dying. }
  destruct a; try discriminate; simpl.
  - split; [split; auto|exact Hf].
  - destruct (launch_frame E n d s) as (r & ev & _ & _ & H).
    specialize (H (s_tomb s) (s_gors s) (s_log s)). rewrite ws_self in H. simpl in H.
    apply (f_equal snd) in H. simpl in H. rewrite H. split; [split; simpl; auto|].
    + intros g r' Hg. rewrite lookup_insert_ne; [auto|]. specialize (Hf _ _ Hg). lia.
    + intros g r' Hg. simpl in Hg. change (s_next (ws _ _ _ _)) with (S (s_next s)).
      destruct (decide (g = s_next s)) as [->|Hne]; [lia|]. rewrite lookup_insert_ne in Hg by done.
      specialize (Hf _ _ Hg). lia.
  - apply Hkill.
  - apply Hkill.
  - split; [split; auto|exact Hf].
  - split; [split; auto|exact Hf].
  - unfold end_iteration. rewrite poll_plain. cbv zeta.
    destruct (dying _ && all_others_stopped _).
    + split; [split; simpl; auto|exact Hf].
      unfold dying. simpl. apply tomb_done_dying.
    + split; [split; auto|exact Hf].
Qed.

(** What an action does, if the tomb, the goroutines and the log are different *)
Lemma act_general E a s : act_ok a -> kind_of a <> 1 ->
  exists new gr, List.filter other_event new = [] /\ (forall g r, gr = Some (g, r) -> g = s_next s) /\
  exists tf, (kind_of a <> 2 -> forall T, tf T = T) /\ forall T G L, (kind_of a = 2 -> t_dying T = dying s) ->
  act_step (plain E) a (ws s T G L) =
  ((act_step (plain E) a s).1, ws (act_step (plain E) a s).2 (tf T) (upd gr G) (new ++ L)).
Proof.
  intros Hok H1. destruct (kind_of a) as [|k] eqn:Hk.
  { exists (act_new E a s), None. split; [by apply act_new_other|split; [done|]]. exists id. split; [done|].
    intros T G L _. apply act_frame. done. }
  destruct a; try discriminate; simpl in Hk; simplify_eq; simpl in H1.
  - exists [], None. split; [done|split; [done|]]. exists id. split; [done|]. intros T G L Hd.
    unfold act_step. rewrite !poll_plain. cbv zeta.
    assert (dying (ws s T G L <| s_polls ::= S |>) = dying (s <| s_polls ::= S |>)) as -> by (by apply Hd).
    reflexivity.
  - destruct (launch_frame E n d s) as (r & ev & _ & He & H).
    exists [ev], (Some (s_next s, r)). split; [simpl; by rewrite He|split; [by intros ?? [= <- _]|]].
    exists id. split; [done|]. intros T G L _. apply H.
  - exists [], None. split; [done|split; [done|]]. exists id. split; [done|]. intros T G L Hd.
    unfold act_step. rewrite !poll_plain. cbv zeta.
    assert (dying (ws s T G L <| s_polls ::= S |>) = dying (s <| s_polls ::= S |>)) as -> by (by apply Hd).
    reflexivity.
  - exists [], None. split; [done|split; [done|]]. exists id. split; [done|]. intros T G L Hd.
    unfold act_step. rewrite !poll_plain. cbv zeta.
    assert (dying (ws s T G L <| s_polls ::= S |>) = dying (s <| s_polls ::= S |>)) as -> by (by apply Hd).
    reflexivity.
  - destruct (dying s && all_others_stopped s) eqn:Hc.
    + exists [EvDead], None. split; [done|split; [done|]]. exists (fun T => tomb_done T (Some ETombDying)).
      split; [done|]. intros T G L Hd. unfold act_step, end_iteration. rewrite !poll_plain. cbv zeta.
      assert (dying (ws s T G L <| s_polls ::= S |>) = dying s) as -> by (by apply Hd).
      change (dying (s <| s_polls ::= S |>)) with (dying s).
      change (all_others_stopped (ws s T G L <| s_polls ::= S |>)) with (all_others_stopped s).
      change (all_others_stopped (s <| s_polls ::= S |>)) with (all_others_stopped s).
      rewrite Hc. reflexivity.
    + exists [], None. split; [done|split; [done|]]. exists id.
      split; [done|]. intros T G L Hd. unfold act_step, end_iteration. rewrite !poll_plain. cbv zeta.
      assert (dying (ws s T G L <| s_polls ::= S |>) = dying s) as -> by (by apply Hd).
      change (dying (s <| s_polls ::= S |>)) with (dying s).
      change (all_others_stopped (ws s T G L <| s_polls ::= S |>)) with (all_others_stopped s).
      change (all_others_stopped (s <| s_polls ::= S |>)) with (all_others_stopped s).
      rewrite Hc. reflexivity.
Qed.

Lemma commute1 E a x l y : fresh x -> act_ok a -> actor_of l = ByOthers true -> step (plain E) x l = Some y ->
  (kind_of a = 2 -> dying x = dying y) ->
  exists z, step (plain E) (act_step (plain E) a x).2 l = Some z /\
    (act_step (plain E) a y).1 = (act_step (plain E) a x).1 /\ same z (act_step (plain E) a y).2.
Proof.
  intros Hf Hok Hl Hs Hp. destruct (act_later E a x Hf) as [Hla _].
  assert (Hk : l = LKill \/ l <> LKill) by (destruct l; auto; right; discriminate).
  destruct Hk as [->|Hk].
  - simpl in Hs. simplify_eq. simpl. eexists. split; [reflexivity|].
    destruct (dying x) eqn:Hd.
    { rewrite !kill_none_dying; auto; [split; [done|apply same_refl]|]. by apply Hla. }
    assert (Hk2 : kind_of a <> 2).
    { intros Hk2. specialize (Hp Hk2). rewrite <- (ws_self x), kill_frame in Hp.
      unfold dying, t_dying, tomb_kill in *. simpl in *. destruct (t_reason (s_tomb x)); discriminate. }
    assert (Hkx : forall s : state, t_reason (s_tomb s) = StillAlive ->
      kill_tomb None s = ws s (s_tomb s <| t_reason := Reason None |>) (s_gors s) ([EvDying] ++ s_log s)).
    { intros s Hst. rewrite <- (ws_self s) at 1. rewrite kill_frame. unfold tomb_kill, t_dying. rewrite Hst. reflexivity. }
    assert (Hst : t_reason (s_tomb x) = StillAlive).
    { unfold dying, t_dying in Hd. destruct (t_reason (s_tomb x)); [done|discriminate]. }
    destruct (decide (kind_of a = 1)) as [Hk1|Hk1].
    + rewrite (Hkx x Hst). destruct a; try discriminate; simpl.
      * rewrite (Hkx x Hst). split; [done|]. apply same_refl.
      * split; [done|]. rewrite (kill_ws _ x), !kill_frame. unfold t_dying, tomb_kill; simpl. rewrite Hst.
        simpl. destruct (s_tomb x); simpl. apply same_refl.
    + destruct (act_general E a x Hok Hk1) as (new & gr & Hn & _ & tf & Htf & H).
      pose proof (H (s_tomb x) (s_gors x) (s_log x) ltac:(done)) as H0. rewrite ws_self in H0.
      rewrite (Hkx x Hst), H by done. simpl. split; [done|].
      rewrite (surjective_pairing (act_step (plain E) a x)) in H0. apply (f_equal snd) in H0. simpl in H0.
      set (s' := (act_step (plain E) a x).2) in *.
      rewrite Htf in H0 by done. rewrite Htf by done.
      assert (Ht : s_tomb s' = s_tomb x) by (rewrite H0; done).
      assert (Hg : s_gors s' = upd gr (s_gors x)) by (rewrite H0; done).
      assert (HL : s_log s' = new ++ s_log x) by (rewrite H0; done).
      rewrite Hkx by (by rewrite Ht). rewrite Ht, Hg, HL.
      apply (same_swap s' _ _ [EvDying] new); done.
  - destruct (other_step _ _ _ _ Hl Hk Hs) as (u & evs & Hu & -> & Hev & Hst).
    rewrite (Hst _ Hla). eexists. split; [reflexivity|].
    destruct (decide (kind_of a = 1)) as [Hk1|Hk1].
    + destruct a; try discriminate; simpl; (split; [done|]);
        rewrite (kill_ws _ x), !kill_frame; rewrite ws_ws; simpl;
        match goal with |- context [if ?c then [EvDying] else []] => set (new := if c then [EvDying] else []) end;
        apply same_swap; auto; unfold new; destruct (negb _ && _); reflexivity.
    + destruct (act_general E a x Hok Hk1) as (new & gr & Hn & Hgr & tf & _ & H).
      pose proof (H (s_tomb x) (s_gors x) (s_log x) ltac:(done)) as H0. rewrite ws_self in H0.
      rewrite H by done. simpl. split; [done|].
      apply (f_equal snd) in H0. simpl in H0. set (s' := (act_step (plain E) a x).2) in *.
      assert (Ht : s_tomb s' = tf (s_tomb x)) by (rewrite H0; done).
      assert (Hg : s_gors s' = upd gr (s_gors x)) by (rewrite H0; done).
      assert (HL : s_log s' = new ++ s_log x) by (rewrite H0; done).
      rewrite Ht, Hg, HL.
      assert (upd u (upd gr (s_gors x)) = upd gr (upd u (s_gors x))) as ->; [|by apply same_swap].
      destruct u as [[g r]|], gr as [[g' r']|]; try done; simpl.
      apply insert_commute. rewrite (Hgr g' r') by done. destruct (Hu g r eq_refl) as [r0 Hr0].
      specialize (Hf _ _ Hr0). lia.
Qed.

(** ** Equal states take equal steps *)

Lemma same_app s T G new L K :
  L ≡ₚ K -> List.filter loop_event L = List.filter loop_event K -> List.filter other_event L = List.filter other_event K ->
  same (ws s T G (new ++ L)) (ws s T G (new ++ K)).
Proof.
  intros H1 H2 H3. split; simpl; auto; [by rewrite H1| |]; rewrite !List.filter_app; congruence.
Qed.

Lemma same_act E a c f : act_ok a -> same c f ->
  (act_step (plain E) a c).1 = (act_step (plain E) a f).1 /\ same (act_step (plain E) a c).2 (act_step (plain E) a f).2.
Proof.
  intros Hok Hs. pose proof (same_ws c f Hs) as Hc. destruct Hs as [_ H2 H3 H4].
  destruct (decide (kind_of a = 1)) as [Hk|Hk].
  - rewrite Hc. destruct a; try discriminate; simpl; (split; [done|]); rewrite kill_frame, (kill_ws _ f);
      apply same_app; auto.
  - destruct (act_general E a f Hok Hk) as (new & gr & _ & _ & tf & _ & H).
    rewrite Hc, H by done. pose proof (H (s_tomb f) (s_gors f) (s_log f) ltac:(done)) as H0. rewrite ws_self in H0.
    simpl. split; [done|]. apply (f_equal snd) in H0. simpl in H0. rewrite H0 at 2. by apply same_app.
Qed.

Lemma same_length c f : same c f -> length (s_log c) = length (s_log f).
Proof. intros [_ H _ _]. by apply Permutation_length. Qed.

Lemma same_mreport E c f : same c f -> manifolds_report E c = manifolds_report E f.
Proof.
  intros Hs. pose proof (same_length _ _ Hs) as Hl. rewrite (same_ws _ _ Hs).
  unfold manifolds_report. simpl. apply map_eq. intros k. rewrite !map_lookup_imap.
  destruct (s_current f !! k); simpl; [|done]. unfold manifold_report, worker_report. simpl. rewrite Hl. done.
Qed.

Lemma same_other E c f l f' b : same c f -> actor_of l = ByOthers b -> step (plain E) f l = Some f' ->
  exists c', step (plain E) c l = Some c' /\ same c' f'.
Proof.
  intros Hs Ha Hf. pose proof (same_ws c f Hs) as Hc.
  assert (Hs' : forall new, same (ws f (s_tomb f) (s_gors f) (new ++ s_log c)) (ws f (s_tomb f) (s_gors f) (new ++ s_log f))).
  { intros new. destruct Hs. by apply same_app. }
  destruct b.
  - assert (Hk : l = LKill \/ l <> LKill) by (destruct l; auto; right; discriminate). destruct Hk as [->|Hk].
    + simpl in *. simplify_eq. eexists. split; [done|]. rewrite Hc, kill_frame, (kill_ws _ f).
      destruct Hs. by apply same_app.
    + destruct (other_step _ _ _ _ Ha Hk Hf) as (u & evs & Hu & -> & Hev & Hst).
      rewrite (Hst c); [|rewrite Hc; split; auto]. eexists. split; [done|]. rewrite Hc. simpl. rewrite ws_ws.
      destruct Hs. by apply same_app.
  - destruct l; try discriminate; simpl in *.
    + destruct (0 <=? d)%Z; [|discriminate]. simplify_eq. eexists. split; [done|].
      rewrite Hc. destruct Hs as [_ H2 H3 H4]. split; simpl; auto.
    + assert (s_tomb c = s_tomb f) as -> by (rewrite Hc; done). destruct (t_dead (s_tomb f)); [|discriminate]. simplify_eq.
      eexists. split; [done|].
      assert (dead_report (plain E) c = dead_report (plain E) f) as ->.
      { unfold dead_report. rewrite (same_mreport _ _ _ Hs). rewrite Hc. done. }
      rewrite Hc. change (emit ?ev f) with (ws f (s_tomb f) (s_gors f) ([ev] ++ s_log f)). rewrite emit_ws. apply Hs'.
    + assert (s_tomb c = s_tomb f) as -> by (rewrite Hc; done). destruct (t_dead (s_tomb f)); [|discriminate]. simplify_eq.
      eexists. split; [done|].
      assert (wait_result (plain E) c = wait_result (plain E) f) as -> by (rewrite Hc; done).
      rewrite Hc. change (emit ?ev f) with (ws f (s_tomb f) (s_gors f) ([ev] ++ s_log f)). rewrite emit_ws. apply Hs'.
Qed.

Lemma same_recv E c f l todo f1 : same c f -> recv (plain E) f l = Some (todo, f1) ->
  exists c1, recv (plain E) c l = Some (todo, c1) /\ same c1 f1.
Proof.
  intros Hs Hf. pose proof (same_ws c f Hs) as Hc.
  assert (Hw : forall w : state -> state,
    (forall L, w (ws f (s_tomb f) (s_gors f) L) = ws (w f) (s_tomb (w f)) (s_gors (w f)) L) ->
    same (w c) (w f)).
  { intros w Hww. pose proof (Hww (s_log f)) as H0. rewrite ws_self in H0. rewrite Hc, Hww.
    assert (X := same_app (w f) (s_tomb (w f)) (s_gors (w f)) [] (s_log c) (s_log f)). simpl in X.
    rewrite <- H0 in X. apply X; apply Hs. }
  destruct l; simpl in *; try discriminate.
  - assert (s_running c = s_running f) as -> by (rewrite Hc; done).
    destruct (s_running f); [|discriminate]. simplify_eq. eauto.
  - assert (s_running c = s_running f) as -> by (rewrite Hc; done).
    destruct (s_running f); [|discriminate]. simplify_eq. eexists. split; [done|].
    rewrite !poll_plain.
    assert (Hpp : same (c <| s_polls ::= S |>) (f <| s_polls ::= S |>)).
    { apply (Hw (fun s => s <| s_polls ::= S |>)). done. }
    assert (live_report (plain E) (c <| s_polls ::= S |>) = live_report (plain E) (f <| s_polls ::= S |>)) as ->.
    { unfold live_report. rewrite (same_mreport _ _ _ Hpp). rewrite Hc. done. }
    rewrite (same_ws _ _ Hpp).
    change (emit ?ev (f <| s_polls ::= S |>)) with (ws (f <| s_polls ::= S |>) (s_tomb f) (s_gors f) ([ev] ++ s_log f)).
    rewrite emit_ws. destruct Hs. by apply same_app.
  - assert (s_running c && s_oneShot c && dying c = s_running f && s_oneShot f && dying f) as -> by (rewrite Hc; done).
    destruct (_ && _); [|discriminate]. simplify_eq. eauto.
  - assert (s_gors c = s_gors f) as -> by (rewrite Hc; done).
    destruct (s_gors f !! g) as [[n st sn ex al p]|] eqn:Hg; [|discriminate]. destruct p; try discriminate.
    assert (s_running c = s_running f) as -> by (rewrite Hc; done).
    destruct (s_running f); [|discriminate]. simplify_eq. eexists. split; [done|].
    apply (Hw (set_pc g _)). done.
  - assert (s_gors c = s_gors f) as -> by (rewrite Hc; done).
    destruct (s_gors f !! g) as [[n st sn ex al p]|] eqn:Hg; [|discriminate]. destruct p; try discriminate.
    assert (s_running c = s_running f) as -> by (rewrite Hc; done).
    destruct (s_running f); [|discriminate]. simplify_eq. eexists. split; [done|].
    apply (Hw (set_pc g _)). done.
Qed.

(** ** Runs of other goroutines *)

Definition busy_ok (l : label) : Prop := actor_of l = ByOthers true.

Lemma run_snoc E : forall ls s l s' s'', run E s ls = Some s' -> step E s' l = Some s'' -> run E s (ls ++ [l]) = Some s''.
Proof.
  induction ls as [|k ls IH]; simpl; intros s l s' s'' H1 H2; [simplify_eq; by rewrite H2|].
  destruct (step E s k); [|discriminate]. eauto.
Qed.
Lemma run_app E : forall ls1 ls2 s s' s'', run E s ls1 = Some s' -> run E s' ls2 = Some s'' -> run E s (ls1 ++ ls2) = Some s''.
Proof.
  induction ls1 as [|k ls IH]; simpl; intros ls2 s s' s'' H1 H2; [simplify_eq; done|].
  destruct (step E s k); [|discriminate]. eauto.
Qed.

Lemma other_keeps E s l s' : busy_ok l -> step (plain E) s l = Some s' ->
  s_polls s' = s_polls s /\ (dying s = true -> dying s' = true) /\ (fresh s -> fresh s').
Proof.
  intros Ha Hs. assert (Hk : l = LKill \/ l <> LKill) by (destruct l; auto; right; discriminate). destruct Hk as [->|Hk].
  - simpl in Hs. simplify_eq. rewrite kill_ws. split; [done|split; [|done]]. apply tomb_kill_dying.
  - destruct (other_step _ _ _ _ Ha Hk Hs) as (u & evs & Hu & -> & _ & _). split; [done|split; [done|]].
    intros Hf g r. simpl. destruct u as [[g' r']|]; simpl; [|apply Hf].
    destruct (decide (g = g')) as [->|Hne].
    + destruct (Hu g' r' eq_refl) as [r0 Hr0]. intros _. change (s_next (ws _ _ _ _)) with (s_next s). eauto.
    + rewrite lookup_insert_ne by done. apply Hf.
Qed.

Lemma others_keep E es : forall s s', Forall busy_ok es -> run (plain E) s es = Some s' ->
  s_polls s' = s_polls s /\ (dying s = true -> dying s' = true).
Proof.
  induction es as [|l es IH]; simpl; intros s s' Hf Hr; [by simplify_eq|].
  inversion Hf; subst. destruct (step (plain E) s l) as [s1|] eqn:Hs; [|discriminate].
  destruct (other_keeps _ _ _ _ H1 Hs) as (P1 & P2 & _). destruct (IH _ _ H2 Hr) as (Q1 & Q2).
  split; [congruence|auto].
Qed.

Lemma same_run E es : forall c f f', same c f -> Forall busy_ok es -> run (plain E) f es = Some f' ->
  exists c', run (plain E) c es = Some c' /\ same c' f'.
Proof.
  induction es as [|l es IH]; simpl; intros c f f' Hs Hf Hr; [simplify_eq; eauto|].
  inversion Hf; subst. destruct (step (plain E) f l) as [f1|] eqn:Hl; [|discriminate].
  destruct (same_other _ _ _ _ _ _ Hs H1 Hl) as (c1 & -> & Hs1). eauto.
Qed.

Lemma commute_run E a es : forall x y, fresh x -> act_ok a -> Forall busy_ok es -> run (plain E) x es = Some y ->
  (kind_of a = 2 -> dying x = dying y) ->
  exists z, run (plain E) (act_step (plain E) a x).2 es = Some z /\
    (act_step (plain E) a y).1 = (act_step (plain E) a x).1 /\ same z (act_step (plain E) a y).2.
Proof.
  induction es as [|l es IH]; simpl; intros x y Hf Hok He Hr Hp.
  { simplify_eq. eexists. split; [done|split; [done|apply same_refl]]. }
  inversion He; subst. destruct (step (plain E) x l) as [x1|] eqn:Hs; [|discriminate].
  destruct (other_keeps _ _ _ _ H1 Hs) as (_ & Hd1 & Hf1).
  destruct (others_keep _ _ _ _ H2 Hr) as (_ & Hd2).
  assert (Hpx : kind_of a = 2 -> dying x = dying x1).
  { intros Hk. specialize (Hp Hk). destruct (dying x), (dying x1); try done; [by rewrite Hd1 in *|].
    rewrite Hd2 in Hp; done. }
  assert (Hpy : kind_of a = 2 -> dying x1 = dying y) by (intros Hk; rewrite <- Hpx; auto).
  destruct (commute1 E a x l x1 Hf Hok H1 Hs Hpx) as (z1 & -> & Hp1 & Hs1).
  destruct (IH x1 y (Hf1 Hf) Hok H2 Hr Hpy) as (z2 & Hr2 & Hp2 & Hs2).
  destruct (same_run E es _ _ _ Hs1 H2 Hr2) as (z3 & Hr3 & Hs3).
  exists z3. split; [done|]. split; [congruence|]. eapply same_trans; eauto.
Qed.

(** ** The kills of a fine run, moved to the polls *)

Lemma step_preempt p E s l b : actor_of l = ByOthers b -> step (with_preempt p E) s l = step (plain E) s l.
Proof. by destruct l. Qed.

Lemma run_preempt p E es : forall s, Forall busy_ok es -> run (with_preempt p E) s es = run (plain E) s es.
Proof.
  induction es as [|l es IH]; intros s Hf; [done|]. inversion Hf; subst. simpl.
  rewrite (step_preempt p E s l true) by done. destruct (step (plain E) s l); auto.
Qed.

Lemma act_preempt p E a x :
  act_step (with_preempt p E) a x =
  act_step (plain E) a (if bool_decide (kind_of a = 2) && p (s_polls x) then kill_tomb None x else x).
Proof.
  destruct a; try reflexivity; simpl; unfold end_iteration; rewrite ?poll_plain; unfold poll; simpl;
    destruct (p (s_polls x)); reflexivity.
Qed.

Lemma kill_later s : fresh s -> later s (kill_tomb None s) /\ fresh (kill_tomb None s).
Proof. intros Hf. apply (act_later (mkEnv (mkConfig (fun _ => false) (fun e _ => e) None 0 0 0) (fun _ => false) (fun _ _ => 0) (fun _ d _ => d) (fun _ _ _ => None) (fun _ => false) (fun _ _ => 0)) AKillSelf s Hf). Qed.

(** The polls of a fine run, and what they saw *)
Definition poll_of (a : act) (s : state) : list (nat * bool) :=
  if decide (kind_of a = 2) then [(s_polls s, dying s)] else [].
Inductive grun (E : env) : fstate -> list (nat * bool) -> Prop :=
  | gr_init : grun E finit []
  | gr_other fs seen l fs' : grun E fs seen -> fstep E fs (FOther l) = Some fs' -> grun E fs' seen
  | gr_recv fs seen l fs' : grun E fs seen -> fstep E fs (FRecv l) = Some fs' ->
      grun E fs' ((match l with LReport => [(s_polls (f_s fs), dying (f_s fs))] | _ => [] end) ++ seen)
  | gr_loop fs seen a todo fs' : grun E fs seen -> f_todo fs = a :: todo -> fstep E fs FLoop = Some fs' ->
      grun E fs' (poll_of a (f_s fs) ++ seen).

Lemma frun_snoc E : forall ls s l s' s'', frun E s ls = Some s' -> fstep E s' l = Some s'' -> frun E s (ls ++ [l]) = Some s''.
Proof.
  induction ls as [|k ls IH]; simpl; intros s l s' s'' H1 H2; [simplify_eq; by rewrite H2|].
  destruct (fstep E s k); [|discriminate]. eauto.
Qed.
Lemma frun_last E : forall ls s l s'', frun E s (ls ++ [l]) = Some s'' ->
  exists s', frun E s ls = Some s' /\ fstep E s' l = Some s''.
Proof.
  induction ls as [|k ls IH]; simpl; intros s l s'' H.
  - destruct (fstep E s l) eqn:He; [|discriminate]. simplify_eq. eauto.
  - destruct (fstep E s k); [|discriminate]. eauto.
Qed.

Lemma freach_grun E fs : freachable E fs -> exists seen, grun E fs seen.
Proof.
  intros [ls Hr]. revert fs Hr. induction ls as [|l ls IH] using rev_ind; intros fs Hr.
  { simpl in Hr. simplify_eq. exists []. constructor. }
  apply frun_last in Hr as (fs1 & Hr & Hs). destruct (IH _ Hr) as [seen Hg].
  destruct l.
  - eexists. eapply gr_other; eauto.
  - eexists. eapply gr_recv; eauto.
  - pose proof Hs as Hs'. unfold fstep in Hs'. destruct (f_todo fs1) eqn:Ht; [discriminate|].
    eexists. eapply gr_loop; eauto.
Qed.

Lemma act_polls E a s : s_polls s + (if decide (kind_of a = 2) then 1 else 0) <= s_polls (act_step (plain E) a s).2.
Proof.
  destruct a; unfold act_step; try (simpl; lia); simpl.
  - destruct (i_stopping _ || i_stopped _); simpl; lia.
  - rewrite kill_ws. simpl. lia.
  - rewrite kill_ws. simpl. lia.
  - destruct (s_manifolds s !! n); [simpl; lia|]. destruct (check_acyclic _ _ _ _); simpl; lia.
  - destruct (i_worker _); simpl; lia.
  - unfold end_iteration. rewrite poll_plain. cbv zeta. destruct (_ && _); simpl; lia.
Qed.

Lemma grun_seen E fs seen : grun E fs seen ->
  NoDup (seen.*1) /\ forall k b, (k, b) ∈ seen -> k < s_polls (f_s fs).
Proof.
  assert (Hadd : forall n m b (seen : list (nat * bool)), n < m -> NoDup (seen.*1) -> (forall k b, (k, b) ∈ seen -> k < n) ->
    NoDup (((n, b) :: seen).*1) /\ forall k b', (k, b') ∈ (n, b) :: seen -> k < m).
  { intros n m b sn Hnm Hd Hl. split.
    - simpl. constructor; [|done]. intros Hin. apply elem_of_list_fmap in Hin as ([k b'] & Hk & Hin).
      simpl in Hk. subst. apply Hl in Hin. lia.
    - intros k b' Hin. apply elem_of_cons in Hin as [Hin|Hin]; [by simplify_eq|]. apply Hl in Hin. lia. }
  induction 1 as [|fs seen l fs' Hg [IH1 IH2] Hs|fs seen l fs' Hg [IH1 IH2] Hs|fs seen a todo fs' Hg [IH1 IH2] Ht Hs].
  - split; [constructor|]. intros k b Hin. by apply elem_of_nil in Hin.
  - split; [done|]. intros k b Hin. apply IH2 in Hin. revert Hs. simpl.
    destruct (actor_of l) as [|b'] eqn:Ha; [done|].
    assert (forall s', step (plain E) (f_s fs) l = Some s' -> s_polls s' = s_polls (f_s fs)) as Hpl.
    { intros s' Hst. destruct b'; [by apply (other_keeps _ _ _ _ Ha Hst)|].
      destruct l; try discriminate; simpl in Hst; case_match; try discriminate; simplify_eq; done. }
    destruct (step (plain E) (f_s fs) l) as [s'|] eqn:Hst.
    + specialize (Hpl s' eq_refl). destruct b', (f_todo fs); intros; simplify_eq; simpl; lia.
    + destruct b', (f_todo fs); intros; simplify_eq.
  - revert Hs. simpl. destruct (f_todo fs); [|done].
    destruct (recv (plain E) (f_s fs) l) as [[todo s']|] eqn:Hr; [|done]. intros [= <-]. simpl.
    destruct l; simpl in Hr; try discriminate.
    + destruct (s_running _); [|discriminate]. simplify_eq. simpl. eauto.
    + destruct (s_running _); [|discriminate]. simplify_eq. apply Hadd; auto.
    + destruct (_ && _); [|discriminate]. simplify_eq. simpl. eauto.
    + destruct (s_gors _ !! g) as [[? ? ? ? ? p]|]; [|discriminate]. destruct p; try discriminate.
      destruct (s_running _); [|discriminate]. simplify_eq. simpl. eauto.
    + destruct (s_gors _ !! g) as [[? ? ? ? ? p]|]; [|discriminate]. destruct p; try discriminate.
      destruct (s_running _); [|discriminate]. simplify_eq. simpl. eauto.
  - revert Hs. simpl. rewrite Ht. destruct (act_step (plain E) a (f_s fs)) as [push s'] eqn:Ha.
    intros [= <-]. simpl. pose proof (act_polls E a (f_s fs)) as Hp. rewrite Ha in Hp. simpl in Hp.
    unfold poll_of. destruct (decide (kind_of a = 2)).
    + apply Hadd; auto. lia.
    + simpl. split; [done|]. intros k b Hin. apply IH2 in Hin. lia.
Qed.

(** ** The simulation *)

Record sim (E : env) (p : nat -> bool) (fs : fstate) : Prop := {
  si_ok : Forall act_ok (f_todo fs);
  si_run : exists c0 ls, run (with_preempt p E) init ls = Some c0 /\
    match f_todo fs with
    | [] => same c0 (f_s fs)
    | _ => exists l0 x es y,
        (forall e, exec (with_preempt p E) (f_todo fs) x e -> step (with_preempt p E) c0 l0 = Some e) /\
        run (plain E) x es = Some y /\ Forall busy_ok es /\ fresh x /\ same y (f_s fs)
    end
}.

Lemma same_dying c f : same c f -> dying c = dying f.
Proof. intros H. rewrite (same_ws _ _ H). done. Qed.
Lemma same_polls c f : same c f -> s_polls c = s_polls f.
Proof. intros H. rewrite (same_ws _ _ H). done. Qed.

Lemma sim_act E p a x es y f : fresh x -> act_ok a -> Forall busy_ok es -> run (plain E) x es = Some y -> same y f ->
  (forall k b, (k, b) ∈ poll_of a f -> p k = b) ->
  (act_step (plain E) a f).1 = (act_step (with_preempt p E) a x).1 /\
  fresh (act_step (with_preempt p E) a x).2 /\
  exists z, run (plain E) (act_step (with_preempt p E) a x).2 es = Some z /\ same z (act_step (plain E) a f).2.
Proof.
  intros Hf Hok He Hr Hs Hp. rewrite act_preempt.
  set (x1 := if bool_decide (kind_of a = 2) && p (s_polls x) then kill_tomb None x else x).
  assert (H1 : fresh x1 /\ exists z1, run (plain E) x1 es = Some z1 /\ same z1 f /\ (kind_of a = 2 -> dying x1 = dying z1)).
  { destruct (others_keep _ _ _ _ He Hr) as [Hpx Hdx].
    unfold x1. unfold poll_of in Hp. destruct (decide (kind_of a = 2)) as [Hk|Hk].
    - rewrite bool_decide_true by done. specialize (Hp _ _ (elem_of_list_here _ _)).
      rewrite <- (same_polls _ _ Hs), Hpx, <- (same_dying _ _ Hs) in Hp. rewrite Hp.
      destruct (dying y) eqn:Hd; simpl.
      + split; [by apply kill_later|].
        destruct (commute_run E AKillSelf es x y Hf I He Hr ltac:(done)) as (z & Hz & _ & Hsz). simpl in Hz, Hsz.
        rewrite kill_none_dying in Hsz by done. exists z. split; [done|]. split; [by eapply same_trans|].
        intros _. rewrite (same_dying _ _ Hsz), Hd. rewrite kill_ws. unfold dying. simpl.
        unfold t_dying, tomb_kill. destruct (t_reason (s_tomb x)) as [|[]] eqn:Hrr; simpl; rewrite ?Hrr; done.
      + split; [done|]. exists y. split; [done|split; [done|]]. intros _. destruct (dying x); [|done].
        rewrite Hdx in Hd; done.
    - rewrite bool_decide_false by done. simpl. split; [done|]. exists y. done. }
  destruct H1 as (Hf1 & z1 & Hr1 & Hs1 & Hd1).
  destruct (commute_run E a es x1 z1 Hf1 Hok He Hr1 Hd1) as (z & Hz & Hpu & Hsz).
  destruct (same_act E a z1 f Hok Hs1) as [Hpu' Hs'].
  split; [congruence|]. split; [by apply act_later|]. exists z. split; [done|]. by eapply same_trans.
Qed.

Lemma recv_preempt p E s l : (l = LReport -> p (s_polls s) = dying s) ->
  recv (with_preempt p E) s l = recv (plain E) s l.
Proof.
  intros Hp. destruct l; try reflexivity. simpl. destruct (s_running s); [|done].
  rewrite poll_plain. unfold poll. simpl. rewrite Hp by done. destruct (dying s) eqn:Hd; [|reflexivity].
  rewrite kill_none_dying by done. reflexivity.
Qed.

Lemma recv_fresh E s l todo s1 : recv E s l = Some (todo, s1) -> fresh s -> fresh s1 /\ Forall act_ok todo /\ todo <> [].
Proof.
  intros Hr Hf. destruct l; simpl in Hr; try discriminate.
  - destruct (s_running s); [|discriminate]. simplify_eq. split; [done|]. split; [repeat constructor|done].
  - destruct (s_running s); [|discriminate]. simplify_eq. split; [|split; [repeat constructor|done]].
    unfold poll. destruct (e_preempt E (s_polls s)); [|exact Hf]. apply (kill_later s Hf).
  - destruct (_ && _); [|discriminate]. simplify_eq. split; [done|]. split; [repeat constructor|done].
  - destruct (s_gors s !! g) as [[n f sn ex al p]|] eqn:Hg; [|discriminate]. destruct p; try discriminate.
    destruct (s_running s); [|discriminate]. simplify_eq. split; [|split; [repeat constructor|done]].
    rewrite (set_pc_ws _ _ _ _ Hg). intros g' r'. simpl. change (s_next (ws _ _ _ _)) with (s_next s).
    destruct (decide (g' = g)) as [->|Hne]; [intros _; eauto|]. rewrite lookup_insert_ne by done. apply Hf.
  - destruct (s_gors s !! g) as [[n f sn ex al p]|] eqn:Hg; [|discriminate]. destruct p; try discriminate.
    destruct (s_running s); [|discriminate]. simplify_eq. split; [|split; [repeat constructor|done]].
    rewrite (set_pc_ws _ _ _ _ Hg). intros g' r'. simpl. change (s_next (ws _ _ _ _)) with (s_next s).
    destruct (decide (g' = g)) as [->|Hne]; [intros _; eauto|]. rewrite lookup_insert_ne by done. apply Hf.
Qed.

Lemma grun_sim E p fs seen : grun E fs seen -> (forall k b, (k, b) ∈ seen -> p k = b) -> sim E p fs.
Proof.
  induction 1 as [|fs seen l fs' Hg IH Hs|fs seen l fs' Hg IH Hs|fs seen a todo fs' Hg IH Ht Hs]; intros Hp.
  - split; [constructor|]. exists init, []. split; [done|]. apply same_refl.
  - destruct (IH Hp) as [Hok (c0 & ls & Hr & Hm)].
    simpl in Hs. destruct (actor_of l) as [|b] eqn:Ha; [discriminate|].
    destruct (step (plain E) (f_s fs) l) as [s'|] eqn:Hst.
    2:{ destruct b, (f_todo fs); discriminate. }
    destruct (f_todo fs) as [|a t] eqn:Ht.
    + assert (Some (mkFine s' []) = Some fs') as [= <-] by (destruct b; done).
      split; [constructor|]. destruct (same_other _ _ _ _ _ _ Hm Ha Hst) as (c' & Hc' & Hsm).
      exists c', (ls ++ [l]). split; [|done]. eapply run_snoc; [done|]. by erewrite step_preempt.
    + destruct b; [|discriminate]. simplify_eq. destruct Hm as (l0 & x & es & y & Hx & Hes & Hb & Hf & Hsm).
      split; [done|]. exists c0, ls. split; [done|]. simpl.
      destruct (same_other _ _ _ _ _ _ Hsm Ha Hst) as (y' & Hy' & Hsm').
      exists l0, x, (es ++ [l]), y'. split; [done|]. split; [by eapply run_snoc|]. split; [|done].
      apply Forall_app. split; [done|]. by constructor.
  - destruct (IH ltac:(intros; apply Hp; set_solver)) as [Hok (c0 & ls & Hr & Hm)].
    simpl in Hs. destruct (f_todo fs); [|discriminate].
    destruct (recv (plain E) (f_s fs) l) as [[todo s']|] eqn:Hrc; [|discriminate]. simplify_eq.
    destruct (same_recv _ _ _ _ _ _ Hm Hrc) as (c1 & Hc1 & Hsm).
    assert (Hf0 : fresh c0). { intros g r. apply (v_next _ (reachable_inv _ _ (ex_intro _ _ Hr))). }
    assert (Hrp : recv (with_preempt p E) c0 l = Some (todo, c1)).
    { rewrite recv_preempt; [done|]. intros ->. rewrite (same_polls _ _ Hm), (same_dying _ _ Hm). apply Hp. simpl. set_solver. }
    destruct (recv_fresh _ _ _ _ _ Hrp Hf0) as (Hf1 & Hok1 & Hne).
    split; [done|]. exists c0, ls. split; [done|]. simpl.
    destruct todo as [|a t]; [done|].
    exists l, c1, [], c1. split; [intros e He; by eapply recv_exec|]. split; [done|]. split; [constructor|]. done.
  - destruct (IH ltac:(intros; apply Hp; set_solver)) as [Hok (c0 & ls & Hr & Hm)].
    rewrite Ht in Hok, Hm. destruct Hm as (l0 & x & es & y & Hx & Hes & Hb & Hf & Hsm).
    inversion Hok as [|?? Hoka Hokt]; subst.
    destruct (sim_act E p a x es y (f_s fs) Hf Hoka Hb Hes Hsm) as (Hpu & Hf' & z & Hz & Hsz).
    { intros k b Hk. apply Hp. set_solver. }
    simpl in Hs. rewrite Ht in Hs. rewrite (surjective_pairing (act_step (plain E) a (f_s fs))) in Hs. simplify_eq.
    assert (Hx' : forall e, exec (with_preempt p E) ((act_step (plain E) a (f_s fs)).1 ++ todo)
        (act_step (with_preempt p E) a x).2 e -> step (with_preempt p E) c0 l0 = Some e).
    { intros e He. apply Hx. constructor. rewrite <- Hpu. done. }
    split; simpl.
    { apply Forall_app. split; [by apply act_push_ok|done]. }
    destruct ((act_step (plain E) a (f_s fs)).1 ++ todo) as [|b t] eqn:Htd.
    + exists z, (ls ++ [l0] ++ es). split; [|done]. eapply run_app; [done|]. simpl.
      rewrite (Hx' _ (exec_nil _ _)). rewrite run_preempt; done.
    + exists c0, ls. split; [done|]. exists l0, (act_step (with_preempt p E) a x).2, es, z. done.
Qed.

(** Every state the loop goroutine can reach between two messages, with other goroutines stepping at any time,
    is a state of the model with atomic handlers. *)
Theorem fine_reduction E fs : freachable E fs -> f_todo fs = [] ->
  exists p s, reachable (with_preempt p E) s /\ same s (f_s fs).
Proof.
  intros Hf Ht. destruct (freach_grun _ _ Hf) as [seen Hg]. destruct (grun_seen _ _ _ Hg) as [Hnd _].
  set (p := fun k => default false ((list_to_map seen : gmap nat bool) !! k)).
  destruct (grun_sim E p fs seen Hg) as [_ (c0 & ls & Hr & Hm)].
  { intros k b Hin. unfold p. erewrite elem_of_list_to_map_1; [|done|exact Hin]. done. }
  rewrite Ht in Hm. exists p, c0. split; [by exists ls|done].
Qed.
