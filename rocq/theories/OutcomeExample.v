(** The same manifolds installed in two orders, used by the Examples of C85. *)
From stdpp Require Import gmap strings list relations.
From Coq Require Import ZArith.
From RecordUpdate Require Import RecordSet.
From Verif Require Import Err Tomb Snapshot Engine EngineSpec EngineProgressSpec EngineExample FairSpec FairEngineSpec FairProofs FairEngine FairExample
  OutcomeSpec OutcomeProofs.
Import RecordSetNotations.

(** api first, which fails for want of db, then db, then api again (attempts 0, 1, 2); compare [ls_up] *)
Definition ls_swapped : list label :=
  [LInstall "api" m_api; LDelayFire 0; LStartRet 0 (inr (EConst KMissing)); LExpire 0; LStopped 0; LInstall "db" m_db] ++ up 1 20 ++ [LTick 5] ++ up 2 21.
(** ui too, but no db *)
Definition ls_no_db : list label :=
  [LInstall "api" m_api; LDelayFire 0; LStartRet 0 (inr (EConst KMissing)); LExpire 0; LStopped 0;
   LInstall "self" m_self; LInstall "ui" m_ui; LDelayFire 1; LStartRet 1 (inl (WExt 5)); LExpire 1; LStarted 1;
   LDelayFire 2; LStartRet 2 (inr (EConst KMissing)); LExpire 2; LStopped 2].
(** Start func 1 (of db) always succeeds, 2 (of api) needs db. *)
Definition ex_runs (f : nat) (l : list string) : bool := match f with 2 => bool_decide ("db" ∈ l) | _ => true end.

Lemma quietb_quiet s : quietb s = true -> quiet s.
Proof.
  unfold quietb. rewrite andb_true_iff, forallb_forall. intros [_ Hg] g r H.
  assert (Hin : In (g, r) (map_to_list (s_gors s))) by (apply elem_of_list_In; by apply elem_of_map_to_list).
  specialize (Hg _ Hin). cbn in Hg. destruct (g_pc r); try done. intros n' w' Hk. apply negb_true_iff in Hg.
  eapply ex_absent in Hg; [by apply Hg in Hk|]. cbn. by apply bool_decide_eq_true_2.
Qed.
Lemma quietb_converged E s : reachable E s -> quietb s = true -> converged (s_log s).
Proof.
  intros Hr H. apply (quiet_converged E); [done| |by apply quietb_quiet].
  unfold quietb in H. apply andb_true_iff in H as [H _]. by apply negb_true_iff in H.
Qed.

(** Every Start call of a log, checked against the manifold and the snapshot of its attempt *)
Fixpoint starts_so (ok : manifold -> snap -> bool) (full l : list event) : bool :=
  match l with
  | [] => true
  | EvAttempt g n sn _ _ :: l' =>
    match installed l' n with
    | Some m => forallb (fun ev => match ev with
        | EvStartRet g' _ r => negb (Nat.eqb g' g) || Bool.eqb (ok m sn) (match r with inl _ => true | inr _ => false end)
        | _ => true end) full
    | None => true
    end && starts_so ok full l'
  | _ :: l' => starts_so ok full l'
  end.
Lemma starts_so_ok ok full l pre g n sn t d post m r : starts_so ok full l = true -> l = pre ++ EvAttempt g n sn t d :: post -> installed post n = Some m ->
  EvStartRet g n r ∈ full -> (ok m sn = true <-> exists w, r = inl w).
Proof.
  intros H -> Hi Hin. revert H. induction pre as [|ev pre IH]; cbn [app starts_so].
  - rewrite andb_true_iff. intros [H _]. rewrite Hi in H. rewrite forallb_forall in H. apply elem_of_list_In in Hin. specialize (H _ Hin).
    cbn in H. rewrite Nat.eqb_refl in H. cbn in H. apply Bool.eqb_prop in H. rewrite H. destruct r; split; try done; [by eexists|by intros [w [=]]].
  - intros H. apply IH. destruct ev; try done. by apply andb_true_iff in H as [_ H].
Qed.
Lemma ex_predictable runs log : starts_so (fun m sn => runs (m_start m) (given m sn)) log log = true -> predictable runs log.
Proof. intros H pre g n sn t d post m r Heq Hi Hin. by eapply (starts_so_ok _ _ _ _ _ _ _ _ _ _ _ _ H). Qed.
Definition all_given (m : manifold) (sn : snap) : bool :=
  forallb (fun x => match sn_workers sn !! x with Some (Some _) => true | _ => false end) (m_inputs m).
Lemma ex_needs_all log : starts_so all_given log log = true -> needs_all log.
Proof.
  intros H pre g n sn t d post m r Heq Hi Hin. rewrite <- (starts_so_ok _ _ _ _ _ _ _ _ _ _ _ _ H Heq Hi Hin).
  unfold all_given. rewrite forallb_forall. split; intros Hx x Hy.
  - apply elem_of_list_In in Hy. destruct (Hx x Hy) as [w Hw]. by rewrite Hw.
  - apply elem_of_list_In in Hy. specialize (Hx x Hy). destruct (sn_workers sn !! x) as [[w|]|]; [by exists w|done|done].
Qed.

Definition is_exit_ev (g : nat) (ev : event) : bool := match ev with EvExit g' _ _ => bool_decide (g' = g) | _ => false end.
Fixpoint none_retiredb (l : list event) : bool :=
  match l with
  | [] => true
  | EvStopped g _ _ e _ :: l' => (negb (terminal e) || negb (existsb (is_exit_ev g) l') || existsb (is_cancel_ev g) l') && none_retiredb l'
  | _ :: l' => none_retiredb l'
  end.
Lemma ex_none_retired log : none_retiredb log = true -> none_retired log.
Proof.
  intros H pre g n raw e t post -> Hin. revert H. induction pre as [|ev pre IH]; cbn [app none_retiredb].
  - rewrite !andb_true_iff, !orb_true_iff, !negb_true_iff. intros [[[H|H]|H] _]; [by right| |].
    + eapply ex_absent in H; [by apply H in Hin|]. cbn. by apply bool_decide_eq_true_2.
    + left. apply existsb_exists in H as (ev & Hev & H). destruct ev; try done. cbn in H. apply bool_decide_eq_true in H as ->.
      eexists. apply elem_of_list_In. exact Hev.
  - intros H. apply IH. destruct ev; try done. by apply andb_true_iff in H as [_ H].
Qed.

(** What is installed, read off the events that install and uninstall *)
Definition is_inst (ev : event) : bool := match ev with EvInstalled _ _ | EvUninstall _ => true | _ => false end.
Lemma installed_inst log n : installed log n = installed (List.filter is_inst log) n.
Proof. induction log as [|ev log IH]; [done|]. destruct ev; cbn [List.filter is_inst installed]; rewrite ?IH; done. Qed.
Lemma swapped_same n : installed [EvInstalled "api" m_api; EvInstalled "db" m_db] n = installed [EvInstalled "db" m_db; EvInstalled "api" m_api] n.
Proof. cbn [installed]. destruct (decide (n = "api")) as [->|Hn]; [done|]. destruct (decide (n = "db")) as [->|Hn']; [done|]. by rewrite !bool_decide_eq_false_2. Qed.

(** Facts about all states of an execution in which the clock runs for ever *)
Lemma ticking_all {A} (f : list event -> A) (v : A) E ls i :
  map (fun j => f (s_log (follow (step E) init (ticking ls) j))) (seq i (S (length ls - i))) = repeat v (S (length ls - i)) ->
  forall j, i <= j -> f (s_log (follow (step E) init (ticking ls) j)) = v.
Proof.
  intros H.
  assert (Hx : forall j, i <= j <= length ls \/ j = i -> f (s_log (follow (step E) init (ticking ls) j)) = v).
  { intros j Hj. assert (In (f (s_log (follow (step E) init (ticking ls) j))) (repeat v (S (length ls - i)))) as Hin.
    - rewrite <- H. apply (List.in_map (fun j => f (s_log (follow (step E) init (ticking ls) j)))). apply in_seq. lia.
    - by apply List.repeat_spec in Hin. }
  intros j Hj. destruct (decide (j <= length ls)) as [Hle|Hgt]; [apply Hx; lia|].
  replace j with (length ls + (j - length ls)) by lia. destruct (ticking_state E init ls (j - length ls)) as (t & -> & _).
  destruct (decide (i <= length ls)) as [Hi|Hi]; [apply Hx; lia|].
  specialize (Hx i (or_intror eq_refl)). replace i with (length ls + (i - length ls)) in Hx by lia.
  destruct (ticking_state E init ls (i - length ls)) as (t' & Ht' & _). rewrite Ht' in Hx. exact Hx.
Qed.
Lemma ticking_alive E ls :
  map (fun j => existsb is_dying_ev (s_log (follow (step E) init (ticking ls) j))) (seq 0 (S (length ls - 0))) = repeat false (S (length ls - 0)) ->
  forall j, ~ is_dying (s_log (follow (step E) init (ticking ls) j)).
Proof. intros H j. apply ex_alive. apply (ticking_all (existsb is_dying_ev) false E ls 0 H). lia. Qed.
Lemma ticking_steady runs E ls :
  map (fun j => let log := s_log (follow (step E) init (ticking ls) j) in none_retiredb log && starts_so (fun m sn => runs (m_start m) (given m sn)) log log)
    (seq 0 (S (length ls - 0))) = repeat true (S (length ls - 0)) ->
  forall j, none_retired (s_log (follow (step E) init (ticking ls) j)) /\ predictable runs (s_log (follow (step E) init (ticking ls) j)).
Proof.
  intros H j.
  pose proof (ticking_all (fun log => none_retiredb log && starts_so (fun m sn => runs (m_start m) (given m sn)) log log) true E ls 0 H j ltac:(lia)) as Hx.
  cbn beta in Hx. apply andb_true_iff in Hx as [H1 H2]. split; [by apply ex_none_retired|by apply ex_predictable].
Qed.
Lemma ticking_installed L1 L2 E1 ls1 i1 E2 ls2 i2 : (forall n, installed L1 n = installed L2 n) ->
  map (fun j => List.filter is_inst (s_log (follow (step E1) init (ticking ls1) j))) (seq i1 (S (length ls1 - i1))) = repeat L1 (S (length ls1 - i1)) ->
  map (fun j => List.filter is_inst (s_log (follow (step E2) init (ticking ls2) j))) (seq i2 (S (length ls2 - i2))) = repeat L2 (S (length ls2 - i2)) ->
  forall j1 j2 n, i1 <= j1 -> i2 <= j2 ->
  installed (s_log (follow (step E1) init (ticking ls1) j1)) n = installed (s_log (follow (step E2) init (ticking ls2) j2)) n.
Proof.
  intros HL H1 H2 j1 j2 n Hj1 Hj2. rewrite installed_inst, (installed_inst (s_log (follow (step E2) _ _ _))).
  rewrite (ticking_all (List.filter is_inst) L1 E1 ls1 i1 H1 j1 Hj1), (ticking_all (List.filter is_inst) L2 E2 ls2 i2 H2 j2 Hj2). apply HL.
Qed.
Lemma runs_now log n g w : registered log n = Some (g, w) -> running log n.
Proof. intros H. by exists (g, w). Qed.
Lemma runs_not log n : registered log n = None -> ~ running log n.
Proof. intros H [x Hx]. congruence. Qed.
Lemma ex_installed L1 L2 log1 log2 : (forall n, installed L1 n = installed L2 n) -> List.filter is_inst log1 = L1 -> List.filter is_inst log2 = L2 ->
  forall n, installed log1 n = installed log2 n.
Proof. intros HL <- <- n. by rewrite (installed_inst log1), (installed_inst log2). Qed.

(** db is up; db was up and has exited with nil *)
Definition ls_one : list label := LInstall "db" m_db :: up 0 10.
Definition ls_retired : list label := ls_one ++ down 0 None.
Lemma retired_differs : exists E runs s1 s2 n, reachable E s1 /\ reachable E s2 /\
  ~ is_dying (s_log s1) /\ ~ is_dying (s_log s2) /\ converged (s_log s1) /\ converged (s_log s2) /\
  predictable runs (s_log s1) /\ predictable runs (s_log s2) /\ (forall k, installed (s_log s1) k = installed (s_log s2) k) /\
  running (s_log s1) n /\ ~ running (s_log s2) n.
Proof.
  exists ex_env, ex_runs, (ex_state ex_env ls_one), (ex_state ex_env ls_retired), "db".
  split; [apply ex_reach; ex_go|]. split; [apply ex_reach; ex_go|]. split; [apply ex_alive; ex_go|]. split; [apply ex_alive; ex_go|].
  split; [apply (quietb_converged ex_env); [apply ex_reach|]; ex_go|]. split; [apply (quietb_converged ex_env); [apply ex_reach|]; ex_go|].
  split; [apply ex_predictable; ex_go|]. split; [apply ex_predictable; ex_go|].
  split; [apply (ex_installed [EvInstalled "db" m_db] _ _ _ (fun _ => eq_refl)); ex_go|].
  split; [apply (runs_now _ _ 0 (WExt 10)); ex_go|apply runs_not; ex_go].
Qed.
