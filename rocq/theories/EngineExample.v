(** Concrete executions of the engine model, used by the Examples beside the property theorems. *)
From stdpp Require Import gmap strings list.
From Coq Require Import ZArith.
From Verif Require Import Err Snapshot Engine.
Local Open Scope Z_scope.

(** ErrorDelay 3, BounceDelay 1, BackoffResetTime 100; [EUser 99] and [EUser 98] are fatal, the first one wins. *)
Definition ex_cfg : config := mkConfig
  (fun e => match e with Some (EUser n) => bool_decide (n = 99%nat \/ n = 98%nat) | _ => false end)
  (fun e worst => match worst with None => e | Some _ => worst end)
  (Some (fun e => match e with Some e => Some (EWrap (MsgNote 1) e) | None => None end)) 3 1 100.
(** No Kill lands in the middle of a handler; maps are ranged over by name length; backoff adds one per error. *)
Definition ex_env : env := mkEnv ex_cfg (fun _ => false) (fun _ n => String.length n) (fun _ d r => d + Z.of_nat r) (fun _ _ _ => None) Nat.even (fun _ w => w * 10)%nat.
(** A Kill lands just before the loop's poll number k. *)
Definition ex_env_kill (k : nat) : env := mkEnv ex_cfg (fun j => bool_decide (j = k)) (fun _ n => String.length n) (fun _ d r => d + Z.of_nat r) (fun _ _ _ => None) Nat.even (fun _ w => w * 10)%nat.

(** "db" has no inputs, "api" needs "db", "ui" needs both; "self" is util.go:85 SelfManifold. *)
Definition m_db : manifold := mkManifold [] 1 None (Some 101%nat).
Definition m_api : manifold := mkManifold ["db"] 2 (Some (fun e => match e with Some (EUser 5) => Some (EConst KUninstall) | _ => e end)) (Some 102%nat).
Definition m_ui : manifold := mkManifold ["db"; "api"] 3 None None.
Definition m_self : manifold := mkManifold [] 4 None None.

Definition up (g w : nat) : list label := [LDelayFire g; LStartRet g (inl (WExt w)); LExpire g; LStarted g].
Definition down (g : nat) (e : option err) : list label := [LExit g e; LStopped g].

(** db and api are installed and start (attempts 0 and 1) *)
Definition ls_up : list label := LInstall "db" m_db :: up 0 10 ++ LInstall "api" m_api :: [LDelayFire 1; LGet 1 "db" (Some 7%nat)] ++ [LStartRet 1 (inl (WExt 11)); LExpire 1; LStarted 1].
(** db fails: it is restarted (attempt 2), api is asked to stop *)
Definition ls_fail : list label := ls_up ++ down 0 (Some (EUser 1)).
(** api stops and is restarted (attempt 3) while db is down; its Start fails with ErrMissing *)
Definition ls_miss : list label := ls_fail ++ down 1 None ++ [LTick 2; LDelayFire 3; LGet 3 "db" None; LStartRet 3 (inr (EWrap (MsgNote 0) (EConst KMissing))); LExpire 3; LStopped 3].
(** db comes back, so api is started again (attempt 4) *)
Definition ls_back : list label := ls_miss ++ [LTick 5] ++ up 2 12.
Definition ls_again : list label := ls_back ++ [LTick 5] ++ up 4 14.
(** api ends with an error its Filter turns into ErrUninstall *)
Definition ls_uninst : list label := ls_again ++ down 4 (Some (EUser 5)).
Definition ls_reinst : list label := ls_uninst ++ LInstall "api" m_db :: up 5 15.
(** api ends with a fatal error; everything stops *)
Definition ls_fatal : list label := ls_again ++ [LReport] ++ down 4 (Some (EUser 99)).
Definition ls_dying : list label := ls_fatal ++ [LReport; LDying].
Definition ls_dead : list label := ls_dying ++ down 2 (Some (EUser 98)) ++ [LReportDead; LWait].
(** a bounce arrives while api is still waiting to start *)
Definition ls_abort : list label := LInstall "db" m_db :: up 0 10 ++ [LInstall "api" m_api; LExit 0 None; LStopped 0].

Definition ex_state (E : env) (ls : list label) : state := default init (run E init ls).
Definition ex_ok (E : env) (ls : list label) : bool := match run E init ls with Some _ => true | None => false end.
Lemma ex_reach E ls : ex_ok E ls = true -> reachable E (ex_state E ls).
Proof. unfold ex_ok, ex_state. destruct (run E init ls) as [s|] eqn:H; [|done]. intros _. by exists ls. Qed.

(** The log around its k-th newest event *)
Definition later (k : nat) (s : state) : list event := take k (s_log s).
Definition before (k : nat) (s : state) : list event := drop (S k) (s_log s).

(** Membership in concrete logs, decided by computation *)
Definition is_dying_ev (ev : event) : bool := match ev with EvDying => true | _ => false end.
Definition is_cancel_ev (g : nat) (ev : event) : bool := match ev with EvCancel g' _ => bool_decide (g' = g) | _ => false end.
Lemma ex_absent (p : event -> bool) log : existsb p log = false -> forall ev, p ev = true -> ev ∉ log.
Proof.
  induction log as [|x log IH]; simpl; intros H ev Hp; [apply not_elem_of_nil|].
  apply orb_false_iff in H as [H1 H2]. intros [->|Hx]%elem_of_cons; [congruence|]. by eapply IH.
Qed.
Lemma ex_present (k : nat) (log : list event) ev : log !! k = Some ev -> ev ∈ log.
Proof. apply elem_of_list_lookup_2. Qed.
Lemma ex_alive log : existsb is_dying_ev log = false -> EvDying ∉ log.
Proof. intros H. by eapply ex_absent. Qed.
Lemma ex_not_asked g log : existsb (is_cancel_ev g) log = false -> ~ exists n, EvCancel g n ∈ log.
Proof. intros H [n Hx]. revert Hx. eapply ex_absent; [done|]. simpl. by apply bool_decide_eq_true_2. Qed.
(** The snapshot of the attempt that is the k-th newest event *)
Definition snap_at (k : nat) (s : state) : snap :=
  match s_log s !! k with Some (EvAttempt _ _ sn _ _) => sn | _ => mkSnap ∅ ∅ end.
Lemma run_app E s ls1 ls2 : run E s (ls1 ++ ls2) = match run E s ls1 with Some s' => run E s' ls2 | None => None end.
Proof. revert s. induction ls1 as [|l ls1 IH]; intros s; cbn [app run]; [done|]. by destruct (step E s l). Qed.
Lemma ex_step E ls l : ex_ok E (ls ++ [l]) = true -> step E (ex_state E ls) l = Some (ex_state E (ls ++ [l])).
Proof.
  unfold ex_ok, ex_state. rewrite run_app. destruct (run E init ls) as [s|]; [|done]. cbn [run].
  change (step E (default init (Some s)) l) with (step E s l). destruct (step E s l); [intros _; reflexivity|done].
Qed.
Lemma ex_split (k : nat) s ev : s_log s !! k = Some ev -> s_log s = later k s ++ ev :: before k s.
Proof. intros H. symmetry. by apply take_drop_middle. Qed.
Lemma ex_split2 (k : nat) s ev ev' : s_log s !! k = Some ev -> s_log s !! S k = Some ev' ->
  s_log s = later k s ++ ev :: ev' :: before (S k) s.
Proof.
  intros H H'. unfold later, before. rewrite <- (take_drop_middle _ _ _ H) at 1. do 2 f_equal.
  apply drop_S in H'. exact H'.
Qed.
Ltac ex_go := lazymatch goal with | |- s_log _ = later _ _ ++ _ :: _ :: _ => apply ex_split2; vm_compute; reflexivity | |- s_log _ = later _ _ ++ _ => apply ex_split; vm_compute; reflexivity | |- _ => vm_compute; reflexivity end.

From Verif Require Import EngineSpec EngineProgressSpec.
Definition is_kill_ev (g : nat) (ev : event) : bool := match ev with EvKill g' _ _ => bool_decide (g' = g) | _ => false end.
Definition calmb (log : list event) (l : label) : bool :=
  match l with
  | LInstall _ _ => false
  | LExit g _ => existsb (is_kill_ev g) log
  | LStartRet g (inr e) => match attempt_name log g with
      | Some n => terminal (after_filter log n (Some (if err_is e (EConst KStartAborted) then EConst KStartAborted else e)))
      | None => true end
  | _ => true
  end.
Fixpoint obeysb (E : env) (s : state) (ls : list label) : bool :=
  match ls with
  | [] => true
  | l :: ls' => calmb (s_log s) l && match step E s l with Some s' => obeysb E s' ls' | None => true end
  end.
Lemma calmb_calm log l : calmb log l = true -> calm log l.
Proof.
  destruct l; try done; simpl.
  - destruct r; [done|]. intros H n Hn. by rewrite Hn in H.
  - rewrite existsb_exists. intros (ev & Hin & He). destruct ev; try done. simpl in He. apply bool_decide_eq_true in He as ->.
    eexists _, _. apply elem_of_list_In. exact Hin.
Qed.
Lemma ex_calm E s ls : obeysb E s ls = true -> obeys E calm s ls.
Proof.
  revert s. induction ls as [|l ls IH]; intros s; cbn [obeysb obeys]; [done|]. rewrite andb_true_iff. intros [H1 H2].
  split; [by apply calmb_calm|]. destruct (step E s l); [|done]. by apply IH.
Qed.

(** A property of all events of a concrete log, decided by computation *)
Lemma ex_all (p : event -> bool) log : forallb p log = true -> forall ev, ev ∈ log -> p ev = true.
Proof. intros H ev Hin. rewrite forallb_forall in H. apply H. by apply elem_of_list_In. Qed.
