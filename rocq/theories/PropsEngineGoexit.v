(** Property C84. Statements only: every theorem is closed by a lemma proved elsewhere.
    Vocabulary: EngineGoexitSpec.v (lost attempts), EngineSpec.v and EngineProgressSpec.v (the log, owed steps), EngineGoexit.v (executions). *)
From stdpp Require Import gmap strings list.
From Coq Require Import ZArith Lia.
From Verif Require Import Err Tomb Validate Snapshot Engine EngineSpec EngineProgressSpec EngineProgress EngineGoexit EngineGoexitSpec EngineGoexitProofs EngineExample.

(** C84: whatever Start funcs and workers leave by Goexit, the engine's own state is one it can be in without them (so C10-C21 and the
    other safety properties hold of it), *)
Theorem C84_safe E y : greachable E y -> reachable E (y_s y).
Proof. exact (greach_reach E y). Qed.
Print Assumptions C84_safe.

(** C84: and the getter of the attempt that is gone says that it is expired. *)
Theorem C84_getters E y g e : greachable E y -> (g, e) ∈ y_gets y -> e = Some (EMsg MsgExpired).
Proof. exact (getters_expired E y g e). Qed.
Print Assumptions C84_getters.

(** C84: from then on the engine never ends, whatever happens: it never becomes dead, Wait never returns, the attempt is never recorded
    as stopped. *)
Theorem C84_never_ends E y g ls y' : greachable E y -> g ∈ y_lost y -> grun E y ls = Some y' ->
  EvDead ∉ glog y' /\ (forall e, EvWait e ∉ glog y') /\ (forall n raw e t, EvStopped g n raw e t ∉ glog y').
Proof. exact (never_ends E y g ls y'). Qed.
Print Assumptions C84_never_ends.

(** C84: nothing ever happens again to the name of the attempt: it stays installed with the same manifold, the lost attempt stays the
    attempt in progress, and it is never started, registered, stopped, uninstalled or installed again; *)
Theorem C84_name_dead E y g n f t ls y' : greachable E y -> g ∈ y_lost y -> EvStartCall g n f t ∈ glog y -> grun E y ls = Some y' ->
  exists m new, glog y' = new ++ glog y /\ installed (glog y) n = Some m /\ installed (glog y') n = Some m /\ in_progress (glog y') n = Some g /\
    (forall m', EvInstalled n m' ∉ new) /\ EvUninstall n ∉ new /\ (forall g' sn t d, EvAttempt g' n sn t d ∉ new) /\
    (forall g' w t, EvRegister g' n w t ∉ new) /\ (forall g' raw e t, EvStopped g' n raw e t ∉ new).
Proof. exact (name_dead E y g n f t ls y'). Qed.
Print Assumptions C84_name_dead.

(** C84: Install of that name says that it is already installed. *)
Theorem C84_install_refused E y g n f t m y' : greachable E y -> g ∈ y_lost y -> EvStartCall g n f t ∈ glog y ->
  gstep E y (GEng (LInstall n m)) = Some y' ->
  exists new, glog y' = new ++ EvInstall n m (Some (EMsg (MsgAlreadyInstalled n))) :: glog y.
Proof. exact (install_refused E y g n f t m y'). Qed.
Print Assumptions C84_install_refused.

(** C84: if the worker's Wait left by Goexit, manifolds that depend on the name are started, for ever, with that worker, although nothing
    waits for it any more; *)
Theorem C84_dead_worker_shared E y g n w t0 ls y' new pre g' d sn t' dl post m : greachable E y -> lost_in_wait y g n w ->
  EvRegister g n w t0 ∈ glog y -> grun E y ls = Some y' ->
  glog y' = new ++ glog y -> new = pre ++ EvAttempt g' d sn t' dl :: post -> installed (post ++ glog y) d = Some m -> n ∈ m_inputs m ->
  sn_workers sn !! n = Some (Some w).
Proof. exact (dependents_dead_worker E y g n w t0 ls y' new pre g' d sn t' dl post m). Qed.
Print Assumptions C84_dead_worker_shared.

(** C84: if the Start func left by Goexit, they are started, for ever, without one. *)
Theorem C84_no_worker_shared E y g n ls y' new pre g' d sn t' dl post m : greachable E y -> lost_in_start y g n ->
  grun E y ls = Some y' ->
  glog y' = new ++ glog y -> new = pre ++ EvAttempt g' d sn t' dl :: post -> installed (post ++ glog y) d = Some m -> n ∈ m_inputs m ->
  sn_workers sn !! n = Some None.
Proof. exact (dependents_no_worker E y g n ls y' new pre g' d sn t' dl post m). Qed.
Print Assumptions C84_no_worker_shared.

(** C84: everything else still stops. The number of steps a dying engine takes is bounded, *)
Theorem C84_rest_bounded E y : greachable E y -> is_dying (glog y) ->
  exists N, forall ls y', grun E y ls = Some y' -> internal_steps (engine_steps ls) <= N.
Proof. exact (rest_bounded E y). Qed.
Print Assumptions C84_rest_bounded.

(** C84: and when it can take no more, the attempts in progress are the lost ones (or the engine is dead, which it is not by C84_never_ends
    unless none is lost). *)
Theorem C84_rest_stops E y n g : greachable E y -> is_dying (glog y) -> (forall l, owed (glog y) l -> gstep E y (GEng l) = None) ->
  in_progress (glog y) n = Some g -> g ∈ y_lost y \/ EvDead ∈ glog y.
Proof. exact (rest_stops E y n g). Qed.
Print Assumptions C84_rest_stops.

(** db and api run; the Wait of db's worker (attempt 0, worker 10) leaves by Goexit. *)
Definition gx_lost : list glabel := map GEng ls_up ++ [GExit 0].
(** api ends and is started again (attempt 2); Install of db is refused; somebody uses the getter of attempt 0. *)
Definition gx_more : list glabel := [GEng (LExit 1 (Some (EUser 1))); GEng (LStopped 1); GEng (LInstall "db" m_ui); GGet 0 "db" None].
(** the engine is killed and api stops *)
Definition gx_end : list glabel := [GEng LKill; GEng LDying; GEng (LAbort 2); GEng (LStopped 2)].
(** the Start func of db leaves by Goexit; api is installed *)
Definition gx_start : list glabel := [GEng (LInstall "db" m_db); GEng (LDelayFire 0); GExit 0].
Definition gx (ls : list glabel) : gstate := default ginit (grun ex_env ginit ls).
Definition gx_ok (ls : list glabel) : bool := match grun ex_env ginit ls with Some _ => true | None => false end.
Lemma gx_reach ls : gx_ok ls = true -> greachable ex_env (gx ls).
Proof. unfold gx_ok, gx. destruct (grun ex_env ginit ls) as [y|] eqn:H; [|done]. intros _. by exists ls. Qed.
Lemma gx_app ls1 ls2 : gx_ok (ls1 ++ ls2) = true -> grun ex_env (gx ls1) ls2 = Some (gx (ls1 ++ ls2)).
Proof.
  unfold gx_ok, gx. assert (forall y, grun ex_env y (ls1 ++ ls2) = match grun ex_env y ls1 with Some y' => grun ex_env y' ls2 | None => None end) as Ha.
  { induction ls1 as [|l ls1 IH]; intros y; cbn; [done|]. by destruct (gstep ex_env y l). }
  rewrite Ha. destruct (grun ex_env ginit ls1) as [y|]; [|done]. change (default ginit (Some y)) with y. by destruct (grun ex_env y ls2).
Qed.
(** No goroutine can take a step. *)
Definition gx_quiet (y : gstate) : bool :=
  negb (s_oneShot (y_s y)) && forallb (fun p => match g_pc p.2 with PGone => true | _ => bool_decide (p.1 ∈ y_lost y) end) (map_to_list (s_gors (y_s y))).
Lemma gx_quiet_stuck E y : gx_quiet y = true -> forall l, owed (glog y) l -> gstep E y (GEng l) = None.
Proof.
  unfold gx_quiet. intros [Ho Hf]%andb_true_iff l [Hi _]. rewrite forallb_forall in Hf. apply negb_true_iff in Ho.
  assert (Hg : forall g r, s_gors (y_s y) !! g = Some r -> g_pc r = PGone \/ g ∈ y_lost y).
  { intros g r H. specialize (Hf (g, r)). cbn in Hf. assert (In (g, r) (map_to_list (s_gors (y_s y)))) as Hin by (apply elem_of_list_In, elem_of_map_to_list; done).
    apply Hf in Hin. destruct (g_pc r); try (right; by apply bool_decide_eq_true in Hin). by left. }
  destruct l; try done; cbn [gstep gone gor_of step]; [by rewrite Ho, andb_false_r|..];
    (destruct (bool_decide (g ∈ y_lost y)) eqn:Hb; [done|]; apply bool_decide_eq_false in Hb;
     destruct (s_gors (y_s y) !! g) as [[? ? ? ? ? p]|] eqn:Hx; [|done]; destruct (Hg _ _ Hx) as [Hp|Hp]; [cbn in Hp; by subst p|done]).
Qed.
Lemma gx_is_lost g y : bool_decide (g ∈ y_lost y) = true -> g ∈ y_lost y.
Proof. apply bool_decide_eq_true. Qed.
Lemma gx_ev k ev y : glog y !! k = Some ev -> ev ∈ glog y.
Proof. apply elem_of_list_lookup_2. Qed.
Example C84_lost_ok : greachable ex_env (gx gx_lost) /\ lost_in_wait (gx gx_lost) 0 "db" (WExt 10) /\
  EvRegister 0 "db" (WExt 10) 0 ∈ glog (gx gx_lost) /\ EvStartCall 0 "db" 1 0 ∈ glog (gx gx_lost).
Proof.
  split; [apply gx_reach; vm_compute; reflexivity|]. split; [split|split].
  - apply gx_is_lost. vm_compute. reflexivity.
  - apply (gx_ev 10). vm_compute. reflexivity.
  - apply (gx_ev 9). vm_compute. reflexivity.
  - apply (gx_ev 11). vm_compute. reflexivity.
Qed.
(** Afterwards api is started with the worker 10 again, Install of db is refused, and the getter of attempt 0 says that it is expired. *)
Example C84_more_ok : grun ex_env (gx gx_lost) gx_more = Some (gx (gx_lost ++ gx_more)) /\
  glog (gx (gx_lost ++ gx_more)) !! 0 = Some (EvInstall "db" m_ui (Some (EMsg (MsgAlreadyInstalled "db")))) /\
  sn_workers (snap_at 1 (y_s (gx (gx_lost ++ gx_more)))) !! "db" = Some (Some (WExt 10)) /\
  y_gets (gx (gx_lost ++ gx_more)) = [(0, Some (EMsg MsgExpired))].
Proof. split; [apply gx_app; vm_compute; reflexivity|]. split; [|split]; vm_compute; reflexivity. Qed.
(** The engine is killed: api stops, db does not, and nothing more can happen. *)
Example C84_end_ok : greachable ex_env (gx (gx_lost ++ gx_more ++ gx_end)) /\ is_dying (glog (gx (gx_lost ++ gx_more ++ gx_end))) /\
  (forall l, owed (glog (gx (gx_lost ++ gx_more ++ gx_end))) l -> gstep ex_env (gx (gx_lost ++ gx_more ++ gx_end)) (GEng l) = None) /\
  in_progress (glog (gx (gx_lost ++ gx_more ++ gx_end))) "db" = Some 0 /\ in_progress (glog (gx (gx_lost ++ gx_more ++ gx_end))) "api" = None.
Proof.
  split; [apply gx_reach; vm_compute; reflexivity|]. split; [apply (gx_ev 4); vm_compute; reflexivity|].
  split; [apply gx_quiet_stuck; vm_compute; reflexivity|]. split; vm_compute; reflexivity.
Qed.
Lemma gx_in_start g n f t y : bool_decide (g ∈ y_lost y) = true -> existsb (fun ev => match ev with EvStartRet g' _ _ => bool_decide (g' = g) | _ => false end) (glog y) = false ->
  EvStartCall g n f t ∈ glog y -> lost_in_start y g n.
Proof.
  intros H1 H2 H3. split; [by apply gx_is_lost|]. split; [by exists f, t|]. intros r. eapply ex_absent; [exact H2|]. cbn. by apply bool_decide_eq_true_2.
Qed.
(** If it is the Start func of db that leaves, api is started without a worker of db. *)
Example C84_start_ok : greachable ex_env (gx gx_start) /\ lost_in_start (gx gx_start) 0 "db" /\
  grun ex_env (gx gx_start) [GEng (LInstall "api" m_api)] = Some (gx (gx_start ++ [GEng (LInstall "api" m_api)])) /\
  sn_workers (snap_at 1 (y_s (gx (gx_start ++ [GEng (LInstall "api" m_api)])))) !! "db" = Some None.
Proof.
  split; [apply gx_reach; vm_compute; reflexivity|]. split; [|split; [apply gx_app|]; vm_compute; reflexivity].
  apply (gx_in_start 0 "db" 1 0%Z); [vm_compute; reflexivity..|]. apply (gx_ev 0). vm_compute. reflexivity.
Qed.
