(** What the forest needs to know about an engine. *)
From stdpp Require Import gmap strings list.
From RecordUpdate Require Import RecordSet.
From Verif Require Import Err Tomb Snapshot Engine EngineSpec EngineProgressSpec EngineMicro EngineLog EngineSafety EngineMore EngineObs EngineProgress EngineCallsProofs.
Import RecordSetNotations.

(** ** Which steps say that a Start func returned, and that a worker exited *)
Definition key (ev : event) : bool := match ev with EvStartRet _ _ _ | EvExit _ _ _ => true | _ => false end.
Definition keys (s : state) : list event := filter (fun ev => key ev = true) (s_log s).
Lemma keys_same s s' : s_log s' = s_log s -> keys s' = keys s.
Proof. intros H. unfold keys. by rewrite H. Qed.
Lemma keys_cons s s' ev : key ev = false -> s_log s' = ev :: s_log s -> keys s' = keys s.
Proof. intros H H'. unfold keys. rewrite H', filter_cons_False; [done|by rewrite H]. Qed.
Lemma keys_emit ev s : key ev = false -> keys (emit ev s) = keys s.
Proof. intros H. by apply (keys_cons s (emit ev s) ev). Qed.
Lemma keys_set_info n i s : keys (set_info n i s) = keys s.
Proof. by apply keys_same. Qed.
Lemma keys_in s s' ev : keys s' = keys s -> key ev = true -> ev ∈ s_log s' -> ev ∈ s_log s.
Proof. unfold keys. intros H Hk Hin. assert (ev ∈ filter (fun ev => key ev = true) (s_log s)) as Hx; [|by apply elem_of_list_filter in Hx as [? ?]]. rewrite <- H. by apply elem_of_list_filter. Qed.

Lemma keys_kill_tomb e s : keys (kill_tomb e s) = keys s.
Proof. unfold kill_tomb. cbv zeta. destruct (_ && _); [|by apply keys_same]. rewrite keys_emit by done. by apply keys_same. Qed.
Lemma keys_poll E s : keys (poll E s) = keys s.
Proof. unfold poll. etransitivity; [by apply keys_same|]. case_match; [apply keys_kill_tomb|done]. Qed.
Lemma keys_kill_worker g n w s : keys (kill_worker g n w s) = keys s.
Proof. unfold kill_worker. destruct w; [rewrite keys_kill_tomb|]; by apply keys_emit. Qed.
Lemma keys_launch E n d s : keys (launch E n d s) = keys s.
Proof. unfold launch. cbv zeta. rewrite keys_emit by done. by apply keys_same. Qed.
Lemma keys_request_start E n d s : keys (request_start E n d s) = keys s.
Proof.
  unfold request_start. cbv zeta. destruct (s_manifolds s !! n); repeat case_match; rewrite ?keys_launch, ?keys_poll, ?keys_kill_tomb; done.
Qed.
Lemma keys_do_stop n s : keys (do_stop n s) = keys s.
Proof.
  unfold do_stop. set (i := (info_of s n) <| i_stopping := true |>). cbv zeta.
  set (s1 := match i_cancel i with Some c => _ | None => _ end). assert (keys s1 = keys s) as H1.
  { subst s1. destruct (i_cancel i); [|done]. rewrite keys_emit by done. by apply keys_same. }
  rewrite keys_set_info. destruct (i_worker i); by rewrite ?keys_kill_worker.
Qed.
Lemma keys_request_stop n s : keys (request_stop n s) = keys s.
Proof. unfold request_stop. case_match; [done|apply keys_do_stop]. Qed.
Lemma keys_fold {A} (f : state -> A -> state) l s : (forall s x, keys (f s x) = keys s) -> keys (fold_left f l s) = keys s.
Proof. intros H. revert s. induction l as [|x l IH]; intros s; [done|]. cbn. rewrite IH. apply H. Qed.
Lemma keys_bounce E n s : keys (bounce_dependents E n s) = keys s.
Proof. unfold bounce_dependents. apply keys_fold. intros s' x. unfold bounce_one. case_match; [apply keys_request_start|apply keys_request_stop]. Qed.
Lemma keys_end_iteration E s : keys (end_iteration E s) = keys s.
Proof. unfold end_iteration. cbv zeta. case_match; rewrite ?keys_emit by done; [etransitivity; [by apply keys_same|]|]; apply keys_poll. Qed.
Lemma keys_got_install E n m s : keys (got_install E n m s).2 = keys s.
Proof.
  unfold got_install. destruct (s_manifolds s !! n); [done|]. destruct (check_acyclic E n m s); cbn [snd]; [by apply keys_same|].
  rewrite keys_request_start. unfold record_manifold. rewrite keys_emit by done. by apply keys_same.
Qed.
Lemma keys_got_started E g n w al s : keys (got_started E g n w al s) = keys s.
Proof.
  unfold got_started. cbv zeta. destruct (i_worker _); [rewrite keys_kill_worker; apply keys_kill_tomb|]. destruct (i_stopping _); [apply keys_kill_worker|].
  destruct (dying _); rewrite ?keys_kill_worker, ?keys_poll; [done|]. rewrite keys_bounce. unfold register. cbv zeta. rewrite !keys_emit by done.
  rewrite keys_set_info. apply keys_poll.
Qed.
Lemma keys_got_stopped E g n e al s : keys (got_stopped E g n e al s) = keys s.
Proof.
  assert (forall s, keys (end_attempt E g n e al s) = keys s) as Hea.
  { intros s'. unfold end_attempt. cbv zeta. rewrite keys_set_info. repeat case_match; rewrite ?keys_kill_tomb; try (by apply keys_emit).
    }
  assert (forall s', keys s' = keys s -> keys (poll E s') = keys s) as Hpo by (intros s' <-; apply keys_poll).
  unfold got_stopped. cbv zeta. destruct (dying _); [by apply Hpo|].
  assert (forall s', keys s' = keys s -> keys (match i_worker (info_of s n) with Some _ => bounce_dependents E n s' | None => s' end) = keys s) as Hb.
  { intros s' <-. case_match; [apply keys_bounce|done]. }
  apply Hb. destruct (i_stopping _); [rewrite keys_request_start; by apply Hpo|]. unfold after_stop. repeat case_match; rewrite ?keys_request_start; try (by apply Hpo).
Qed.
Lemma keys_stop_all E s : keys (stop_all E s) = keys s.
Proof. unfold stop_all. cbv zeta. rewrite keys_fold by (intros; apply keys_request_stop). by apply keys_same. Qed.

Lemma keys_step E s l s' : step E s l = Some s' ->
  match l with LStartRet _ _ | LExit _ _ | LSelfDying _ => True | _ => keys s' = keys s end.
Proof.
  destruct l; cbn [step]; intros Hs; try done; repeat case_match; try done; simplify_eq;
    try (by apply keys_same); try (by rewrite keys_emit by done; apply keys_same);
    rewrite ?keys_kill_worker, ?keys_end_iteration, ?keys_stop_all, ?keys_got_started, ?keys_got_stopped, ?keys_kill_tomb, ?keys_emit by done;
    rewrite ?keys_poll; try done; try (by apply keys_same).
  match goal with H : got_install _ _ _ _ = (_, ?x) |- _ => change x with (snd (o, x)); rewrite <- H end. apply keys_got_install.
Qed.

Lemma ret_step E s l s' k n w : step E s l = Some s' -> EvStartRet k n (inl (WExt w)) ∈ s_log s' ->
  EvStartRet k n (inl (WExt w)) ∈ s_log s \/ l = LStartRet k (inl (WExt w)).
Proof.
  intros Hs Hin. pose proof (keys_step E s l s' Hs) as Hk. destruct l; try (left; by eapply keys_in); cbn [step] in Hs.
  - repeat case_match; try done. simplify_eq. unfold emit in Hin. cbn in Hin. rewrite elem_of_cons in Hin. destruct Hin as [Hin|Hin]; [right; by simplify_eq|by left].
  - repeat case_match; try done. simplify_eq. unfold emit in Hin. cbn in Hin. rewrite elem_of_cons in Hin. destruct Hin as [Hin|Hin]; [by simplify_eq|by left].
  - repeat case_match; try done. simplify_eq. unfold emit in Hin. cbn in Hin. rewrite elem_of_cons in Hin. destruct Hin as [Hin|Hin]; [by simplify_eq|by left].
Qed.

Lemma exit_step E s l s' k n n' e w : reachable E s -> step E s l = Some s' -> EvStartRet k n (inl (WExt w)) ∈ s_log s' -> EvExit k n' e ∈ s_log s' ->
  EvExit k n' e ∈ s_log s \/ l = LExit k e.
Proof.
  intros Hr Hs Hret Hin. pose proof (keys_step E s l s' Hs) as Hk. destruct l; try (left; by eapply keys_in); cbn [step] in Hs.
  - repeat case_match; try done. simplify_eq. unfold emit in Hin. cbn in Hin. rewrite elem_of_cons in Hin. destruct Hin as [Hin|Hin]; [by simplify_eq|by left].
  - repeat case_match; try done. simplify_eq. unfold emit in Hin. cbn in Hin. rewrite elem_of_cons in Hin. destruct Hin as [Hin|Hin]; [right; by simplify_eq|by left].
  - destruct (s_gors s !! g) as [[n0 f0 sn x al p]|] eqn:Hg; [|done]. destruct p; try done. destruct (dying s); [|done]. simplify_eq.
    unfold emit in Hin. cbn in Hin. rewrite elem_of_cons in Hin. destruct Hin as [Hin|Hin]; [|by left]. simplify_eq.
    destruct (reachable_linv E s Hr) as [V L]. pose proof (l_phase E s L _ _ Hg) as Hph. cbn in Hph. destruct Hph as [Hself _].
    unfold emit in Hret. cbn in Hret. rewrite elem_of_cons in Hret. destruct Hret as [Hret|Hret]; [done|].
    destruct (ret_unique E s _ _ _ _ _ Hr Hself Hret); done.
Qed.

(** ** Killed workers *)
Lemma kill_ret E s k n w : reachable E s -> EvKill k n w ∈ s_log s -> EvStartRet k n (inl w) ∈ s_log s.
Proof.
  intros Hr (pre & post & Heq)%elem_of_list_split. destruct (kill_once E s _ _ _ _ _ Hr Heq) as (_ & H & _). rewrite Heq. apply elem_of_app. right. by right.
Qed.
Lemma tell_dying E s : reachable E s -> is_dying (s_log (kill_tomb None s)).
Proof.
  intros Hr. destruct (reachable_linv E s Hr) as [V L].
  assert (reachable E (kill_tomb None s)) as Hr' by (by eapply reach_stepE with (l := LKill)).
  destruct (reachable_linv E _ Hr') as [V' L']. apply (l_dying E _ L'). unfold dying, kill_tomb, t_dying. cbn. unfold tomb_kill.
  destruct (t_reason (s_tomb s)) as [|[?|]] eqn:Hre; cbn; rewrite ?Hre; cbn; try rewrite Hre; done.
Qed.
Lemma is_dead E s : reachable E s -> t_dead (s_tomb s) = true <-> EvDead ∈ s_log s.
Proof. intros Hr. destruct (reachable_linv E s Hr) as [V L]. rewrite (dead_running E s Hr). symmetry. by apply running_dead. Qed.

(** ** Nothing left to do *)
Lemma all_done E s : reachable E s -> is_dying (s_log s) ->
  (forall l, owed (s_log s) l -> match l with LStartRet _ (inl _) | LExit _ _ => True | _ => step E s l = None end) ->
  (forall g n w e, EvKill g n (WExt w) ∈ s_log s -> step E s (LExit g e) = None) -> EvDead ∈ s_log s.
Proof.
  intros Hr Hd Ho Hx. apply (stuck_dead E s Hr Hd). intros l Hl. pose proof (Ho l Hl) as Hl'. destruct l; try done.
  - destruct r as [w|e]; [|done]. assert (step E s (LStartRet g (inr ETombDying)) = None) as Hn by (by apply (Ho (LStartRet g (inr ETombDying)))).
    cbn [step] in *. by repeat case_match.
  - destruct Hl as (_ & n & w & Hk). destruct w as [|w].
    2: by eapply Hx. 
    destruct (step E s (LExit g e)) eqn:Hs; [|done]. exfalso. cbn [step] in Hs.
    destruct (s_gors s !! g) as [[n0 f0 sn x al p]|] eqn:Hg; [|done]. destruct p; try done.
    destruct (reachable_linv E s Hr) as [V L]. pose proof (l_phase E s L _ _ Hg) as Hph. cbn in Hph. destruct Hph as [Hw _].
    destruct (ret_unique E s _ _ _ _ _ Hr (kill_ret E s _ _ _ Hr Hk) Hw) as [-> ?]. simplify_eq.
    destruct (v_active s V _ _ Hg) as (i & Hi & Hgi); [done|]. pose proof (go_pc _ _ _ _ _ Hgi) as Hgp. cbn in Hgp. by destruct Hgp.
Qed.
