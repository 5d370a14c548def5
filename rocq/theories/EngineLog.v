(** Correspondence between the event log and the engine's state, for every reachable state. *)
From stdpp Require Import gmap strings list relations.
From Coq Require Import ZArith.
From RecordUpdate Require Import RecordSet.
From Verif Require Import Err Tomb Order Validate ValidateSpec ValidateProofs Snapshot Engine EngineSpec EngineMicro EngineSteps.
Import RecordSetNotations.

(** Goroutine [g] works for [n] and has not finished. *)
Definition active (s : state) (g : nat) (n : string) : Prop :=
  exists r, s_gors s !! g = Some r /\ g_name r = n /\ g_pc r <> PGone.

(** The attempt number an event is about. *)
Definition ev_gid (ev : event) : option nat :=
  match ev with
  | EvAttempt g _ _ _ _ | EvStartCall g _ _ _ | EvStartRet g _ _ | EvGet g _ _ _ _ | EvRegister g _ _ _
  | EvCancel g _ | EvKill g _ _ | EvExit g _ _ | EvStopped g _ _ _ _ => Some g
  | _ => None
  end.

(** What a goroutine's position says about the log. *)
Definition phase_ok (log : list event) (g : nat) (n : string) (f : nat) (p : pc) : Prop :=
  match p with
  | PDelay ready => ~ start_called log g /\ exists sn t d, EvAttempt g n sn t d ∈ log /\ ready = (t + d)%Z
  | PStart => (exists t, EvStartCall g n f t ∈ log) /\ (forall n' r, EvStartRet g n' r ∉ log)
  | PReturned r => EvStartRet g n r ∈ log /\ ~ worker_exited log g
  | PSendStarted w => EvStartRet g n (inl w) ∈ log /\ ~ worker_exited log g
  | PWait w => EvStartRet g n (inl w) ∈ log /\ ~ worker_exited log g
  | PSelf => EvStartRet g n (inl WSelf) ∈ log /\ ~ worker_exited log g
  | PSendStopped _ => ~ start_called log g \/ finished log g
  | PGone => ~ start_called log g \/ finished log g
  end.

Definition pre_handover (p : pc) : bool :=
  match p with PDelay _ | PStart | PReturned _ | PSendStarted _ => true | _ => false end.
Definition waiting (p : pc) : bool := match p with PWait _ | PSelf => true | _ => false end.

Record linv (E : env) (s : state) : Prop := {
  l_inst : forall n, installed (s_log s) n = s_manifolds s !! n;
  l_dying : dying s = true <-> is_dying (s_log s);
  l_regw : forall n, snd <$> registered (s_log s) n = i_worker (info_of s n);
  l_regg : forall n g w, registered (s_log s) n = Some (g, w) -> active s g n;
  l_prog : forall n g, in_progress (s_log s) n = Some g <-> active s g n;
  l_canc : forall g, g ∈ s_cancelled s <-> asked_to_stop (s_log s) g;
  l_count : forall n i, s_current s !! n = Some i ->
    i_startCount i = starts_since_install (s_log s) n /\
    i_startCount i = metrics_since_install (s_log s) n;
  l_time : forall n, registered_at (s_log s) n = i_startedTime (info_of s n);
  l_recent : forall n i, s_current s !! n = Some i -> i_recent i = error_count (e_cfg E) (s_log s) n;
  l_worst : s_worst s = worst_of (e_cfg E) (s_log s);
  l_gid : forall ev g, ev ∈ s_log s -> ev_gid ev = Some g -> g < s_next s;
  l_att : forall g r, s_gors s !! g = Some r -> exists t d, EvAttempt g (g_name r) (g_snap r) t d ∈ s_log s;
  l_phase : forall g r, s_gors s !! g = Some r -> phase_ok (s_log s) g (g_name r) (g_start r) (g_pc r);
  l_all : forall g, g < s_next s -> is_Some (s_gors s !! g);
  l_called : forall g n f t, EvStartCall g n f t ∈ s_log s -> exists r, s_gors s !! g = Some r /\ g_name r = n /\ g_start r = f /\ (forall x, g_pc r <> PDelay x);
  l_ret : forall g n r0, EvStartRet g n r0 ∈ s_log s -> exists r, s_gors s !! g = Some r /\ g_name r = n /\ g_pc r <> PStart /\ (forall x, g_pc r <> PDelay x) /\ start_called (s_log s) g;
  l_exit : forall g n e, EvExit g n e ∈ s_log s -> exists w, EvStartRet g n (inl w) ∈ s_log s;
  l_end : forall g r, s_gors s !! g = Some r -> (g_pc r = PGone <-> exists n raw e t, EvStopped g n raw e t ∈ s_log s)
}.

(** Computes the state after an elementary update. *)
Ltac mcomp V :=
    unfold record_manifold, launch, stop_base, register, end_base, uninstall, set_info, emit in *;
    try (rewrite (kill_tomb_eq _ (or_introl V)) in *; destruct (dying _) eqn:Hdying);
    repeat match goal with
    | |- context [match i_worker (info_of ?s ?n) with _ => _ end] => destruct (i_worker (info_of s n)) eqn:?
    | |- context [c_isFatal ?c ?e] => destruct (c_isFatal c e) eqn:?
    end;
    simpl in *.
(** Splits an elementary update into its cases and computes the new state. *)
Ltac mnorm V :=
  lazymatch goal with
  | H : micro _ _ _ _ _ |- _ => destruct H; mcomp V
  end.

Lemma step_inst E s D s' D' : inv s -> linv E s -> micro E s D s' D' ->
  forall n, installed (s_log s') n = s_manifolds s' !! n.
Proof.
  intros V L H. pose proof (l_inst E s L) as Hi. mnorm V; try done; intros k.
  - destruct (decide (n = k)) as [->|Hne].
    + by rewrite bool_decide_eq_true_2, lookup_insert.
    + by rewrite bool_decide_eq_false_2, lookup_insert_ne.
  - destruct (decide (n = k)) as [->|Hne].
    + by rewrite bool_decide_eq_true_2, lookup_delete.
    + by rewrite bool_decide_eq_false_2, lookup_delete_ne.
Qed.

Lemma micro_dying E s D s' D' : inv s -> micro E s D s' D' ->
  dying s' = dying s \/ (s' = kill_tomb None s /\ dying s' = true).
Proof.
  intros V H. assert (inv s') as V' by (by eapply micro_inv).
  destruct H; try (left; reflexivity).
  - right. split; [done|]. apply kill_tomb_dying. by destruct V.
  - left. unfold stop_base. by destruct (i_worker _).
  - left. unfold end_base. by destruct (c_isFatal _ _).
  - left. rewrite H0. apply (v_run _ V').
Qed.

(** The log only grows. *)
Lemma micro_log E s D s' D' : inv s -> micro E s D s' D' -> exists new, s_log s' = new ++ s_log s.
Proof.
  intros V H. mnorm V; try (by exists []); try (by eexists [_]); by eexists [_; _].
Qed.

Lemma step_dying E s D s' D' : inv s -> linv E s -> micro E s D s' D' ->
  dying s' = true <-> is_dying (s_log s').
Proof.
  intros V L H. pose proof (l_dying E s L) as Hd. unfold is_dying in *.
  destruct (micro_dying E s D s' D' V H) as [Heq|[-> Hdd]].
  - rewrite Heq. mnorm V; try done; rewrite ?elem_of_cons; intuition congruence.
  - rewrite Hdd. rewrite (kill_tomb_eq _ (or_introl V)). simpl. split; [|done]. intros _.
    destruct (dying s); [by apply Hd|]. by left.
Qed.

Ltac lk := repeat match goal with
  | H : ?n = ?k |- context [<[?n := _]> _ !! ?k] => subst k
  | |- context [<[?n := _]> _ !! ?n] => rewrite lookup_insert
  | H : ?n <> ?k |- context [<[?n := _]> _ !! ?k] => rewrite lookup_insert_ne by done
  | |- context [delete ?n _ !! ?n] => rewrite lookup_delete
  | H : ?n <> ?k |- context [delete ?n _ !! ?k] => rewrite lookup_delete_ne by done
  | |- context [bool_decide (?n = ?n)] => rewrite (bool_decide_eq_true_2 (n = n)) by done
  | H : ?n <> ?k |- context [bool_decide (?n = ?k)] => rewrite (bool_decide_eq_false_2 (n = k)) by done
  end.

Lemma stopped_no_worker i : i_stopped i = true -> i_worker i = None.
Proof. unfold i_stopped. by destruct (i_worker i). Qed.

Lemma not_installed_info s n : inv s -> s_manifolds s !! n = None -> s_current s !! n = None.
Proof. intros V H. apply eq_None_not_Some. rewrite (v_dom s V), H. apply is_Some_None. Qed.

Lemma step_regw E s D s' D' : inv s -> linv E s -> micro E s D s' D' ->
  forall n, snd <$> registered (s_log s') n = i_worker (info_of s' n).
Proof.
  intros V L H. pose proof (l_regw E s L) as Hi. mnorm V; try exact Hi; intros k;
    (destruct (decide (n = k)) as [<-|Hne]; [|unfold info_of in *; simpl; lk; apply Hi]).
  - specialize (Hi n). rewrite Hi. unfold info_of. simpl. lk. by rewrite not_installed_info.
  - rewrite Hi. unfold info_of at 2. simpl. by lk.
  - rewrite Hi. unfold info_of at 2. simpl. by lk.
  - rewrite Hi. unfold info_of at 2. simpl. by lk.
  - rewrite Hi. unfold info_of at 2. simpl. lk. simpl. by apply stopped_no_worker.
  - unfold info_of. simpl. by lk.
  - unfold info_of. simpl. by lk.
  - unfold info_of. simpl. by lk.
Qed.

Lemma active_upd s g r r' (s' : state) : s_gors s !! g = Some r -> g_pc r <> PGone -> g_pc r' <> PGone ->
  g_name r' = g_name r -> s_gors s' = <[g := r']> (s_gors s) ->
  forall k n, active s' k n <-> active s k n.
Proof.
  intros Hg Hp Hp' Hn Hs k n. unfold active. rewrite Hs. destruct (decide (g = k)) as [<-|Hne]; lk; [|done].
  rewrite Hg. split; intros (r0 & [= <-] & ? & ?); eexists; (split; [done|]); split; congruence.
Qed.

Lemma active_same s (s' : state) : s_gors s' = s_gors s -> forall k n, active s' k n <-> active s k n.
Proof. intros Hs k n. unfold active. by rewrite Hs. Qed.

Lemma active_upd2 s g n f sn x al p f' sn' x' al' p' (s' : state) :
  s_gors s !! g = Some (mkGor n f sn x al p) -> p <> PGone -> p' <> PGone ->
  s_gors s' = <[g := mkGor n f' sn' x' al' p']> (s_gors s) ->
  forall k n, active s' k n <-> active s k n.
Proof.
  intros H1 H2 H3 H4.
  exact (active_upd s g (mkGor n f sn x al p) (mkGor n f' sn' x' al' p') s' H1 H2 H3 eq_refl H4).
Qed.

(** Goroutines: who is active after an elementary update *)
Lemma micro_active E s D s' D' : inv s -> micro E s D s' D' ->
  ((forall k n, active s' k n <-> active s k n) /\ (forall n, in_progress (s_log s') n = in_progress (s_log s) n)) \/
  (exists n base, s' = launch E n base s /\ i_stopped (info_of s n) = true /\ is_Some (s_manifolds s !! n) /\
     forall k m, active s' k m <-> (k = s_next s /\ m = n) \/ active s k m) \/
  (exists g n f sn x al e, s_gors s !! g = Some (mkGor n f sn x al (PSendStopped e)) /\
     s' = end_base E g n e al (s <| s_gors ::= <[g := mkGor n f sn x al PGone]> |>) /\
     forall k m, active s' k m <-> k <> g /\ active s k m).
Proof.
  intros V H. destruct H;
    try (left; split; [apply active_same; reflexivity|reflexivity]);
    try (left; split; [eapply active_upd2; [eassumption| | |reflexivity]; done|reflexivity]).
  - left. split.
    + apply active_same. by destruct (kill_same s None) as (_ & _ & _ & _ & _ & -> & _).
    + intros k. unfold kill_tomb. by destruct (_ && _).
  - right; left. exists n, base. split_and!; try done. intros k m. unfold active, launch. simpl.
    destruct (decide (s_next s = k)) as [<-|Hne]; lk.
    + split.
      * intros (r & [= <-] & <- & ?). left. done.
      * intros [[_ ->]|(r & Hr & _)]; [eexists; split; [done|done]|].
        pose proof (v_next s V _ _ Hr). lia.
    + split; [eauto|]. intros [[? _]|?]; [congruence|done].
  - left. unfold stop_base. split; [apply active_same|]; by destruct (i_worker _).
  - left. split; [|done]. assert (p = PGone \/ p <> PGone) as [->|Hp] by (destruct p; auto).
    + intros k' m. unfold active. simpl. destruct (decide (g = k')) as [<-|Hne]; lk; [|done].
      rewrite H. split; intros (r & [= <-] & _ & ?); done.
    + by eapply active_upd2; [eassumption| | |reflexivity].
  - left. split; [|done]. eapply active_upd2; [eassumption| | |reflexivity]; by destruct w.
  - left. split; [|done]. eapply active_upd2; [eassumption| | |reflexivity]; by destruct w.
  - right; right. do 7 eexists. split; [exact H|]. split; [done|].
    intros k m. unfold active. replace (s_gors (end_base _ _ _ _ _ _)) with (<[g := mkGor n f sn x al PGone]> (s_gors s))
      by (unfold end_base; by destruct (c_isFatal _ _)).
    destruct (decide (g = k)) as [<-|Hne]; lk; [|naive_solver].
    split; [|naive_solver]. intros (r & [= <-] & _ & ?). done.
Qed.

Lemma active_info s g n : inv s -> active s g n -> exists i, s_current s !! n = Some i /\ i_stopped i = false.
Proof.
  intros V (r & Hr & <- & Hp). destruct (v_active s V g r Hr Hp) as (i & Hi & []). eauto.
Qed.

Lemma active_uniq s g g' n : inv s -> active s g n -> active s g' n -> g = g'.
Proof. intros V (r & Hr & Hn & Hp) (r' & Hr' & Hn' & Hp'). eapply (v_uniq s V); eauto. congruence. Qed.

Lemma step_prog E s D s' D' : inv s -> linv E s -> micro E s D s' D' ->
  forall n g, in_progress (s_log s') n = Some g <-> active s' g n.
Proof.
  intros V L H. pose proof (l_prog E s L) as Hp.
  destruct (micro_active E s D s' D' V H) as [[Ha Hpr]|[(n & base & -> & Hst & Hin & Ha)|(g & n & f & sn & x & al & e & Hg & -> & Ha)]].
  - intros k g'. by rewrite Ha, <- Hp, Hpr.
  - intros k g'. rewrite Ha, <- Hp. unfold launch. simpl.
    destruct (decide (n = k)) as [<-|Hne]; lk; [|naive_solver].
    split; [intros [= <-]; auto|]. intros [[-> _]|Hx]; [done|].
    apply Hp in Hx. destruct (active_info s g' n V Hx) as (i & Hi & ?).
    rewrite (info_of_eq _ _ _ Hi) in Hst. congruence.
  - intros k g'. rewrite Ha, <- Hp.
    replace (s_log (end_base _ _ _ _ _ _)) with (EvStopped g n e (filtered s n e) (s_now s) :: s_log s)
      by (unfold end_base; by destruct (c_isFatal _ _)). simpl.
    assert (active s g n) as Hga by (eexists; split; [exact Hg|done]).
    destruct (decide (n = k)) as [<-|Hne]; lk.
    + split; [done|]. intros [Hne Hx]. apply Hp in Hx. exfalso. apply Hne. by eapply active_uniq.
    + split; [|naive_solver]. intros Hx. split; [|done]. intros ->. apply Hp in Hx.
      destruct Hga as (? & ? & ? & ?), Hx as (? & ? & ? & ?). congruence.
Qed.

Lemma step_regg E s D s' D' : inv s -> linv E s -> micro E s D s' D' ->
  forall n g w, registered (s_log s') n = Some (g, w) -> active s' g n.
Proof.
  intros V L H. pose proof (l_regg E s L) as Hr.
  assert ((forall k n, active s k n -> active s' k n) -> 
          (forall n, registered (s_log s') n = registered (s_log s) n) ->
          forall n g w, registered (s_log s') n = Some (g, w) -> active s' g n) as Hsame.
  { intros Ha He n g w. rewrite He. eauto. }
  destruct (micro_active E s D s' D' V H) as [[Ha Hpr]|[(n & base & -> & Hst & Hin & Ha)|(g & n & f & sn & x & al & e & Hg & -> & Ha)]].
  - destruct H; try (apply Hsame; [intros ? ?; apply Ha|reflexivity]).
    + apply Hsame; [intros ? ?; apply Ha|]. intros k. unfold kill_tomb. by destruct (_ && _).
    + apply Hsame; [intros ? ?; apply Ha|]. unfold stop_base. by destruct (i_worker _).
    + intros k g' w'. rewrite Ha. simpl. destruct (decide (n = k)) as [<-|Hne]; lk; [|eauto].
      intros [= <- <-]. eexists. split; [exact H|done].
    + intros k g' w'. rewrite Ha.
      replace (s_log (end_base _ _ _ _ _ _)) with (EvStopped g n e (filtered s n e) (s_now s) :: s_log s)
        by (unfold end_base; by destruct (c_isFatal _ _)). simpl.
      destruct (decide (n = k)) as [<-|Hne]; lk; [done|]. eauto.
  - apply Hsame; [|done]. intros ? ? ?. apply Ha. auto.
  - intros k g' w'. rewrite Ha.
    replace (s_log (end_base _ _ _ _ _ _)) with (EvStopped g n e (filtered s n e) (s_now s) :: s_log s)
      by (unfold end_base; by destruct (c_isFatal _ _)). simpl.
    destruct (decide (n = k)) as [<-|Hne]; lk; [done|]. intros Hk. apply Hr in Hk. split; [|done].
    intros ->. destruct Hk as (r & Hg' & <- & _). rewrite Hg in Hg'. injection Hg' as <-. done.
Qed.

Lemma step_canc E s D s' D' : inv s -> linv E s -> micro E s D s' D' ->
  forall g, g ∈ s_cancelled s' <-> asked_to_stop (s_log s') g.
Proof.
  intros V L H. pose proof (l_canc E s L) as Hr.
  assert (s_cancelled s' = s_cancelled s -> (forall g n, EvCancel g n ∈ s_log s' <-> EvCancel g n ∈ s_log s) ->
    forall g, g ∈ s_cancelled s' <-> asked_to_stop (s_log s') g) as Hsame.
  { intros He Hl g. rewrite He, Hr. unfold asked_to_stop. by setoid_rewrite Hl. }
  mnorm V; try (exact Hr); try (apply Hsame; [done|]; intros ? ?; rewrite ?elem_of_cons; intuition congruence).
  all: intros g; rewrite elem_of_union, elem_of_singleton, Hr; unfold asked_to_stop; setoid_rewrite elem_of_cons;
    try setoid_rewrite elem_of_cons; split; [intros [->|[k ?]]; [exists n|exists k]; auto|];
    intros [k Hk]; destruct_or?; naive_solver.
Qed.

Lemma step_worst E s D s' D' : inv s -> linv E s -> micro E s D s' D' ->
  s_worst s' = worst_of (e_cfg E) (s_log s').
Proof.
  intros V L H. pose proof (l_worst E s L) as Hr. mnorm V; try exact Hr.
  - change (filtered (s <| s_gors ::= <[g := mkGor n f sn x al PGone]> |>) n e) with (filtered s n e) in *.
    rewrite Heqb. by rewrite Hr.
  - change (filtered (s <| s_gors ::= <[g := mkGor n f sn x al PGone]> |>) n e) with (filtered s n e) in *.
    rewrite Heqb. by rewrite Hr.
Qed.

Lemma recent_errors_eq cfg i raw t0 t log n :
  i_startedTime i = t0 -> i_recent i = error_count cfg log n -> registered_at log n = t0 ->
  i_recent (recent_errors cfg i raw t) =
  match raw with
  | None => 0
  | Some _ =>
    if is_const raw KStartAborted || is_const raw KMissing then 1
    else match registered_at log n with
         | Some t0 => if (c_backoffReset cfg <=? t - t0)%Z then 1 else S (error_count cfg log n)
         | None => S (error_count cfg log n)
         end
  end.
Proof.
  intros Ht Hr Hl. unfold recent_errors. destruct raw as [e|]; [|done]. unfold is_const.
  destruct (err_is e (EConst KStartAborted)); [done|]. destruct (err_is e (EConst KMissing)); [done|]. simpl.
  rewrite Ht, Hl. destruct t0 as [t0|]; simpl; [|by rewrite Hr].
  destruct (t - t0 <? c_backoffReset cfg)%Z eqn:Hb; simpl.
  - replace (c_backoffReset cfg <=? t - t0)%Z with false by (symmetry; lia). by rewrite Hr.
  - replace (c_backoffReset cfg <=? t - t0)%Z with true by (symmetry; lia). done.
Qed.

Lemma step_time E s D s' D' : inv s -> linv E s -> micro E s D s' D' ->
  forall n, registered_at (s_log s') n = i_startedTime (info_of s' n).
Proof.
  intros V L H. pose proof (l_time E s L) as Hi. mnorm V; try exact Hi; intros k;
    (destruct (decide (n = k)) as [<-|Hne]; [|unfold info_of in *; simpl; lk; apply Hi]).
  - specialize (Hi n). rewrite Hi. unfold info_of. simpl. lk. by rewrite not_installed_info.
  - rewrite Hi. unfold info_of at 2. simpl. by lk.
  - rewrite Hi. unfold info_of at 2. simpl. by lk.
  - rewrite Hi. unfold info_of at 2. simpl. by lk.
  - rewrite Hi. unfold info_of at 2. simpl. lk. simpl.
    destruct H0 as [m Hm]. destruct (v_dom s V n) as [_ [i Hx]]; [by eauto|].
    rewrite (info_of_eq _ _ _ Hx) in *. by apply (v_stop s V n i).
  - unfold info_of. simpl. by lk.
  - unfold info_of. simpl. by lk.
  - unfold info_of. simpl. by lk.
Qed.

Lemma step_count E s D s' D' : inv s -> linv E s -> micro E s D s' D' ->
  forall n i, s_current s' !! n = Some i ->
    i_startCount i = starts_since_install (s_log s') n /\
    i_startCount i = metrics_since_install (s_log s') n.
Proof.
  intros V L H. pose proof (l_count E s L) as Hi.
  assert (forall g n r, s_gors s !! g = Some r -> g_name r = n -> g_pc r <> PGone -> s_current s !! n = Some (info_of s n)) as Hact.
  { intros g n r Hg <- Hp. destruct (v_active s V g r Hg Hp) as (i & Hc & _). by rewrite (info_of_eq _ _ _ Hc). }
  assert (forall n, is_Some (s_manifolds s !! n) -> s_current s !! n = Some (info_of s n)) as Hin.
  { intros n Hm%(v_dom s V). destruct Hm as [i Hc]. by rewrite (info_of_eq _ _ _ Hc). }
  mnorm V; try exact Hi; intros k i;
    (destruct (decide (n = k)) as [<-|Hne]; lk; [|apply Hi]); try done; intros [= <-]; simpl.
  - done.
  - apply Hi. auto.
  - apply Hi. auto.
  - apply Hi. auto.
  - destruct (Hi n (info_of s n)) as [Hx1 Hx2]; [by eapply Hact|].
    change (info_of (s <| s_gors ::= <[g := mkGor n f sn x al (waiting_pc w)]> |>) n) with (info_of s n). by rewrite <- Hx1, <- Hx2.
  - change (info_of (s <| s_gors ::= <[g := mkGor n f sn x al PGone]> |>) n) with (info_of s n).
    destruct (recent_errors_keep (e_cfg E) (info_of s n) e (s_now s)) as (_ & _ & _ & ->). apply Hi. by eapply Hact.
  - change (info_of (s <| s_gors ::= <[g := mkGor n f sn x al PGone]> |>) n) with (info_of s n).
    destruct (recent_errors_keep (e_cfg E) (info_of s n) e (s_now s)) as (_ & _ & _ & ->). apply Hi. by eapply Hact.
Qed.

Lemma step_recent E s D s' D' : inv s -> linv E s -> micro E s D s' D' ->
  forall n i, s_current s' !! n = Some i -> i_recent i = error_count (e_cfg E) (s_log s') n.
Proof.
  intros V L H. pose proof (l_recent E s L) as Hi.
  assert (forall g n r, s_gors s !! g = Some r -> g_name r = n -> g_pc r <> PGone -> s_current s !! n = Some (info_of s n)) as Hact.
  { intros g n r Hg <- Hp. destruct (v_active s V g r Hg Hp) as (i & Hc & _). by rewrite (info_of_eq _ _ _ Hc). }
  assert (forall n, is_Some (s_manifolds s !! n) -> s_current s !! n = Some (info_of s n)) as Hin.
  { intros n Hm%(v_dom s V). destruct Hm as [i Hc]. by rewrite (info_of_eq _ _ _ Hc). }
  mnorm V; try exact Hi; intros k i;
    (destruct (decide (n = k)) as [<-|Hne]; lk; [|apply Hi]); try done; intros [= <-]; simpl.
  - done.
  - apply Hi. auto.
  - apply Hi. auto.
  - apply Hi. auto.
  - change (info_of (s <| s_gors ::= <[g := mkGor n f sn x al (waiting_pc w)]> |>) n) with (info_of s n). apply Hi. by eapply Hact.
  - change (info_of (s <| s_gors ::= <[g := mkGor n f sn x al PGone]> |>) n) with (info_of s n).
    eapply recent_errors_eq; [done| |by apply (l_time E s L)]. apply Hi. by eapply Hact.
  - change (info_of (s <| s_gors ::= <[g := mkGor n f sn x al PGone]> |>) n) with (info_of s n).
    eapply recent_errors_eq; [done| |by apply (l_time E s L)]. apply Hi. by eapply Hact.
Qed.

Lemma step_gid E s D s' D' : inv s -> linv E s -> micro E s D s' D' ->
  forall ev g, ev ∈ s_log s' -> ev_gid ev = Some g -> g < s_next s'.
Proof.
  intros V L H. pose proof (l_gid E s L) as Hi.
  assert (forall g r, s_gors s !! g = Some r -> g < s_next s) as Hn by apply (v_next s V).
  mnorm V; try exact Hi;
    intros ev g' Hev Hg'; repeat (apply elem_of_cons in Hev as [->|Hev]); simpl in *;
    try (injection Hg' as <-); try done; try (by eapply Hi); try (by eapply Hn).
  - lia.
  - pose proof (Hi _ _ Hev Hg'). lia.
  - destruct (v_dom s V n) as [_ [i Hx]]; [done|]. rewrite (info_of_eq _ _ _ Hx) in *.
    destruct (v_has s V n i Hx) as (g & r & Hg & <- & Hp); [done|].
    destruct (v_active s V g r Hg Hp) as (i' & Hi' & Hok). assert (i' = i) as -> by congruence.
    destruct Hok. rewrite H2 in go_cancel. destruct go_cancel as [-> _]. simpl. by eapply Hn.
  - destruct (v_dom s V n) as [_ [i Hx]]; [done|]. rewrite (info_of_eq _ _ _ Hx) in *.
    destruct (v_has s V n i Hx) as (g & r & Hg & <- & Hp); [done|].
    destruct (v_active s V g r Hg Hp) as (i' & Hi' & Hok). assert (i' = i) as -> by congruence.
    destruct Hok. rewrite H2 in go_cancel. destruct go_cancel as [-> _]. simpl. by eapply Hn.
  - destruct (v_dom s V n) as [_ [i Hx]]; [done|]. rewrite (info_of_eq _ _ _ Hx) in *.
    destruct (v_has s V n i Hx) as (g & r & Hg & <- & Hp); [done|].
    destruct (v_active s V g r Hg Hp) as (i' & Hi' & Hok). assert (i' = i) as -> by congruence.
    destruct Hok. rewrite H2 in go_cancel. destruct go_cancel as [-> _]. simpl. by eapply Hn.
Qed.

Lemma step_all E s D s' D' : inv s -> linv E s -> micro E s D s' D' ->
  forall g, g < s_next s' -> is_Some (s_gors s' !! g).
Proof.
  intros V L H. pose proof (l_all E s L) as Hi. mnorm V; try exact Hi;
    intros g' Hg'; rewrite lookup_insert_is_Some'; try (right; by apply Hi).
  destruct (decide (s_next s = g')); [by left|right]. apply Hi. lia.
Qed.

Lemma step_att E s D s' D' : inv s -> linv E s -> micro E s D s' D' ->
  forall g r, s_gors s' !! g = Some r -> exists t d, EvAttempt g (g_name r) (g_snap r) t d ∈ s_log s'.
Proof.
  intros V L H. pose proof (l_att E s L) as Hi.
  assert (forall new g r, (exists t d, EvAttempt g (g_name r) (g_snap r) t d ∈ s_log s) ->
     exists t d, EvAttempt g (g_name r) (g_snap r) t d ∈ new ++ s_log s) as Hold.
  { intros new g r (t & d & Hx). exists t, d. apply elem_of_app. auto. }
  mnorm V; try exact Hi; intros g' r';
    try (intros Hg'; by apply (Hold [_]), Hi);
    try (intros Hg'; by apply (Hold [_; _]), Hi);
    try (intros [[<- <-]|[Hne Hg']]%lookup_insert_Some; simpl;
     try (by apply (Hold []), Hi); try (by apply (Hold [_]), Hi); try (by apply (Hold [_; _]), Hi);
     match goal with Hg : s_gors s !! ?g = Some _ |- _ => destruct (Hi _ _ Hg) as (t & d & Hev); simpl in Hev;
       exists t, d; repeat (apply elem_of_cons; right); exact Hev end).
  intros [[<- <-]|[Hne Hg']]%lookup_insert_Some; simpl; [|by apply (Hold [_]), Hi].
  eexists _, _. by left.
Qed.

(** Events that matter for [phase_ok] *)
Definition phase_gid (ev : event) : option nat :=
  match ev with
  | EvStartCall g _ _ _ | EvStartRet g _ _ | EvExit g _ _ => Some g
  | _ => None
  end.

Lemma phase_neutral new log g : Forall (fun ev => phase_gid ev <> Some g) new ->
  (start_called (new ++ log) g <-> start_called log g) /\
  (start_failed (new ++ log) g <-> start_failed log g) /\
  (worker_exited (new ++ log) g <-> worker_exited log g) /\
  (forall n r, EvStartRet g n r ∈ new ++ log <-> EvStartRet g n r ∈ log).
Proof.
  intros Hf. rewrite Forall_forall in Hf. unfold start_called, start_failed, worker_exited. split_and!.
  - split; intros (n & f & t & H); exists n, f, t; [|set_solver].
    apply elem_of_app in H as [H|H]; [|done]. by apply Hf in H.
  - split; intros (n & e & H); exists n, e; [|set_solver].
    apply elem_of_app in H as [H|H]; [|done]. by apply Hf in H.
  - split; intros (n & e & H); exists n, e; [|set_solver].
    apply elem_of_app in H as [H|H]; [|done]. by apply Hf in H.
  - intros n r. rewrite elem_of_app. split; [|auto]. intros [H|H]; [|done]. by apply Hf in H.
Qed.

Lemma phase_frame new log g n f p : Forall (fun ev => phase_gid ev <> Some g) new ->
  phase_ok log g n f p -> phase_ok (new ++ log) g n f p.
Proof.
  intros Hf. destruct (phase_neutral new log g Hf) as (H1 & H2 & H3 & H4).
  unfold phase_ok, finished. destruct p.
  - intros [Ha (sn & t & d & Hb & Hc)]. split; [by rewrite H1|]. exists sn, t, d. split; [|done].
    apply elem_of_app. auto.
  - intros [(t & Ht) Hb]. split; [exists t; apply elem_of_app; auto|]. intros n' r. by rewrite H4.
  - by rewrite H4, H3.
  - by rewrite H4, H3.
  - by rewrite H4, H3.
  - by rewrite H4, H3.
  - by rewrite H1, H2, H3.
  - by rewrite H1, H2, H3.
Qed.

Lemma phase_frame1 ev log g n f p : phase_gid ev <> Some g ->
  phase_ok log g n f p -> phase_ok (ev :: log) g n f p.
Proof. intros H. apply (phase_frame [ev]). by constructor. Qed.

Lemma phase_frame2 ev1 ev2 log g n f p : phase_gid ev1 <> Some g -> phase_gid ev2 <> Some g ->
  phase_ok log g n f p -> phase_ok (ev1 :: ev2 :: log) g n f p.
Proof. intros H1 H2. apply (phase_frame [ev1; ev2]). by repeat constructor. Qed.

Lemma step_phase E s D s' D' : inv s -> linv E s -> micro E s D s' D' ->
  forall g r, s_gors s' !! g = Some r -> phase_ok (s_log s') g (g_name r) (g_start r) (g_pc r).
Proof.
  intros V L H. pose proof (l_phase E s L) as Hi. mnorm V; try exact Hi; intros g' r';
    try (intros Hg'; apply phase_frame1; [done|by apply Hi]);
    try (intros Hg'; apply phase_frame2; [done|done|by apply Hi]);
    (intros [[<- <-]|[Hne Hg']]%lookup_insert_Some;
     [|first [by apply Hi | apply phase_frame1; [simpl; congruence|by apply Hi]
             | apply phase_frame2; [simpl; congruence|simpl; congruence|by apply Hi]]]);
    simpl;
    try (match goal with Hg : s_gors s !! ?x = Some _ |- _ => specialize (Hi _ _ Hg); simpl in Hi end).
  - split; [|eexists _, _, _; split; [by left|done]].
    intros (n' & f' & t' & Hx). apply elem_of_cons in Hx as [Hx|Hx]; [done|].
    pose proof (l_gid E s L _ _ Hx eq_refl). lia.
  - split; [eexists; by left|]. intros n' r Hx. apply elem_of_cons in Hx as [Hx|Hx]; [done|].
    destruct (l_ret E s L _ _ _ Hx) as (r1 & Hr1 & _ & _ & Hnd & _). rewrite H in Hr1. injection Hr1 as <-.
    by eapply Hnd.
  - left. apply Hi.
  - by apply phase_frame1.
  - split; [by left|]. intros (n' & e' & Hx). apply elem_of_cons in Hx as [Hx|Hx]; [done|].
    destruct (l_exit E s L _ _ _ Hx) as (w & Hw). by apply Hi in Hw.
  - done.
  - right. left. eexists _, _. apply Hi.
  - destruct w; apply (phase_frame2 _ _ _ _ _ f (PWait _)) || apply (phase_frame2 _ _ _ _ _ f PSelf); done.
  - destruct w; apply (phase_frame1 _ _ _ _ f (PWait _)) || apply (phase_frame1 _ _ _ _ f PSelf); done.
  - right. right. eexists _, _. by left.
  - right. right. eexists _, _. by left.
  - by apply (phase_frame1 _ _ _ n f (PSendStopped e)).
  - by apply (phase_frame1 _ _ _ n f (PSendStopped e)).
Qed.

Lemma step_exit E s D s' D' : inv s -> linv E s -> micro E s D s' D' ->
  forall g n e, EvExit g n e ∈ s_log s' -> exists w, EvStartRet g n (inl w) ∈ s_log s'.
Proof.
  intros V L H. pose proof (l_exit E s L) as Hi. mnorm V; try exact Hi; intros g' n' e' Hev;
    repeat (apply elem_of_cons in Hev as [Hev|Hev]); try done;
    try (destruct (Hi _ _ _ Hev) as (w' & Hw'); exists w'; repeat (apply elem_of_cons; right); exact Hw').
  - injection Hev as -> -> ->. pose proof (l_phase E s L _ _ H) as [Hp _]. simpl in Hp. exists w. by right.
  - injection Hev as -> -> ->. pose proof (l_phase E s L _ _ H) as [Hp _]. simpl in Hp. exists WSelf. by right.
Qed.

Lemma step_called E s D s' D' : inv s -> linv E s -> micro E s D s' D' ->
  forall g n f t, EvStartCall g n f t ∈ s_log s' -> exists r, s_gors s' !! g = Some r /\ g_name r = n /\ g_start r = f /\ (forall x, g_pc r <> PDelay x).
Proof.
  intros V L H. pose proof (l_called E s L) as Hi. mnorm V; try exact Hi; intros g' n' f' t' Hev;
    repeat (apply elem_of_cons in Hev as [Hev|Hev]); try done;
    try (by eapply Hi);
    try (destruct (Hi _ _ _ _ Hev) as (r' & Hr' & Hn' & Hf' & Hp');
      match goal with Hg : s_gors s !! ?g = Some _ |- _ =>
        destruct (decide (g = g')) as [<-|Hne];
        [rewrite Hg in Hr'; injection Hr' as <-; eexists; rewrite lookup_insert; split; [done|]; simpl in *; split_and!; try done
        |exists r'; rewrite lookup_insert_ne by done; done] end).
  - destruct (Hi _ _ _ _ Hev) as (r' & Hr' & Hx). exists r'. rewrite lookup_insert_ne; [done|].
    pose proof (v_next s V _ _ Hr'). lia.
  - injection Hev as -> -> -> ->. eexists. rewrite lookup_insert. done.
  - by destruct w.
  - by destruct w.
Qed.

Lemma step_ret E s D s' D' : inv s -> linv E s -> micro E s D s' D' ->
  forall g n r0, EvStartRet g n r0 ∈ s_log s' -> exists r, s_gors s' !! g = Some r /\ g_name r = n /\ g_pc r <> PStart /\ (forall x, g_pc r <> PDelay x) /\ start_called (s_log s') g.
Proof.
  intros V L H. pose proof (l_ret E s L) as Hi.
  assert (forall new g, start_called (s_log s) g -> start_called (new ++ s_log s) g) as Hsc.
  { intros new g (n & f & t & Hx). exists n, f, t. apply elem_of_app. auto. }
  mnorm V; try exact Hi; intros g' n' r0' Hev;
    repeat (apply elem_of_cons in Hev as [Hev|Hev]); try done;
    try (by eapply Hi);
    try (destruct (Hi _ _ _ Hev) as (r' & Hr' & Hn' & Hs' & Hp' & Hc');
      assert (start_called (s_log s) g') as Hc'' by done;
      try match goal with |- context [start_called (?a :: ?b :: s_log s) _] => apply (Hsc [a; b]) in Hc' end;
      try match goal with |- context [start_called (?a :: s_log s) _] => apply (Hsc [a]) in Hc' end;
      try (exists r'; done);
      match goal with Hg : s_gors s !! ?g = Some _ |- _ =>
        destruct (decide (g = g')) as [<-|Hne];
        [rewrite Hg in Hr'; injection Hr' as <-; eexists; rewrite lookup_insert; split; [done|]; simpl in *; split_and!; try done
        |exists r'; rewrite lookup_insert_ne by done; done] end).
  - destruct (Hi _ _ _ Hev) as (r' & Hr' & Hx1 & Hx2 & Hx3 & Hx4). exists r'. rewrite lookup_insert_ne.
    + split_and!; try done. by apply (Hsc [_]).
    + pose proof (v_next s V _ _ Hr'). lia.
  - by destruct (Hp' ready).
  - injection Hev as -> -> ->. eexists. rewrite lookup_insert. split_and!; try done.
    apply (Hsc [_]). pose proof (l_phase E s L _ _ H) as [(t & Hp) _]. simpl in Hp. eexists _, _, _. exact Hp.
  - by destruct w.
  - by destruct w.
  - by destruct w.
  - by destruct w.
Qed.

Lemma step_end E s D s' D' : inv s -> linv E s -> micro E s D s' D' ->
  forall g r, s_gors s' !! g = Some r -> (g_pc r = PGone <-> exists n raw e t, EvStopped g n raw e t ∈ s_log s').
Proof.
  intros V L H. pose proof (l_end E s L) as Hi.
  assert (forall new g, Forall (fun ev => forall n raw e t, ev <> EvStopped g n raw e t) new ->
    (exists n raw e t, EvStopped g n raw e t ∈ new ++ s_log s) <-> (exists n raw e t, EvStopped g n raw e t ∈ s_log s)) as Hn.
  { intros new g Hf. rewrite Forall_forall in Hf.
    split; intros (n & raw & e & t & Hx); exists n, raw, e, t; [|set_solver].
    apply elem_of_app in Hx as [Hx|Hx]; [|done]. by destruct (Hf _ Hx n raw e t). }
  mnorm V; try exact Hi; intros g' r';
    try match goal with |- context [EvStopped g' _ _ _ _ ∈ ?a :: ?b :: s_log s] => 
      pose proof (Hn [a; b] g') as Hnn; simpl in Hnn; try (rewrite Hnn by (repeat constructor; done)) end;
    try match goal with |- context [EvStopped g' _ _ _ _ ∈ ?a :: s_log s] => 
      pose proof (Hn [a] g') as Hnn; simpl in Hnn; try (rewrite Hnn by (repeat constructor; done)) end;
    try (by apply Hi);
    try (intros [[<- <-]|[Hne Hg']]%lookup_insert_Some; [|by apply Hi];
      match goal with Hg : s_gors s !! _ = Some _ |- _ => rewrite <- (Hi _ _ Hg) end; simpl; try done; try (by destruct w)).
  - intros [[<- <-]|[Hne Hg']]%lookup_insert_Some; [|by apply Hi]. simpl. split; [done|].
    intros (n' & raw & e & t & Hx). pose proof (l_gid E s L _ _ Hx eq_refl). lia.
  - intros [[<- <-]|[Hne Hg']]%lookup_insert_Some; simpl.
    + split; [|done]. intros _. eexists _, _, _, _. by left.
    + rewrite Hnn by (repeat constructor; congruence). by apply Hi.
  - intros [[<- <-]|[Hne Hg']]%lookup_insert_Some; simpl.
    + split; [|done]. intros _. eexists _, _, _, _. by left.
    + rewrite Hnn by (repeat constructor; congruence). by apply Hi.
Qed.

Lemma micro_linv E s D s' D' : inv s -> linv E s -> micro E s D s' D' -> linv E s'.
Proof.
  intros V L H. split.
  - by eapply step_inst.
  - by eapply step_dying.
  - by eapply step_regw.
  - by eapply step_regg.
  - by eapply step_prog.
  - by eapply step_canc.
  - by eapply step_count.
  - by eapply step_time.
  - by eapply step_recent.
  - by eapply step_worst.
  - by eapply step_gid.
  - by eapply step_att.
  - by eapply step_phase.
  - by eapply step_all.
  - by eapply step_called.
  - by eapply step_ret.
  - by eapply step_exit.
  - by eapply step_end.
Qed.

Lemma linv_init E : linv E init.
Proof.
  assert (forall ev : event, ev ∉ []) as Hn by (intros ev H; by apply elem_of_nil in H).
  split; simpl; try done; unfold is_dying, asked_to_stop, active, dying; simpl;
    try (split; [done|]); try set_solver; try (intros; exfalso; by eapply Hn).
  all: try (intros; lia).
Qed.

Theorem reachable_linv E s : reachable E s -> inv s /\ linv E s.
Proof.
  intros H. split; [by eapply reachable_inv|].
  apply (reach_ind E (fun s D => linv E s)); [apply linv_init| |done].
  intros s1 D1 s2 D2 V V' L Hm. by apply (micro_linv E s1 D1 s2 D2).
Qed.

(** Induction principle with both invariants at hand. *)
Theorem reach_ind2 (E : env) (P : state -> gset string -> Prop) :
  P init ∅ ->
  (forall s D s' D', inv s -> linv E s -> inv s' -> linv E s' -> P s D -> micro E s D s' D' -> P s' D') ->
  forall s, reachable E s -> P s ∅.
Proof.
  intros H0 Hs s Hr. enough (linv E s /\ P s ∅) by tauto.
  apply (reach_ind E (fun s D => linv E s /\ P s D)); [split; [apply linv_init|done]| |done].
  intros s1 D1 s2 D2 V V' [L HP] Hm. assert (linv E s2) by (by apply (micro_linv E s1 D1 s2 D2)). split; [done|].
  by eapply (Hs s1 D1).
Qed.
