(** Structural invariant of the engine and decomposition of its steps into small updates.

    [micro E s D s' D'] are the elementary state changes a step is made of.  [D] is bookkeeping: the names
    that the handler in progress still has to deal with (bounce, restart or stop); it is empty between
    steps. *)
From stdpp Require Import gmap strings list relations.
From Coq Require Import ZArith.
From RecordUpdate Require Import RecordSet.
From Verif Require Import Err Tomb Order Validate ValidateSpec ValidateProofs Snapshot Engine EngineSpec.
Import RecordSetNotations.

Global Arguments poll : simpl never.
Global Arguments kill_tomb : simpl never.
Global Arguments info_of : simpl never.
Global Arguments dependents_of : simpl never.
Global Arguments manifold_of : simpl never.

(** ** Invariant *)

Definition expired_at (p : pc) : bool :=
  match p with PDelay _ | PStart | PReturned _ => false | _ => true end.

(** What the info [i] of a manifold says about its goroutine number [g], at [p]. *)
Record gi_ok (dy : bool) (canc : gset nat) (g : nat) (p : pc) (i : info) : Prop := {
  go_live : i_stopped i = false;
  go_starting : i_starting i = true -> i_worker i = None;
  go_time : is_Some (i_startedTime i) <-> is_Some (i_worker i);
  go_cancel : if i_stopping i then i_cancel i = None /\ g ∈ canc else i_cancel i = Some g /\ g ∉ canc;
  go_pc : match p with
          | PDelay _ | PStart | PReturned _ | PSendStarted _ => i_starting i = true
          | PWait w => w <> WSelf /\ (i_worker i = Some w \/ i_starting i = true /\ (i_stopping i = true \/ dy = true))
          | PSelf => i_worker i = Some WSelf \/ i_starting i = true /\ (i_stopping i = true \/ dy = true)
          | PSendStopped _ => True
          | PGone => False
          end
}.

(** Number of occurrences in a list *)
Definition occ (d : string) (l : list string) : nat := length (filter (fun y => y = d) l).

Record inv (s : state) : Prop := {
  v_dom : forall n, is_Some (s_current s !! n) <-> is_Some (s_manifolds s !! n);
  v_deps : forall x d, d ∈ dependents_of s x <-> exists m, s_manifolds s !! d = Some m /\ x ∈ m_inputs m;
  v_acyc : acyclic (inputs_graph (s_manifolds s));
  v_next : forall g r, s_gors s !! g = Some r -> g < s_next s;
  v_canc : forall g, g ∈ s_cancelled s -> g < s_next s;
  v_exp : forall g r, s_gors s !! g = Some r -> g_expired r = expired_at (g_pc r);
  v_active : forall g r, s_gors s !! g = Some r -> g_pc r <> PGone ->
    exists i, s_current s !! g_name r = Some i /\ gi_ok (dying s) (s_cancelled s) g (g_pc r) i;
  v_uniq : forall g1 g2 r1 r2, s_gors s !! g1 = Some r1 -> s_gors s !! g2 = Some r2 ->
    g_pc r1 <> PGone -> g_pc r2 <> PGone -> g_name r1 = g_name r2 -> g1 = g2;
  v_has : forall n i, s_current s !! n = Some i -> i_stopped i = false ->
    exists g r, s_gors s !! g = Some r /\ g_name r = n /\ g_pc r <> PGone;
  v_stop : forall n i, s_current s !! n = Some i -> i_stopped i = true ->
    i_stopping i = false /\ i_cancel i = None /\ i_startedTime i = None;
  v_reason : t_reason (s_tomb s) = StillAlive \/ t_reason (s_tomb s) = Reason None;
  v_panic : t_panic (s_tomb s) = false;
  v_run : if s_running s then t_alive (s_tomb s) = 1 /\ t_dead (s_tomb s) = false
          else t_alive (s_tomb s) = 0 /\ t_dead (s_tomb s) = true /\ dying s = true;
  v_dead : s_running s = false -> forall n i, s_current s !! n = Some i ->
    i_stopped i = true \/ i_worker i = Some WSelf;
  v_shot : s_oneShot s = false -> dying s = true;
  v_once : forall x d m, s_manifolds s !! d = Some m -> NoDup (m_inputs m) -> occ d (dependents_of s x) <= 1
}.

(** ** Elementary updates *)

Definition waiting_pc (w : worker) : pc := match w with WSelf => PSelf | WExt _ => PWait w end.

(** [do_stop] without the effect of killing the engine itself *)
Definition stop_base (n : string) (s : state) : state :=
  let i := info_of s n in
  let c := default 0 (i_cancel i) in
  let s1 := emit (EvCancel c n) (s <| s_cancelled ::= union {[c]} |>) in
  let s2 := match i_worker i with Some w => emit (EvKill c n w) s1 | None => s1 end in
  set_info n (i <| i_stopping := true |> <| i_cancel := None |>) s2.

(** [end_attempt] without the effect of killing the engine *)
Definition end_base (E : env) (g : nat) (n : string) (raw : option err) (rlog : list access) (s : state) : state :=
  let i := recent_errors (e_cfg E) (info_of s n) raw (s_now s) in
  let e := filtered s n raw in
  let s0 := emit (EvStopped g n raw e (s_now s)) s in
  let s1 := if c_isFatal (e_cfg E) e then s0 <| s_worst ::= c_worstError (e_cfg E) e |> else s0 in
  set_info n (mkInfo false false None None e rlog None (i_startCount i) (i_attempts i) (i_recent i)) s1.

(** Why a manifold may be asked to stop *)
Definition stop_cause (s : state) (D : gset string) (n : string) : Prop :=
  (s_oneShot s = false /\ dying s = true) \/
  (exists x m, last_change (s_log s) = Some x /\ s_manifolds s !! n = Some m /\ x ∈ m_inputs m /\
    (NoDup (m_inputs m) -> n ∈ D \/ dying s = true)).

(** Why a start attempt may be launched with base delay [base] *)
Definition launch_cause (E : env) (s : state) (n : string) (base : Z) : Prop :=
  (base = 0%Z /\ exists m, head (s_log s) = Some (EvInstalled n m)) \/
  (base = c_bounceDelay (e_cfg E) /\
    exists x m, last_change (s_log s) = Some x /\ s_manifolds s !! n = Some m /\ x ∈ m_inputs m) \/
  (exists g raw e t, head (s_log s) = Some (EvStopped g n raw e t) /\
    ((g ∈ s_cancelled s /\ base = c_bounceDelay (e_cfg E)) \/
     (g ∉ s_cancelled s /\ restart_delay (e_cfg E) e = Some base))).

Inductive micro (E : env) : state -> gset string -> state -> gset string -> Prop :=
  | MKill s D : micro E s D (kill_tomb None s) D
  | MPolls s D : micro E s D (s <| s_polls ::= S |>) D
  | MTick s D d : (0 <= d)%Z -> micro E s D (s <| s_now ::= Z.add d |>) D
  | MInstallRet s D n m r : micro E s D (emit (EvInstall n m r) s) D
  | MReport s D r : (s_running s = true /\ r = live_report E s \/ t_dead (s_tomb s) = true /\ r = dead_report E s) ->
      micro E s D (emit (EvReport r) s) D
  | MWait s D : t_dead (s_tomb s) = true -> micro E s D (emit (EvWait (wait_result E s)) s) D
  | MRecord s n m : s_running s = true -> s_manifolds s !! n = None ->
      acyclic (inputs_graph (<[n := m]> (s_manifolds s))) ->
      micro E s ∅ (record_manifold n m s) (if dying s then ∅ else {[n]})
  | MLaunch s D n base : s_running s = true -> is_Some (s_manifolds s !! n) ->
      i_stopped (info_of s n) = true -> dying s = false -> launch_cause E s n base ->
      micro E s D (launch E n base s) (D ∖ {[n]})
  | MStop s D n : s_running s = true -> is_Some (s_manifolds s !! n) ->
      i_stopped (info_of s n) = false -> i_stopping (info_of s n) = false -> stop_cause s D n ->
      micro E s D (stop_base n s) (D ∖ {[n]})
  | MSkip s D n : i_stopping (info_of s n) = true \/ dying s = true /\ i_stopped (info_of s n) = true ->
      micro E s D s (D ∖ {[n]})
  | MDrop s D : dying s = true -> s_oneShot s = true -> micro E s D s ∅
  | MUninstall s D n g raw e t : s_running s = true -> is_Some (s_manifolds s !! n) ->
      i_stopped (info_of s n) = true -> dying s = false -> n ∈ D ->
      head (s_log s) = Some (EvStopped g n raw e t) -> restart_delay (e_cfg E) e = None -> is_const e KUninstall = true -> g ∉ s_cancelled s ->
      micro E s D (uninstall E n s) (D ∖ {[n]})
  | MFire s g n f sn x al ready : s_gors s !! g = Some (mkGor n f sn x al (PDelay ready)) ->
      (ready <= s_now s)%Z ->
      micro E s ∅ (emit (EvStartCall g n f (s_now s)) (s <| s_gors ::= <[g := mkGor n f sn x al PStart]> |>)) ∅
  | MAbort s g n f sn x al ready : s_gors s !! g = Some (mkGor n f sn x al (PDelay ready)) ->
      dying s = true \/ g ∈ s_cancelled s ->
      micro E s ∅ (s <| s_gors ::= <[g := mkGor n f sn true al (PSendStopped (Some (EConst KStartAborted)))]> |>) ∅
  | MGet s g n f sn x al p k out e call al' : s_gors s !! g = Some (mkGor n f sn x al p) ->
      snapshot_get (e_outf E) sn x al k out = (e, call, al') ->
      micro E s ∅ (emit (EvGet g k out e call) (s <| s_gors ::= <[g := mkGor n f sn x al' p]> |>)) ∅
  | MStartRet s g n f sn x al r : s_gors s !! g = Some (mkGor n f sn x al PStart) ->
      micro E s ∅ (emit (EvStartRet g n r) (s <| s_gors ::= <[g := mkGor n f sn x al (PReturned r)]> |>)) ∅
  | MExpireOk s g n f sn x al w : s_gors s !! g = Some (mkGor n f sn x al (PReturned (inl w))) ->
      micro E s ∅ (s <| s_gors ::= <[g := mkGor n f sn true al (PSendStarted w)]> |>) ∅
  | MExpireErr s g n f sn x al e e' : s_gors s !! g = Some (mkGor n f sn x al (PReturned (inr e))) ->
      e' = (if err_is e (EConst KStartAborted) then EConst KStartAborted else e) ->
      micro E s ∅ (s <| s_gors ::= <[g := mkGor n f sn true al (PSendStopped (Some e'))]> |>) ∅
  | MRegister s g n f sn x al w : s_gors s !! g = Some (mkGor n f sn x al (PSendStarted w)) ->
      s_running s = true -> i_worker (info_of s n) = None -> i_stopping (info_of s n) = false -> dying s = false ->
      micro E s ∅ (register g n w al (s <| s_gors ::= <[g := mkGor n f sn x al (waiting_pc w)]> |>))
        (list_to_set (dependents_of s n))
  | MRefuse s g n f sn x al w : s_gors s !! g = Some (mkGor n f sn x al (PSendStarted w)) ->
      i_worker (info_of s n) = None ->
      i_stopping (info_of s n) = true \/ dying s = true ->
      micro E s ∅ (emit (EvKill g n w) (s <| s_gors ::= <[g := mkGor n f sn x al (waiting_pc w)]> |>)) ∅
  | MExit s g n f sn x al w e : s_gors s !! g = Some (mkGor n f sn x al (PWait w)) ->
      micro E s ∅ (emit (EvExit g n e) (s <| s_gors ::= <[g := mkGor n f sn x al (PSendStopped e)]> |>)) ∅
  | MSelfDying s g n f sn x al : s_gors s !! g = Some (mkGor n f sn x al PSelf) -> dying s = true ->
      micro E s ∅ (emit (EvExit g n (Some ETombDying))
        (s <| s_gors ::= <[g := mkGor n f sn x al (PSendStopped (Some ETombDying))]> |>)) ∅
  | MEnd s g n f sn x al e : s_gors s !! g = Some (mkGor n f sn x al (PSendStopped e)) ->
      s_running s = true ->
      micro E s ∅ (end_base E g n e al (s <| s_gors ::= <[g := mkGor n f sn x al PGone]> |>))
        (if dying s then ∅ else
         (if i_stopping (info_of s n) || negb (terminal (filtered s n e)) then {[n]} else ∅) ∪
         (match i_worker (info_of s n) with Some _ => list_to_set (dependents_of s n) | None => ∅ end))
  | MShot s : s_running s = true -> dying s = true -> s_oneShot s = true ->
      micro E s ∅ (s <| s_oneShot := false |>) (dom (s_current s))
  | MDead s : s_running s = true -> dying s = true -> all_others_stopped s = true ->
      micro E s ∅ (emit EvDead (s <| s_running := false |> <| s_tomb ::= (fun t => tomb_done t (Some ETombDying)) |>)) ∅.

Inductive micros (E : env) : state -> gset string -> state -> gset string -> Prop :=
  | micros_refl s D : micros E s D s D
  | micros_step s1 D1 s2 D2 s3 D3 : micro E s1 D1 s2 D2 -> micros E s2 D2 s3 D3 -> micros E s1 D1 s3 D3.

Lemma micros_one E s D s' D' : micro E s D s' D' -> micros E s D s' D'.
Proof. intros. eapply micros_step; [done|constructor]. Qed.
Lemma micros_trans E s1 D1 s2 D2 s3 D3 :
  micros E s1 D1 s2 D2 -> micros E s2 D2 s3 D3 -> micros E s1 D1 s3 D3.
Proof. induction 1; [done|]. intros. eapply micros_step; eauto. Qed.
Lemma micros_snoc E s1 D1 s2 D2 s3 D3 :
  micros E s1 D1 s2 D2 -> micro E s2 D2 s3 D3 -> micros E s1 D1 s3 D3.
Proof. intros. eapply micros_trans; [done|by apply micros_one]. Qed.

(** ** The invariant is preserved *)

Ltac none_iff := split; intros [? ?]; discriminate.

Lemma kill_tomb_eq s : inv s \/ (t_reason (s_tomb s) = StillAlive \/ t_reason (s_tomb s) = Reason None) ->
  kill_tomb None s = s <| s_tomb := (s_tomb s) <| t_reason := Reason None |> |>
                       <| s_log := (if dying s then [] else [EvDying]) ++ s_log s |>.
Proof.
  intros H. assert (t_reason (s_tomb s) = StillAlive \/ t_reason (s_tomb s) = Reason None) as Hr
    by (destruct H as [[]|]; done). clear H.
  destruct s as [t ? ? ? ? ? ? ? ? ? ? ? ?]. destruct t as [r a d p]. simpl in Hr.
  unfold kill_tomb, dying, t_dying, tomb_kill. simpl.
  by destruct Hr as [-> | ->].
Qed.

Lemma info_of_eq s n i : s_current s !! n = Some i -> info_of s n = i.
Proof. unfold info_of. by intros ->. Qed.

Lemma gi_ok_mono dy dy' c g p i : (dy = true -> dy' = true) -> gi_ok dy c g p i -> gi_ok dy' c g p i.
Proof. intros Hm []. split; try done. destruct p; try done; naive_solver. Qed.

(** An update of one active goroutine that leaves everything else alone. *)
Lemma inv_upd_gor s g r r' l : inv s -> s_gors s !! g = Some r -> g_pc r <> PGone -> g_pc r' <> PGone ->
  g_name r' = g_name r -> g_expired r' = expired_at (g_pc r') ->
  (forall i, gi_ok (dying s) (s_cancelled s) g (g_pc r) i -> gi_ok (dying s) (s_cancelled s) g (g_pc r') i) ->
  inv (s <| s_gors ::= <[g := r']> |> <| s_log := l |>).
Proof.
  intros V Hg Hp Hp' Hn He Hok. destruct V. split; simpl; try done.
  - intros g0 r0 [[<- <-]|[? ?]]%lookup_insert_Some; eauto.
  - intros g0 r0 [[<- <-]|[? ?]]%lookup_insert_Some; eauto.
  - intros g0 r0 [[<- <-]|[? ?]]%lookup_insert_Some Hp0; [|by eauto].
    destruct (v_active0 g r Hg Hp) as (i & Hi & Hio). exists i. rewrite Hn. split; [done|]. by apply Hok.
  - intros g1 g2 r1 r2 [[<- <-]|[? ?]]%lookup_insert_Some [[<- <-]|[? ?]]%lookup_insert_Some ? ? ?;
      [done| | |by eapply v_uniq0]; [eapply (v_uniq0 g g2 r r2)|eapply (v_uniq0 g1 g r1 r)]; eauto; congruence.
  - intros n i Hi Hs. destruct (v_has0 n i Hi Hs) as (g1 & r1 & H1 & H2 & H3).
    destruct (decide (g = g1)) as [<-|Hne].
    + exists g, r'. rewrite lookup_insert. split; [done|]. split; [|done]. rewrite Hn. congruence.
    + exists g1, r1. by rewrite lookup_insert_ne.
Qed.

(** Same fields up to log, clock and counters. *)
Lemma inv_frame s s' : inv s ->
  s_tomb s' = s_tomb s -> s_manifolds s' = s_manifolds s -> s_dependents s' = s_dependents s ->
  s_current s' = s_current s -> s_oneShot s' = s_oneShot s -> s_running s' = s_running s ->
  s_gors s' = s_gors s -> s_next s' = s_next s -> s_cancelled s' = s_cancelled s -> inv s'.
Proof.
  intros V H1 H2 H3 H4 H5 H6 H7 H8 H9. destruct s, s'; simpl in *; subst.
  destruct V. split; assumption.
Qed.

Lemma inv_kill s : inv s -> inv (kill_tomb None s).
Proof.
  intros V. rewrite kill_tomb_eq by eauto. destruct V. split; simpl; try done.
  - intros g r Hg Hp. destruct (v_active0 g r Hg Hp) as (i & ? & Hok). exists i. split; [done|].
    eapply gi_ok_mono; [|done]. done.
  - by right.
  - destruct (s_running s); naive_solver.
Qed.

(** ** Dependents bookkeeping *)

Lemma add_dependents_elem n l ds x d :
  d ∈ default [] (add_dependents n l ds !! x) <-> d ∈ default [] (ds !! x) \/ (d = n /\ x ∈ l).
Proof.
  unfold add_dependents. revert ds. induction l as [|y l IH]; intros ds; simpl.
  { split; [auto|]. intros [?|[_ H]]; [done|]. by apply elem_of_nil in H. }
  rewrite IH. destruct (decide (x = y)) as [->|Hne].
  - rewrite lookup_insert. simpl. rewrite elem_of_app, elem_of_list_singleton.
    split; [intros [[?|?]|[? ?]]|intros [?|[? ?]]]; auto; right; split; auto; by constructor.
  - rewrite lookup_insert_ne by done. rewrite elem_of_cons. naive_solver.
Qed.

Lemma uninstall_list_elem rank n l d : d ∈ uninstall_list rank n l <-> d ∈ l /\ d <> n.
Proof. unfold uninstall_list. rewrite elem_of_iter_order, elem_of_list_filter, elem_of_remove_dups. naive_solver. Qed.

Lemma acyclic_subseteq (g1 g2 : graph) : g1 ⊆ g2 -> acyclic g2 -> acyclic g1.
Proof.
  intros Hs Ha n Hn. apply (Ha n). revert Hn. unfold on_cycle.
  assert (forall a b, depends g1 a b -> depends g2 a b) as Hd.
  { intros a b (l & Hl & ?). exists l. split; [|done]. eapply lookup_weaken; eauto. }
  generalize n at 2 4. intros k H. induction H; [by constructor; apply Hd|].
  eapply tc_l; eauto.
Qed.

Lemma acyclic_no_self g n l : acyclic g -> g !! n = Some l -> n ∉ l.
Proof. intros Ha Hg Hin. apply (Ha n). apply tc_once. exists l. done. Qed.

Lemma occ_cons d y l : occ d (y :: l) = (if decide (y = d) then 1 else 0) + occ d l.
Proof. unfold occ. rewrite filter_cons. by destruct (decide (y = d)). Qed.
Lemma occ_app d l1 l2 : occ d (l1 ++ l2) = occ d l1 + occ d l2.
Proof. unfold occ. by rewrite filter_app, app_length. Qed.
Lemma occ_elem d l : d ∈ l <-> 0 < occ d l.
Proof.
  induction l as [|y l IH]; [split; [by intros ?%elem_of_nil|intros Hx; unfold occ in Hx; simpl in Hx; lia]|].
  rewrite elem_of_cons, occ_cons, IH. destruct (decide (y = d)); naive_solver lia.
Qed.
Lemma occ_nodup d l : NoDup l -> occ d l <= 1.
Proof.
  induction 1 as [|y l Hn _ IH]; [unfold occ; simpl; lia|]. rewrite occ_cons. destruct (decide (y = d)) as [->|]; [|lia].
  rewrite occ_elem in Hn. lia.
Qed.
Lemma add_dependents_occ n l ds x d :
  occ d (default [] (add_dependents n l ds !! x)) =
  occ d (default [] (ds !! x)) + (if decide (n = d) then occ x l else 0).
Proof.
  unfold add_dependents. revert ds. induction l as [|y l IH]; intros ds; simpl.
  { destruct (decide (n = d)); unfold occ; simpl; lia. }
  rewrite IH, occ_cons. destruct (decide (y = x)) as [->|Hne].
  - rewrite lookup_insert. simpl. rewrite occ_app, occ_cons.
    change (occ d []) with 0. destruct (decide (n = d)); lia.
  - rewrite lookup_insert_ne by done. destruct (decide (n = d)); lia.
Qed.
Lemma uninstall_list_nodup rank n l : NoDup (uninstall_list rank n l).
Proof. unfold uninstall_list. rewrite iter_order_perm. apply NoDup_filter, NoDup_remove_dups. Qed.

Lemma inv_record s n m : inv s -> s_running s = true -> s_manifolds s !! n = None ->
  acyclic (inputs_graph (<[n := m]> (s_manifolds s))) -> inv (record_manifold n m s).
Proof.
  intros V Hrun Hn Ha. unfold record_manifold. destruct V.
  assert (s_current s !! n = None) as Hc.
  { apply eq_None_not_Some. rewrite v_dom0, Hn. apply is_Some_None. }
  split; simpl; try done.
  - intros k. destruct (decide (n = k)) as [<-|Hne]; [rewrite !lookup_insert; done|by rewrite !lookup_insert_ne].
  - intros x d. unfold dependents_of. simpl. rewrite add_dependents_elem. fold (dependents_of s x). rewrite v_deps0.
    destruct (decide (d = n)) as [->|Hne].
    + rewrite lookup_insert. split.
      * intros [(m' & ? & _)|[_ ?]]; [congruence|eauto].
      * intros (m' & [= <-] & ?). auto.
    + rewrite lookup_insert_ne by done. naive_solver.
  - intros g r Hg Hp. destruct (v_active0 g r Hg Hp) as (i & Hi & ?). exists i. split; [|done].
    rewrite lookup_insert_ne; [done|]. intros ->. congruence.
  - intros k i [[<- <-]|[? ?]]%lookup_insert_Some; [done|eauto].
  - intros k i [[<- <-]|[? ?]]%lookup_insert_Some; [done|eauto].
  - congruence.
  - intros x d m'. unfold dependents_of. simpl. rewrite add_dependents_occ. fold (dependents_of s x).
    assert (occ n (dependents_of s x) = 0) as H0.
    { destruct (decide (n ∈ dependents_of s x)) as [Hin|Hin].
      - apply v_deps0 in Hin as (? & ? & _). congruence.
      - rewrite occ_elem in Hin. lia. }
    intros [[<- <-]|[Hne Hd]]%lookup_insert_Some Hnd.
    + rewrite decide_True by done. rewrite H0. apply occ_nodup. exact Hnd.
    + rewrite decide_False by done. specialize (v_once0 x d m' Hd Hnd). lia.
Qed.

Lemma inv_launch E s n base : inv s -> s_running s = true -> is_Some (s_manifolds s !! n) ->
  i_stopped (info_of s n) = true -> dying s = false -> inv (launch E n base s).
Proof.
  intros V Hrun [m Hm] Hs Hdy. destruct V.
  destruct (v_dom0 n) as [_ [i Hi]]; [by eauto|].
  unfold launch. rewrite (info_of_eq _ _ _ Hi) in *.
  destruct (v_stop0 n i Hi Hs) as (Hst & Hca & Hti).
  assert (i_worker i = None /\ i_starting i = false) as [Hw Hsta].
  { unfold i_stopped in Hs. destruct (i_worker i); [done|]. by destruct (i_starting i). }
  assert (forall g r, s_gors s !! g = Some r -> g_pc r <> PGone -> g_name r <> n) as Hno.
  { intros g r Hg Hp <-. destruct (v_active0 g r Hg Hp) as (i' & Hi' & []). congruence. }
  split; simpl; try done.
  - intros k. destruct (decide (n = k)) as [<-|Hne].
    + rewrite lookup_insert. rewrite <- v_dom0. naive_solver.
    + rewrite lookup_insert_ne by done. apply v_dom0.
  - intros g r [[<- <-]|[? ?]]%lookup_insert_Some; [lia|]. specialize (v_next0 _ _ H0). lia.
  - intros g H. specialize (v_canc0 _ H). lia.
  - intros g r [[<- <-]|[? ?]]%lookup_insert_Some; [done|]. eauto.
  - intros g r [[<- <-]|[Hne Hg]]%lookup_insert_Some Hp; simpl in *.
    + rewrite lookup_insert. eexists. split; [done|]. split; simpl; try done.
      * unfold i_stopped; simpl. by rewrite Hw.
      * rewrite Hti, Hw. none_iff.
      * rewrite Hst. split; [done|]. intros H. apply v_canc0 in H. lia.
    + rewrite lookup_insert_ne by (intros ->; by eapply Hno). eauto.
  - intros g1 g2 r1 r2 [[<- <-]|[? ?]]%lookup_insert_Some [[<- <-]|[? ?]]%lookup_insert_Some ? ? Heq; simpl in *;
      [done| | |by eapply v_uniq0]; exfalso; eapply Hno; eauto.
  - intros k i' [[<- <-]|[Hne Hk]]%lookup_insert_Some Hs'.
    + eexists (s_next s), _. rewrite lookup_insert. done.
    + destruct (v_has0 k i' Hk Hs') as (g1 & r1 & H1 & H2 & H3). exists g1, r1. split; [|done].
      rewrite lookup_insert_ne; [done|]. specialize (v_next0 _ _ H1). lia.
  - intros k i' [[<- <-]|[Hne Hk]]%lookup_insert_Some Hs'; [|eauto].
    unfold i_stopped in Hs'; simpl in Hs'. by destruct (i_worker i).
  - congruence.
Qed.

Lemma inv_stop s n : inv s -> s_running s = true -> is_Some (s_manifolds s !! n) ->
  i_stopped (info_of s n) = false -> i_stopping (info_of s n) = false -> inv (stop_base n s).
Proof.
  intros V Hrun [m Hm] Hs Hst. destruct V.
  destruct (v_dom0 n) as [_ [i Hi]]; [by eauto|].
  destruct (v_has0 n i Hi) as (g & r & Hg & Hn & Hp); [by rewrite <- (info_of_eq _ _ _ Hi)|].
  destruct (v_active0 g r Hg Hp) as (i' & Hi' & Hok). rewrite Hn, Hi in Hi'. injection Hi' as <-.
  assert (i_cancel i = Some g) as Hca.
  { rewrite (info_of_eq _ _ _ Hi) in Hst. destruct Hok. rewrite Hst in *. naive_solver. }
  eapply (inv_frame (s <| s_cancelled ::= union {[g]} |> <| s_current ::= <[n := i <| i_stopping := true |> <| i_cancel := None |>]> |>)).
  2-10: unfold stop_base; rewrite (info_of_eq _ _ _ Hi), Hca; simpl; by destruct (i_worker i).
  rewrite (info_of_eq _ _ _ Hi) in *.
  split; simpl; try done.
  - intros k. destruct (decide (n = k)) as [<-|Hne].
    + rewrite lookup_insert. rewrite <- v_dom0. naive_solver.
    + rewrite lookup_insert_ne by done. apply v_dom0.
  - intros g' [->%elem_of_singleton|H]%elem_of_union; eauto.
  - intros g1 r1 Hg1 Hp1. destruct (decide (g_name r1 = n)) as [Hnn|Hne].
    + assert (g1 = g) as -> by (eapply (v_uniq0 g1 g); eauto; congruence).
      rewrite Hg in Hg1. injection Hg1 as <-.
      rewrite Hnn, lookup_insert. eexists. split; [done|].
      destruct Hok. split; simpl; try done.
      * split; [done|]. set_solver.
      * destruct (g_pc r); naive_solver.
    + rewrite lookup_insert_ne by done. destruct (v_active0 g1 r1 Hg1 Hp1) as (i1 & Hi1 & []).
      exists i1. split; [done|]. split; try done.
      assert (g1 <> g) by (intros ->; congruence).
      destruct (i_stopping i1); [set_solver|]. split; [naive_solver|]. set_solver.
  - intros k i' [[<- <-]|[Hne Hk]]%lookup_insert_Some Hs'; eauto.
  - intros k i' [[<- <-]|[Hne Hk]]%lookup_insert_Some Hs'; [|eauto].
    unfold i_stopped in *; simpl in *. congruence.
  - congruence.
Qed.

Lemma inv_uninstall E s n : inv s -> s_running s = true ->
  i_stopped (info_of s n) = true -> inv (uninstall E n s).
Proof.
  intros V Hrun Hs.
  assert (forall g r, s_gors s !! g = Some r -> g_pc r <> PGone -> g_name r <> n) as Hno.
  { intros g r Hg Hp <-. destruct (v_active s V g r Hg Hp) as (i' & Hi' & []).
    rewrite (info_of_eq _ _ _ Hi') in Hs. congruence. }
  unfold uninstall. destruct V. split; simpl; try done.
  - intros k. destruct (decide (n = k)) as [<-|Hne]; [rewrite !lookup_delete; none_iff|by rewrite !lookup_delete_ne].
  - intros x d. unfold dependents_of; simpl. rewrite lookup_fmap.
    destruct (decide (d = n)) as [->|Hne].
    + rewrite lookup_delete. split; [|naive_solver].
      destruct (s_dependents s !! x); simpl; [|intros H; by apply elem_of_nil in H].
      rewrite uninstall_list_elem. naive_solver.
    + rewrite lookup_delete_ne by done. rewrite <- v_deps0. unfold dependents_of.
      destruct (s_dependents s !! x); simpl; [|done]. rewrite uninstall_list_elem. naive_solver.
  - eapply acyclic_subseteq; [|exact v_acyc0]. unfold inputs_graph. apply map_fmap_mono. apply delete_subseteq.
  - intros g r Hg Hp. rewrite lookup_delete_ne by (intros Heq; by eapply Hno). eauto.
  - intros k i [Hne Hk]%lookup_delete_Some. eauto.
  - intros k i [Hne Hk]%lookup_delete_Some. eauto.
  - congruence.
  - intros x d m' [Hne Hd]%lookup_delete_Some Hnd. unfold dependents_of. simpl. rewrite lookup_fmap.
    destruct (s_dependents s !! x); simpl; [|unfold occ; simpl; lia]. apply occ_nodup, uninstall_list_nodup.
Qed.

Lemma inv_register s g n f sn x al w : inv s -> s_gors s !! g = Some (mkGor n f sn x al (PSendStarted w)) ->
  s_running s = true -> dying s = false ->
  inv (register g n w al (s <| s_gors ::= <[g := mkGor n f sn x al (waiting_pc w)]> |>)).
Proof.
  intros V Hg Hrun Hdy. destruct V.
  destruct (v_active0 g _ Hg) as (i & Hi & Hok); [done|]. simpl in *.
  unfold register. erewrite info_of_eq by (simpl; exact Hi).
  destruct Hok. simpl in *. 
  split; simpl; try done.
  - intros k. destruct (decide (n = k)) as [<-|Hne].
    + rewrite lookup_insert. rewrite <- v_dom0. naive_solver.
    + rewrite lookup_insert_ne by done. apply v_dom0.
  - intros g0 r0 [[<- <-]|[? ?]]%lookup_insert_Some; eauto.
  - intros g0 r0 [[<- <-]|[? ?]]%lookup_insert_Some; [|eauto].
    specialize (v_exp0 _ _ Hg). simpl in *. rewrite v_exp0. by destruct w.
  - intros g0 r0 [[<- <-]|[? Hg0]]%lookup_insert_Some Hp0; simpl in *.
    + rewrite lookup_insert. eexists. split; [done|]. split; simpl; try done.
      destruct w; simpl; naive_solver.
    + rewrite lookup_insert_ne; [eauto|]. intros Heq.
      assert (g0 = g); [|congruence]. eapply (v_uniq0 g0 g); eauto; simpl; done.
  - intros g1 g2 r1 r2 [[<- <-]|[? ?]]%lookup_insert_Some [[<- <-]|[? ?]]%lookup_insert_Some ? ? ?; simpl in *;
      [done| | |by eapply v_uniq0]; [eapply (v_uniq0 g g2)|eapply (v_uniq0 g1 g)]; eauto; done.
  - intros k i0 Hi0 Hs.
    assert (exists i1, s_current s !! k = Some i1 /\ i_stopped i1 = false) as (i1 & Hi1 & Hs1).
    { apply lookup_insert_Some in Hi0 as [[<- <-]|[Hne Hi0]]; eauto. }
    destruct (v_has0 k i1 Hi1 Hs1) as (g1 & r1 & H1 & H2 & H3).
    destruct (decide (g = g1)) as [<-|Hne].
    + exists g. eexists. rewrite lookup_insert. split; [done|].
      rewrite Hg in H1. injection H1 as <-. simpl in *. split; [done|]. by destruct w.
    + exists g1, r1. by rewrite lookup_insert_ne.
  - intros k i' [[<- <-]|[Hne Hk]]%lookup_insert_Some Hs'; [|eauto]. done.
  - congruence.
Qed.

Lemma recent_errors_keep cfg i e t :
  i_starting (recent_errors cfg i e t) = i_starting i /\ i_stopping (recent_errors cfg i e t) = i_stopping i /\
  i_worker (recent_errors cfg i e t) = i_worker i /\ i_startCount (recent_errors cfg i e t) = i_startCount i.
Proof. unfold recent_errors. repeat case_match; done. Qed.

Lemma inv_end E s g n f sn x al e : inv s -> s_gors s !! g = Some (mkGor n f sn x al (PSendStopped e)) ->
  s_running s = true ->
  inv (end_base E g n e al (s <| s_gors ::= <[g := mkGor n f sn x al PGone]> |>)).
Proof.
  intros V Hg Hrun. destruct V.
  destruct (v_active0 g _ Hg) as (i & Hi & Hok); [done|]. simpl in *.
  set (i' := mkInfo false false None None (filtered s n e) al None
     (i_startCount (recent_errors (e_cfg E) i e (s_now s)))
     (i_attempts (recent_errors (e_cfg E) i e (s_now s))) (i_recent (recent_errors (e_cfg E) i e (s_now s)))).
  eapply (inv_frame (s <| s_gors ::= <[g := mkGor n f sn x al PGone]> |> <| s_current ::= <[n := i']> |>)).
  2-10: unfold end_base; erewrite info_of_eq by (simpl; exact Hi); simpl; by destruct (c_isFatal _ _).
  clear Hok.
  assert (forall g0 r0, s_gors s !! g0 = Some r0 -> g_pc r0 <> PGone -> g_name r0 = n -> g0 = g) as Hu.
  { intros g0 r0 H1 H2 H3. eapply (v_uniq0 g0 g); eauto; done. }
  split; simpl; try done.
  - intros k. destruct (decide (n = k)) as [<-|Hne].
    + rewrite lookup_insert. rewrite <- v_dom0. naive_solver.
    + rewrite lookup_insert_ne by done. apply v_dom0.
  - intros g0 r0 [[<- <-]|[? ?]]%lookup_insert_Some; eauto.
  - intros g0 r0 [[<- <-]|[? ?]]%lookup_insert_Some; [|eauto].
    specialize (v_exp0 _ _ Hg). simpl in *. done.
  - intros g0 r0 [[<- <-]|[? Hg0]]%lookup_insert_Some Hp0; simpl in *; [done|].
    rewrite lookup_insert_ne; [eauto|]. intros Heq. symmetry in Heq. eapply Hu in Heq; eauto.
  - intros g1 g2 r1 r2 [[<- <-]|[? ?]]%lookup_insert_Some [[<- <-]|[? ?]]%lookup_insert_Some ? ? ?; simpl in *;
      try done. by eapply v_uniq0.
  - intros k i0 [[<- <-]|[Hne Hi0]]%lookup_insert_Some Hs; [done|].
    destruct (v_has0 k i0 Hi0 Hs) as (g1 & r1 & H1 & H2 & H3).
    exists g1, r1. rewrite lookup_insert_ne; [done|]. intros <-. rewrite Hg in H1. injection H1 as <-. done.
  - intros k i0 [[<- <-]|[Hne Hk]]%lookup_insert_Some Hs'; [done|eauto].
  - congruence.
Qed.

Lemma inv_dead s : inv s -> s_running s = true -> dying s = true -> all_others_stopped s = true ->
  inv (emit EvDead (s <| s_running := false |> <| s_tomb ::= (fun t => tomb_done t (Some ETombDying)) |>)).
Proof.
  intros V Hrun Hdy Ha.
  assert (tomb_done (s_tomb s) (Some ETombDying) = mkTomb (Reason None) 0 true false) as Ht.
  { destruct V. rewrite Hrun in v_run0. unfold dying, t_dying in Hdy.
    destruct (s_tomb s) as [r a d p]. simpl in *. destruct v_reason0 as [->| ->]; [done|].
    destruct v_run0 as [-> ->]. subst p. done. }
  unfold emit. simpl.
  apply bool_decide_eq_true in Ha.
  destruct V. split; simpl; rewrite ?Ht; try done.
  - intros g r Hg Hp. destruct (v_active0 g r Hg Hp) as (i & ? & Hok). exists i. split; [done|].
    eapply gi_ok_mono; [|done]. unfold dying. simpl. by rewrite Ht.
  - by right.
  - split_and!; try done. unfold dying. simpl. by rewrite Ht.
  - intros Hx. unfold dying. simpl. by rewrite Ht.
Qed.

Ltac gi_step := intros i []; split; simpl in *; try done; naive_solver.

Lemma micro_inv E s D s' D' : micro E s D s' D' -> inv s -> inv s'.
Proof.
  destruct 1; intros V; try (eapply inv_frame; [exact V|done..]).
  - by apply inv_kill.
  - by apply inv_record.
  - by apply inv_launch.
  - by apply inv_stop.
  - by apply inv_uninstall.
  - eapply (inv_upd_gor s g _ _ _ V); [exact H|done|done|done| |gi_step].
    pose proof (v_exp s V _ _ H). done.
  - destruct s. eapply (inv_upd_gor _ g _ _ _ V); [exact H|done|done|done| |gi_step]. done.
  - pose proof (v_exp s V _ _ H) as Hx. simpl in Hx. assert (p = PGone \/ p <> PGone) as [->|Hp] by (destruct p; auto).
    + destruct V. split; simpl; try done.
      * intros g0 r0 [[<- <-]|[? ?]]%lookup_insert_Some; eauto.
      * intros g0 r0 [[<- <-]|[? ?]]%lookup_insert_Some; eauto.
      * intros g0 r0 [[<- <-]|[? ?]]%lookup_insert_Some Hp0; [done|by eauto].
      * intros g1 g2 r1 r2 [[<- <-]|[? ?]]%lookup_insert_Some [[<- <-]|[? ?]]%lookup_insert_Some ? ? ?;
        try done. by eapply v_uniq0.
      * intros n0 i Hi Hs. destruct (v_has0 n0 i Hi Hs) as (g1 & r1 & H1 & H2 & H3).
        exists g1, r1. rewrite lookup_insert_ne; [done|]. intros <-. rewrite H in H1. by injection H1 as <-.
    + by eapply (inv_upd_gor s g _ _ _ V); [exact H|done|done|done|..].
  - eapply (inv_upd_gor s g _ _ _ V); [exact H|done|done|done| |gi_step].
    pose proof (v_exp s V _ _ H). done.
  - destruct s. eapply (inv_upd_gor _ g _ _ _ V); [exact H|done|done|done| |gi_step]. done.
  - destruct s. eapply (inv_upd_gor _ g _ _ _ V); [exact H|done|done|done| |gi_step]. done.
  - by apply inv_register.
  - destruct (v_active s V g _ H) as (i0 & Hi0 & _); [done|]. simpl in *.
    rewrite (info_of_eq _ _ _ Hi0) in *.
    assert (inv (s <| s_gors ::= <[g := mkGor n f sn x al (waiting_pc w)]> |> <| s_log := s_log s |>)) as V'.
    { pose proof (v_exp s V _ _ H) as Hx. destruct V. split; simpl; try done.
      - intros g0 r0 [[<- <-]|[? ?]]%lookup_insert_Some; eauto.
      - intros g0 r0 [[<- <-]|[? ?]]%lookup_insert_Some; [|eauto]. simpl in *. rewrite Hx. by destruct w.
      - intros g0 r0 [[<- <-]|[? ?]]%lookup_insert_Some Hp0; [|by eauto]. simpl in *.
        destruct (v_active0 g _ H) as (i & Hi & []); [done|]. simpl in *.
        assert (i0 = i) as -> by congruence. exists i. split; [done|].
        split; try done. destruct w; simpl; split_and?; try done; right; done.
      - intros g1 g2 r1 r2 [[<- <-]|[? ?]]%lookup_insert_Some [[<- <-]|[? ?]]%lookup_insert_Some ? ? ?; simpl in *;
        [done| | |by eapply v_uniq0]; [eapply (v_uniq0 g g2)|eapply (v_uniq0 g1 g)]; eauto; done.
      - intros k i1 Hi1 Hs1. destruct (v_has0 k i1 Hi1 Hs1) as (g1 & r1 & H3 & H4 & H5).
        destruct (decide (g = g1)) as [<-|Hne].
        + exists g. eexists. rewrite lookup_insert. split; [done|].
          rewrite H in H3. injection H3 as <-. simpl in *. split; [done|]. by destruct w.
        + exists g1, r1. by rewrite lookup_insert_ne. }
    eapply inv_frame; [exact V'|done..].
  - eapply (inv_upd_gor s g _ _ _ V); [exact H|done|done|done| |gi_step].
    pose proof (v_exp s V _ _ H). done.
  - eapply (inv_upd_gor s g _ _ _ V); [exact H|done|done|done| |gi_step].
    pose proof (v_exp s V _ _ H). done.
  - by apply inv_end.
  - destruct V. by split.
  - by apply inv_dead.
Qed.

Lemma micros_inv E s D s' D' : micros E s D s' D' -> inv s -> inv s'.
Proof. induction 1; [done|]. intros. eauto using micro_inv. Qed.

(** A manifold with a worker has a registered one. *)
Definition reg_ok (s : state) : Prop := forall n, is_Some (i_worker (info_of s n)) -> registered (s_log s) n <> None.

Lemma reg_init : reg_ok init.
Proof. intros n [w Hw]. unfold info_of in Hw. simpl in Hw. by rewrite lookup_empty in Hw. Qed.

Lemma micro_reg E s D s' D' : inv s -> reg_ok s -> micro E s D s' D' -> reg_ok s'.
Proof.
  intros V R H k.
  specialize (R k). destruct H; try exact R.
  - (* kill *) rewrite (kill_tomb_eq s (or_introl V)). destruct (dying s); exact R.
  - (* record *) unfold record_manifold, info_of. simpl. destruct (decide (n = k)) as [->|Hne]; [rewrite lookup_insert; by intros [? ?]|by rewrite lookup_insert_ne].
  - (* launch *) unfold launch, info_of. simpl. destruct (decide (n = k)) as [->|Hne]; [rewrite lookup_insert; simpl; exact R|by rewrite lookup_insert_ne].
  - (* stop *) unfold stop_base, info_of. simpl.
    destruct (decide (n = k)) as [->|Hne].
    + fold (info_of s k). destruct (i_worker (info_of s k)) eqn:Hw; simpl; rewrite lookup_insert; simpl; rewrite Hw; exact R.
    + destruct (i_worker (default info0 (s_current s !! n))); simpl; rewrite lookup_insert_ne by done; exact R.
  - (* uninstall *) unfold uninstall, info_of. simpl. destruct (decide (n = k)) as [->|Hne]; [rewrite lookup_delete; by intros [? ?]|by rewrite lookup_delete_ne].
  - (* register *) unfold register, info_of. simpl. destruct (decide (n = k)) as [->|Hne].
    + by rewrite bool_decide_eq_true_2.
    + rewrite lookup_insert_ne, bool_decide_eq_false_2 by done. exact R.
  - (* end *) unfold end_base, info_of. simpl. destruct (decide (n = k)) as [->|Hne].
    + simpl. rewrite lookup_insert. by intros [? ?].
    + rewrite lookup_insert_ne by done. destruct (c_isFatal _ _); simpl; rewrite bool_decide_eq_false_2 by done; exact R.
Qed.

Lemma inv_init : inv init.
Proof.
  split; simpl; try done.
  - intros n. rewrite !lookup_empty. none_iff.
  - intros x d. unfold dependents_of. simpl. rewrite lookup_empty. simpl.
    split; [intros H; by apply elem_of_nil in H|]. intros (m & Hm & _). by rewrite lookup_empty in Hm.
  - intros n Hn. apply on_cycle_in_dom in Hn as [l Hl].
    unfold inputs_graph in Hl. by rewrite lookup_fmap, lookup_empty in Hl.
  - by left.
Qed.
