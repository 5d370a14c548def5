(** Proofs of the engine's safety properties. *)
From stdpp Require Import gmap strings list relations.
From Coq Require Import ZArith.
From RecordUpdate Require Import RecordSet.
From Verif Require Import Err Tomb Order Validate ValidateSpec ValidateProofs Snapshot Engine EngineSpec EngineMicro EngineSteps EngineLog.
Import RecordSetNotations.

(** Every event of the log satisfied [Q] with respect to what had happened before. *)
Fixpoint hist (Q : event -> list event -> Prop) (log : list event) : Prop :=
  match log with
  | [] => True
  | ev :: post => Q ev post /\ hist Q post
  end.

Lemma hist_split Q pre ev post : hist Q (pre ++ ev :: post) -> Q ev post.
Proof. induction pre; simpl; intros []; auto. Qed.

Lemma hist_reach (E : env) (Q : event -> list event -> Prop) :
  (forall s D s' D', inv s -> linv E s -> inv s' -> linv E s' -> hist Q (s_log s) -> micro E s D s' D' -> hist Q (s_log s')) ->
  forall s pre ev post, reachable E s -> s_log s = pre ++ ev :: post -> Q ev post.
Proof.
  intros H s pre ev post Hr Heq. apply (hist_split Q pre). rewrite <- Heq. clear Heq pre ev post.
  apply (reach_ind2 E (fun s D => hist Q (s_log s))); [done| |done]. intros s1 D1 s2 D2 V1 L1 V2 L2 HP Hm. by apply (H s1 D1 s2 D2).
Qed.

Lemma not_dying_log E s : linv E s -> dying s = false -> ~ is_dying (s_log s).
Proof. intros L Hd Hx. apply (l_dying E s L) in Hx. congruence. Qed.

(** ** C14 *)
Definition forbidden_when_dying (ev : event) : Prop :=
  match ev with
  | EvAttempt _ _ _ _ _ | EvRegister _ _ _ _ | EvMetric _ | EvUninstall _ => True
  | _ => False
  end.

Lemma dying_no_start E s pre ev post : reachable E s -> s_log s = pre ++ ev :: post ->
  is_dying post -> ~ forbidden_when_dying ev.
Proof.
  intros Hr Heq. revert Heq.
  apply (hist_reach E (fun ev post => is_dying post -> ~ forbidden_when_dying ev)); [|done].
  clear. intros s D s' D' V L V' L' Hh Hm.
  pose proof (not_dying_log E s L) as Hnd.
  mnorm V; try done; (split; [|try done]); simpl; try tauto; try (by intros Hx; apply Hnd in Hx).
  - intros Hx _. apply elem_of_cons in Hx as [Hx|Hx]; [done|]. by apply Hnd.
Qed.

(** ** C04 *)
Lemma no_overlap E s pre g n f t post : reachable E s -> s_log s = pre ++ EvStartCall g n f t :: post ->
  forall g' f' t', EvStartCall g' n f' t' ∈ post -> g' <> g /\ finished post g'.
Proof.
  intros Hr Heq.
  set (Q := fun ev post => match ev with EvStartCall g n _ _ =>
    forall g' f' t', EvStartCall g' n f' t' ∈ post -> g' <> g /\ finished post g' | _ => True end).
  enough (Q (EvStartCall g n f t) post) by done. revert Heq. apply (hist_reach E Q); [|done]. subst Q.
  clear. intros s D s' D' V L V' L' Hh Hm. mnorm V; try done.
  split; [|done]. intros g' f' t' Hc.
  destruct (l_called E s L _ _ _ _ Hc) as (r & Hr & Hn & Hf & Hp).
  assert (g' <> g) as Hne. { intros ->. rewrite H in Hr. injection Hr as <-. by eapply (Hp ready). }
  split; [done|].
  assert (g_pc r = PGone \/ g_pc r <> PGone) as [Hg|Hg] by (destruct (g_pc r); auto).
  - pose proof (l_phase E s L _ _ Hr) as Hph. rewrite Hg in Hph. destruct Hph as [Hph|]; [|done].
    destruct Hph. by eexists _, _, _.
  - destruct Hne. by eapply (v_uniq s V g' g _ _ Hr H).
Qed.

(** ** C10, C11 *)
Lemma tomb_clean E s : reachable E s ->
  (t_reason (s_tomb s) = StillAlive \/ t_reason (s_tomb s) = Reason None) /\ t_panic (s_tomb s) = false.
Proof. intros V%reachable_inv. split; apply V. Qed.

Lemma wait_is_worst E s pre e post : reachable E s -> s_log s = pre ++ EvWait e :: post ->
  e = (match c_filter (e_cfg E) with Some f => f | None => id end) (worst_of (e_cfg E) post).
Proof.
  intros Hr Heq.
  set (Q := fun ev post => match ev with EvWait e => 
    e = (match c_filter (e_cfg E) with Some f => f | None => id end) (worst_of (e_cfg E) post) | _ => True end).
  enough (Q (EvWait e) post) by done. revert Heq. apply (hist_reach E Q); [|done].
  subst Q. clear. intros s D s' D' V L V' L' Hh Hm. mnorm V; try done; split; try done.
  unfold wait_result. rewrite <- (l_worst E s L).
  assert (tomb_err (s_tomb s) = None) as ->.
  { pose proof (v_run s V) as Hrun. destruct (s_running s); [destruct Hrun; congruence|].
    destruct Hrun as (_ & _ & Hd). unfold tomb_err. unfold dying, t_dying in Hd. by destruct (v_reason s V) as [Hx|Hx]; rewrite Hx in *. }
  by destruct (c_filter _).
Qed.

(** ** C12 *)
Lemma dead_complete E s : inv s -> linv E s -> all_others_stopped s = true ->
  forall g n f t, EvStartCall g n f t ∈ s_log s -> finished (s_log s) g \/ EvStartRet g n (inl WSelf) ∈ s_log s.
Proof.
  intros V L Ha g n f t Hc. unfold all_others_stopped in Ha. apply bool_decide_eq_true in Ha.
  destruct (l_called E s L _ _ _ _ Hc) as (r & Hr & Hn & Hf & Hp).
  pose proof (l_phase E s L _ _ Hr) as Hph. subst n.
  assert (start_called (s_log s) g) as Hsc by (by eexists _, _, _).
  assert (g_pc r = PGone \/ g_pc r <> PGone) as [Hg|Hg] by (destruct (g_pc r); auto).
  { rewrite Hg in Hph. left. by destruct Hph. }
  destruct (v_active s V _ _ Hr Hg) as (i & Hi & []).
  destruct (Ha _ _ Hi) as [Hx|Hx]; [congruence|].
  destruct (g_pc r) eqn:Hpc; simpl in *; try done; try (destruct (Hp ready); done); try (specialize (go_starting go_pc); congruence).
  - destruct go_pc as [? [?|[Hs _]]]; [congruence|]. specialize (go_starting Hs). congruence.
  - right. apply Hph.
  - left. by destruct Hph.
Qed.

Lemma dead_all_finished E s pre post : reachable E s -> s_log s = pre ++ EvDead :: post ->
  (forall g n f t, EvStartCall g n f t ∈ post -> finished post g \/ EvStartRet g n (inl WSelf) ∈ post).
Proof.
  intros Hr Heq.
  set (Q := fun ev post => match ev with EvDead =>
    (forall g n f t, EvStartCall g n f t ∈ post -> finished post g \/ EvStartRet g n (inl WSelf) ∈ post) | _ => True end).
  enough (Q EvDead post) by done. revert Heq. apply (hist_reach E Q); [|done].
  subst Q. clear. intros s D s' D' V L V' L' Hh Hm. mnorm V; try done; split; try done.
  by apply (dead_complete E).
Qed.

Lemma dead_running E s : reachable E s -> (EvDead ∈ s_log s <-> s_running s = false).
Proof.
  intros Hr. apply (reach_ind2 E (fun s D => EvDead ∈ s_log s <-> s_running s = false)); [| |done].
  { simpl. split; [|done]. intros H. by apply elem_of_nil in H. }
  clear. intros s D s' D' V L V' L' HP Hm. mnorm V; try done; rewrite ?elem_of_cons; intuition congruence.
Qed.

Definition forbidden_when_dead (ev : event) : Prop :=
  match ev with
  | EvInstalled _ _ | EvAttempt _ _ _ _ _ | EvStartCall _ _ _ _ | EvStartRet _ _ _ | EvRegister _ _ _ _ | EvMetric _
  | EvStopped _ _ _ _ _ | EvUninstall _ | EvCancel _ _ | EvDead | EvDying => True
  | _ => False
  end.

Lemma dead_no_events E s pre ev post : reachable E s -> s_log s = pre ++ ev :: post ->
  EvDead ∈ post -> ~ forbidden_when_dead ev.
Proof.
  intros Hr Heq. 
  enough (forall s, reachable E s -> (EvDead ∈ s_log s <-> s_running s = false) /\ hist (fun ev post => EvDead ∈ post -> ~ forbidden_when_dead ev) (s_log s)) as Hx.
  { destruct (Hx s Hr) as [_ Hh]. rewrite Heq in Hh. by apply hist_split in Hh. }
  clear. apply (reach_ind2 E (fun s D => (EvDead ∈ s_log s <-> s_running s = false) /\ hist (fun ev post => EvDead ∈ post -> ~ forbidden_when_dead ev) (s_log s))).
  { simpl. split; [|done]. split; [|done]. intros H. by apply elem_of_nil in H. }
  intros s D s' D' V L V' L' [HP Hh] Hm.
  assert (s_running s = false -> forall g r, s_gors s !! g = Some r -> g_pc r = PSelf \/ g_pc r = PGone \/ exists e, g_pc r = PSendStopped e) as Hgor.
  { intros Hrun g r Hr. assert (g_pc r = PGone \/ g_pc r <> PGone) as [Hg|Hg] by (destruct (g_pc r); auto); [auto|].
    destruct (v_active s V _ _ Hr Hg) as (i & Hi & []).
    destruct (v_dead s V Hrun _ _ Hi) as [Hx|Hx]; [congruence|].
    destruct (g_pc r) eqn:Hpc; simpl in *; eauto; try (specialize (go_starting go_pc); congruence).
    destruct go_pc as [? [?|[Hs _]]]; [congruence|]. specialize (go_starting Hs). congruence. }
  split; [mnorm V; try done; rewrite ?elem_of_cons; intuition congruence|].
  assert (EvDead ∈ s_log s -> s_running s = true -> False) as Hc by (intros Hx%HP; congruence).
  assert (EvDead ∈ s_log s -> dying s = true) as Hcd.
  { intros Hx%HP. pose proof (v_run s V) as Hrun. rewrite Hx in Hrun. apply Hrun. }
  assert (EvDead ∈ s_log s -> forall g n f sn x al p, s_gors s !! g = Some (mkGor n f sn x al p) ->
    p = PSelf \/ p = PGone \/ exists e, p = PSendStopped e) as Hgc.
  { intros Hx%HP g n f sn x al p Hg. apply (Hgor Hx _ _ Hg). }
  clear V' L' HP Hgor.
  mnorm V; try done; split; simpl; try done; try tauto;
    try (intros Hx _; try (apply elem_of_cons in Hx as [Hx|Hx]; [done|]); first [by apply Hc | by apply Hcd in Hx; congruence
      | match goal with Hg : s_gors s !! _ = Some _ |- _ => by destruct (Hgc Hx _ _ _ _ _ _ _ Hg) as [?|[?|[??]]] end]).
  all: split; [|done]; intros Hx _; by apply Hc.
Qed.
