(** Proofs of C68. *)
From stdpp Require Import gmap list.
From RecordUpdate Require Import RecordSet.
From Verif Require Import TombCtx.
Import RecordSetNotations.

Record cinv (s : cstate) : Prop := {
  ci_log : forall p c, EvContext p c ∈ c_log s -> c_parent s !! c = Some p;
  ci_next : forall c p, c_parent s !! c = Some p -> c < c_next s;
  ci_child : forall p c, c_child s !! p = Some c -> c_parent s !! c = Some p;
  ci_over : forall p, p ∈ c_over s <-> EvParentDone p ∈ c_log s;
  ci_dying : c_dying s = true <-> EvKilled ∈ c_log s;
  ci_bg : background ∉ c_over s;
  ci_dead : c_dying s = true -> c_child s = ∅ /\ forall c p, c_parent s !! c = Some p -> c ∈ c_cancelled s \/ p ∈ c_over s;
  ci_alive : c_dying s = false -> c_cancelled s = ∅ /\ forall c p, c_parent s !! c = Some p -> p ∉ c_over s -> c_child s !! p = Some c
}.

Lemma cinv_init : cinv c_init.
Proof. split; simpl; try done; try (intros ?? H; by apply elem_of_nil in H); try (by intros H; apply elem_of_nil in H); try set_solver. Qed.

Lemma prune_lookup s (p c : nat) (m : gmap nat nat) : c_cancelled s = ∅ ->
  filter (fun pc => c_done s (snd pc) = false) m !! p = Some c <->
  m !! p = Some c /\ (forall q, c_parent s !! c = Some q -> q ∉ c_over s).
Proof.
  intros Hc. rewrite map_filter_lookup_Some. simpl. unfold c_done. rewrite Hc.
  rewrite bool_decide_eq_false_2 by set_solver. simpl. split; intros [H1 H2]; split; try done.
  - intros q Hq. rewrite Hq in H2. by apply bool_decide_eq_false_1 in H2.
  - destruct (c_parent s !! c) as [q|]; [|done]. apply bool_decide_eq_false_2. by apply H2.
Qed.

Lemma cinv_context parent s : cinv s -> cinv (c_context parent s).
Proof.
  intros V. unfold c_context. set (p := default background parent). clearbody p.
  destruct (c_child s !! p) as [c|] eqn:Hp.
  - destruct V. split; simpl; try done.
    + intros p' c' [[= -> ->]|H]%elem_of_cons; auto.
    + intros q. rewrite elem_of_cons. naive_solver.
    + rewrite elem_of_cons. naive_solver.
  - unfold c_add. simpl. destruct (c_dying s) eqn:Hd.
    + destruct V. destruct (ci_dead0 Hd) as [Hch Hall]. split; simpl.
      * intros p' c' [[= -> ->]|H]%elem_of_cons; [by rewrite lookup_insert|].
        rewrite lookup_insert_ne; [by apply ci_log0|]. pose proof (ci_next0 _ _ (ci_log0 _ _ H)). lia.
      * intros c p'. rewrite lookup_insert_Some. intros [[<- _]|[_ H]]; [lia|]. apply ci_next0 in H. lia.
      * rewrite Hch. done.
      * intros q. rewrite elem_of_cons. naive_solver.
      * rewrite Hd, elem_of_cons. naive_solver.
      * done.
      * intros _. split; [done|]. intros c p'. rewrite lookup_insert_Some. intros [[<- _]|[_ H]]; [set_solver|].
        destruct (Hall _ _ H); set_solver.
      * by rewrite Hd.
    + destruct V. destruct (ci_alive0 Hd) as [Hca Hall].
      set (s1 := s <| c_next ::= S |> <| c_parent ::= <[c_next s := p]> |> <| c_child ::= <[p := c_next s]> |>).
      assert (c_cancelled s1 = ∅) as Hca1 by done.
      split; simpl.
      * intros p' c' [[= -> ->]|H]%elem_of_cons; [by rewrite lookup_insert|].
        rewrite lookup_insert_ne; [by apply ci_log0|]. pose proof (ci_next0 _ _ (ci_log0 _ _ H)). lia.
      * intros c p'. rewrite lookup_insert_Some. intros [[<- _]|[_ H]]; [lia|]. apply ci_next0 in H. lia.
      * intros p' c H. apply (prune_lookup s1) in H as [H _]; [|done].
        apply lookup_insert_Some in H as [[<- <-]|[_ H]]; [by rewrite lookup_insert|].
        apply ci_child0 in H. rewrite lookup_insert_ne; [done|]. apply ci_next0 in H. lia.
      * intros q. rewrite elem_of_cons. naive_solver.
      * rewrite Hd, elem_of_cons. naive_solver.
      * done.
      * by rewrite Hd.
      * intros _. split; [done|]. intros c p' Hc Hov. apply (prune_lookup s1); [done|]. simpl. split.
        -- apply lookup_insert_Some in Hc as [[<- <-]|[Hne Hc]]; [by rewrite lookup_insert|].
           specialize (Hall _ _ Hc Hov). rewrite lookup_insert_ne; [done|]. intros <-. congruence.
        -- intros q Hq. rewrite Hc in Hq. by injection Hq as <-.
Qed.

Lemma cinv_kill s : cinv s -> cinv (c_kill s).
Proof.
  intros V. unfold c_kill. destruct (c_dying s) eqn:Hd; [done|]. destruct V. destruct (ci_alive0 Hd) as [Hca Hall].
  split; simpl; try done.
  - intros p c [[=]|H]%elem_of_cons. by apply ci_log0.
  - intros q. rewrite elem_of_cons. naive_solver.
  - split; [|done]. intros _. left.
  - intros _. split; [done|]. intros c p Hc. destruct (decide (p ∈ c_over s)); [by right|left].
    apply elem_of_union. left. apply elem_of_list_to_set. apply elem_of_list_fmap. exists (p, c). split; [done|].
    apply elem_of_map_to_list. by apply Hall.
Qed.

Lemma cinv_step s l s' : cinv s -> c_step s l = Some s' -> cinv s'.
Proof.
  intros V. destruct l as [parent| |p]; simpl.
  - intros [= <-]. by apply cinv_context.
  - intros [= <-]. by apply cinv_kill.
  - case_bool_decide as Hp; [done|]. intros [= <-]. destruct V. split; simpl; try done.
    + intros p' c [[=]|H]%elem_of_cons. by apply ci_log0.
    + intros q. rewrite elem_of_cons, elem_of_union, elem_of_singleton, ci_over0. naive_solver.
    + rewrite elem_of_cons. naive_solver.
    + set_solver.
    + intros H. destruct (ci_dead0 H) as [H1 H2]. split; [done|]. intros c q Hc. destruct (H2 c q Hc); set_solver.
    + intros H. destruct (ci_alive0 H) as [H1 H2]. split; [done|]. intros c q Hc Hq. apply H2; set_solver.
Qed.

Lemma c_reachable_inv s : c_reachable s -> cinv s.
Proof.
  intros [ls H]. revert H. generalize cinv_init. generalize c_init. induction ls as [|l ls IH]; intros s0 V; simpl.
  - by intros [= <-].
  - destruct (c_step s0 l) as [s1|] eqn:H1; [|done]. apply IH. by eapply cinv_step.
Qed.

Lemma ctx_done_when s p c : c_reachable s -> EvContext p c ∈ c_log s ->
  (c_done s c = true <-> EvKilled ∈ c_log s \/ EvParentDone p ∈ c_log s).
Proof.
  intros Hr Hc. pose proof (c_reachable_inv s Hr) as V. pose proof (ci_log s V _ _ Hc) as Hp.
  unfold c_done. rewrite Hp, <- (ci_over s V), <- (ci_dying s V). rewrite orb_true_iff, !bool_decide_eq_true.
  destruct (c_dying s) eqn:Hd.
  - destruct (ci_dead s V Hd) as [_ H]. specialize (H _ _ Hp). tauto.
  - destruct (ci_alive s V Hd) as [-> _]. set_solver.
Qed.

Lemma ctx_same s p c c' : c_reachable s -> EvContext p c ∈ c_log s -> EvContext p c' ∈ c_log s ->
  EvKilled ∉ c_log s -> EvParentDone p ∉ c_log s -> c = c'.
Proof.
  intros Hr H H' Hk Hp. pose proof (c_reachable_inv s Hr) as V. rewrite <- (ci_over s V) in Hp. rewrite <- (ci_dying s V) in Hk.
  apply not_true_is_false in Hk. destruct (ci_alive s V Hk) as [_ Ha].
  pose proof (Ha _ _ (ci_log s V _ _ H) Hp). pose proof (Ha _ _ (ci_log s V _ _ H') Hp). congruence.
Qed.

Lemma ctx_own s p c p' c' : c_reachable s -> EvContext p c ∈ c_log s -> EvContext p' c' ∈ c_log s -> p <> p' -> c <> c'.
Proof.
  intros Hr H H' Hp <-. pose proof (c_reachable_inv s Hr) as V. pose proof (ci_log s V _ _ H). pose proof (ci_log s V _ _ H'). congruence.
Qed.

Lemma ctx_kept s p c : c_reachable s -> EvContext p c ∈ c_log s -> EvKilled ∉ c_log s -> EvParentDone p ∉ c_log s ->
  c_child s !! p = Some c.
Proof.
  intros Hr H Hk Hp. pose proof (c_reachable_inv s Hr) as V. rewrite <- (ci_over s V) in Hp. rewrite <- (ci_dying s V) in Hk.
  apply not_true_is_false in Hk. destruct (ci_alive s V Hk) as [_ Ha]. apply Ha; [by apply (ci_log s V)|done].
Qed.

Lemma ctx_pruned s parent s' q c : c_reachable s -> c_child s !! default background parent = None ->
  c_step s (LContext parent) = Some s' -> c_child s' !! q = Some c ->
  EvParentDone q ∉ c_log s' /\ EvKilled ∉ c_log s'.
Proof.
  intros Hr Hn Hs Hq. pose proof (c_reachable_inv s Hr) as V. pose proof (cinv_step s _ s' V Hs) as V'.
  rewrite <- (ci_over s' V'), <- (ci_dying s' V'). simpl in Hs. injection Hs as <-. unfold c_context in *. rewrite Hn in *.
  unfold c_add in *. simpl in *. destruct (c_dying s) eqn:Hd; simpl in *.
  - destruct (ci_dead s V Hd) as [Hch _]. rewrite Hch in Hq. done.
  - destruct (ci_alive s V Hd) as [Hca _]. rewrite Hd. split; [|done].
    set (s1 := s <| c_next ::= S |> <| c_parent ::= <[c_next s := default background parent]> |> <| c_child ::= <[default background parent := c_next s]> |>).
    pose proof Hq as Hq'. apply (prune_lookup s1) in Hq' as [_ H]; [|done]. apply H.
    exact (ci_child _ V' _ _ Hq).
Qed.

Lemma ctx_nil s : c_context None s = c_context (Some background) s.
Proof. done. Qed.
Lemma ctx_background s c : c_reachable s -> EvContext background c ∈ c_log s -> (c_done s c = true <-> EvKilled ∈ c_log s).
Proof.
  intros Hr H. rewrite (ctx_done_when s _ _ Hr H). pose proof (c_reachable_inv s Hr) as V.
  rewrite <- (ci_over s V). pose proof (ci_bg s V). tauto.
Qed.

Lemma c_run_app s l1 l2 s1 : c_run s l1 = Some s1 -> c_run s (l1 ++ l2) = c_run s1 l2.
Proof.
  revert s. induction l1 as [|l l1 IH]; intros s H; simpl in *; [by injection H as ->|].
  destruct (c_step s l); [|done]. by apply IH.
Qed.
Lemma c_log_grows s l s' ev : c_step s l = Some s' -> ev ∈ c_log s -> ev ∈ c_log s'.
Proof.
  intros Hs H. destruct l; simpl in Hs.
  - injection Hs as <-. unfold c_context, c_add. repeat case_match; simpl; by right.
  - injection Hs as <-. unfold c_kill. case_match; simpl; [done|by right].
  - case_bool_decide; [done|]. injection Hs as <-. by right.
Qed.
Lemma c_log_run s ls s' ev : c_run s ls = Some s' -> ev ∈ c_log s -> ev ∈ c_log s'.
Proof.
  revert s. induction ls as [|l ls IH]; intros s; simpl; [by intros [= <-]|].
  destruct (c_step s l) as [s1|] eqn:H; [|done]. intros Hr Hx. eapply IH; [done|]. by eapply c_log_grows.
Qed.
Lemma ctx_background_call s parent s' : c_reachable s -> parent = None \/ parent = Some background ->
  c_step s (LContext parent) = Some s' ->
  exists c, head (c_log s') = Some (EvContext background c) /\
    forall ls s'', c_run s' ls = Some s'' -> (c_done s'' c = true <-> EvKilled ∈ c_log s'').
Proof.
  intros [ls0 Hr] Hp Hs.
  assert (exists c, head (c_log s') = Some (EvContext background c)) as [c Hc].
  { assert (default background parent = background) as Hb by (by destruct Hp as [-> | ->]).
    simpl in Hs. injection Hs as <-. unfold c_context. rewrite Hb. case_match; simpl; eauto. }
  exists c. split; [done|]. intros ls s'' Hls. apply ctx_background.
  - exists (ls0 ++ LContext parent :: ls). rewrite (c_run_app _ _ _ _ Hr). cbn [c_run]. by rewrite Hs.
  - eapply c_log_run; [done|]. destruct (c_log s'); [done|]. simpl in Hc. injection Hc as ->. left.
Qed.
