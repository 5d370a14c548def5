(** The engine's goroutines are not lost track of (C88). *)
From stdpp Require Import gmap strings list.
From Coq Require Import ZArith Lia.
From Verif Require Import Err Tomb Snapshot Engine EngineSpec EngineMicro EngineSteps EngineLog EngineSafety EngineFresh EngineKill
  EngineObs EngineHandlers EngineMore EngineMore2 EngineGoexitProofs LeakSpec.

(** The names with an attempt in progress, counted. *)
Lemma count_prog log :
  (forall pre g n sn t d post, log = pre ++ EvAttempt g n sn t d :: post -> in_progress post n = None) ->
  (forall pre g n raw e t post, log = pre ++ EvStopped g n raw e t :: post -> in_progress post n = Some g) ->
  exists S : gset string, (forall n, n ∈ S <-> is_Some (in_progress log n)) /\ how_many e_launch log = how_many e_finish log + size S.
Proof.
  induction log as [|ev log IH]; intros Ha Hs.
  { exists ∅. split; [|done]. intros n. cbn. split; [set_solver|by intros []]. }
  destruct IH as (S & HS & Hc).
  { intros pre g n sn t d post ->. by apply (Ha (ev :: pre) g n sn t d). }
  { intros pre g n raw e t post ->. by apply (Hs (ev :: pre) g n raw e t). }
  destruct ev; try (exists S; by split).
  - exists ({[n]} ∪ S). pose proof (Ha [] _ _ _ _ _ _ eq_refl) as Hn. assert (n ∉ S). { intros [x Hx]%HS. congruence. } split.
    + intros k. cbn. case_bool_decide as Hk; [subst k; split; [eauto|set_solver]|]. rewrite <- HS. set_solver.
    + cbn. rewrite Hc, size_union, size_singleton by set_solver. lia.
  - exists (S ∖ {[n]}). pose proof (Hs [] _ _ _ _ _ _ eq_refl) as Hn. assert (n ∈ S) by (apply HS; eauto). split.
    + intros k. cbn. case_bool_decide as Hk; [subst k; split; [set_solver|by intros []]|]. rewrite <- HS. set_solver.
    + cbn. rewrite Hc. rewrite (union_difference_singleton_L n S) at 1 by done. rewrite size_union, size_singleton by set_solver. lia.
Qed.
(** The installed names, counted. *)
Lemma count_inst log :
  (forall pre n m post, log = pre ++ EvInstalled n m :: post -> installed post n = None) ->
  (forall pre n post, log = pre ++ EvUninstall n :: post -> is_Some (installed post n)) ->
  exists S : gset string, (forall n, n ∈ S <-> is_Some (installed log n)) /\ how_many e_install log = how_many e_uninstall log + size S.
Proof.
  induction log as [|ev log IH]; intros Ha Hs.
  { exists ∅. split; [|done]. intros n. cbn. split; [set_solver|by intros []]. }
  destruct IH as (S & HS & Hc).
  { intros pre n m post ->. by apply (Ha (ev :: pre) n m). }
  { intros pre n post ->. by apply (Hs (ev :: pre) n). }
  destruct ev; try (exists S; by split).
  - exists ({[n]} ∪ S). pose proof (Ha [] _ _ _ eq_refl) as Hn. assert (n ∉ S). { intros [x Hx]%HS. congruence. } split.
    + intros k. cbn. case_bool_decide as Hk; [subst k; split; [eauto|set_solver]|]. rewrite <- HS. set_solver.
    + cbn. rewrite Hc, size_union, size_singleton by set_solver. lia.
  - exists (S ∖ {[n]}). pose proof (Hs [] _ _ eq_refl) as Hn. assert (n ∈ S) by (by apply HS). split.
    + intros k. cbn. case_bool_decide as Hk; [subst k; split; [set_solver|by intros []]|]. rewrite <- HS. set_solver.
    + cbn. rewrite Hc. rewrite (union_difference_singleton_L n S) at 1 by done. rewrite size_union, size_singleton by set_solver. lia.
Qed.

Lemma prog_of E s : reachable E s ->
  exists S : gset string, (forall n, n ∈ S <-> is_Some (in_progress (s_log s) n)) /\ how_many e_launch (s_log s) = how_many e_finish (s_log s) + size S.
Proof.
  intros Hr. apply count_prog.
  - intros pre g n sn t d post Hl. by destruct (attempt_why E s _ _ _ _ _ _ _ Hr Hl) as (_ & H & _).
  - intros pre g n raw e t post Hl. by destruct (stopped_cause E s _ _ _ _ _ _ _ Hr Hl) as (_ & _ & H).
Qed.
Lemma inst_of E s : reachable E s ->
  exists S : gset string, (forall n, n ∈ S <-> is_Some (installed (s_log s) n)) /\ how_many e_install (s_log s) = how_many e_uninstall (s_log s) + size S.
Proof.
  intros Hr. apply count_inst.
  - intros pre n m post Hl. by apply (installed_free E s pre n m).
  - intros pre n post Hl. by destruct (uninstall_cause E s _ _ _ Hr Hl) as (? & ? & ? & ? & ? & _ & _ & _ & _ & H).
Qed.
Lemma goroutines E s : reachable E s ->
  how_many e_finish (s_log s) <= how_many e_launch (s_log s) /\
  how_many e_launch (s_log s) - how_many e_finish (s_log s) <= how_many e_install (s_log s) - how_many e_uninstall (s_log s).
Proof.
  intros Hr. destruct (prog_of E s Hr) as (S & HS & ->). destruct (inst_of E s Hr) as (T & HT & ->).
  assert (size S <= size T); [|lia]. apply subseteq_size. intros n Hn%HS. apply HT.
  destruct (installed (s_log s) n) eqn:Hi; [eauto|]. destruct (uninstalled_gone E s n Hr Hi) as (H & _). rewrite H in Hn. by destruct Hn.
Qed.

(** When the engine ended, only attempts that returned the engine itself were still in progress. *)
Lemma dead_prog E s pre post n g : reachable E s -> s_log s = pre ++ EvDead :: post -> in_progress post n = Some g -> exists g', registered post n = Some (g', WSelf).
Proof.
  intros Hr Heq. revert n g.
  set (Q := fun ev post => match ev with EvDead => forall n g, in_progress post n = Some g -> exists g', registered post n = Some (g', WSelf) | _ => True end).
  enough (Q EvDead post) by done. revert Heq. apply (hist_reach E Q); [|done].
  subst Q. clear. intros s D s' D' V L V' L' Hh Hm. mnorm V; try done; split; try done.
  intros n g (r & Hr & <- & Hp)%(l_prog E s L). destruct (v_active s V _ _ Hr Hp) as (i & Hi & []).
  match goal with H : all_others_stopped _ = true |- _ => unfold all_others_stopped in H; apply bool_decide_eq_true in H; destruct (H _ _ Hi) as [Hx|Hx]; [congruence|] end.
  pose proof (l_regw E s L (g_name r)) as W. rewrite (info_of_eq _ _ _ Hi), Hx in W. destruct (registered (s_log s) (g_name r)) as [[g' w]|]; [|done]. cbn in W. exists g'. congruence.
Qed.
Lemma prog_quiet pre post n : (forall ev, ev ∈ pre -> ~ forbidden_when_dead ev) -> is_Some (in_progress (pre ++ EvDead :: post) n) -> is_Some (in_progress post n).
Proof.
  induction pre as [|ev pre IH]; intros Hf; [done|]. assert (~ forbidden_when_dead ev) as He by (apply Hf; by left).
  assert (forall x, x ∈ pre -> ~ forbidden_when_dead x) as Hf' by (intros x Hx; apply Hf; by right).
  cbn. destruct ev; try (by apply IH).
  - by destruct He.
  - case_bool_decide; [by intros []|by apply IH].
Qed.
Lemma goroutines_dead E s : reachable E s -> EvDead ∈ s_log s -> (forall g n, EvStartRet g n (inl WSelf) ∉ s_log s) ->
  how_many e_launch (s_log s) = how_many e_finish (s_log s).
Proof.
  intros Hr Hd Hw. destruct (prog_of E s Hr) as (S & HS & ->). enough (S = ∅) as -> by (rewrite size_empty; lia).
  apply elem_of_list_split in Hd as (pre & post & Hl).
  apply set_eq. intros n. split; [|set_solver]. intros Hn%HS. exfalso. rewrite Hl in Hn.
  apply prog_quiet in Hn as [g Hg].
  - destruct (dead_prog E s pre post n g Hr Hl Hg) as (g' & Hreg). destruct (registered_event _ _ _ _ Hreg) as (t & Hev).
    apply (Hw g' n). apply (register_ret E s g' n WSelf t Hr). rewrite Hl. apply elem_of_app. right. by right.
  - intros ev (p1 & p2 & ->)%elem_of_list_split. rewrite <- app_assoc in Hl. cbn in Hl. apply (dead_no_events E s _ _ _ Hr Hl). set_solver.
Qed.
