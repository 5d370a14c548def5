(** What the automaton of C89 says about the runner. *)
From stdpp Require Import gmap strings list.
From Coq Require Import ZArith Lia.
From Verif Require Import Err Tomb Runner RunnerSpec RunnerInv RunnerLog RunnerGor RunnerHist RunnerThms RunnerAnswers RunnerLifeSpec RunnerLife.

Lemma fit_gone p a e o : fit a e p (Gone o) -> p = WGone.
Proof. destruct a; [by intros [? _]|]. destruct p; cbn; naive_solver. Qed.
Lemma gone_fit c g r st : cinv c -> c_gors c !! g = Some r -> w_pc r = WGone -> fit (at_set c g) (has_ended c g) (w_pc r) st -> exists o, st = Gone o.
Proof. intros V Hg Hp Hf. destruct r as [id f x p]. cbn in *. subst. rewrite (noset c g id f x WGone V Hg) in Hf by done. exact Hf. Qed.

Lemma life_ok P s g : reachable P s -> life_of (rlog s) g <> Wrong.
Proof. intros Hr%reach_core. destruct (reach_lives P _ Hr) as [_ [H _]]. specialize (H g). unfold lived in H. unfold rlog. destruct (c_gors (s_core s) !! g) as [r|]; [destruct H as (st & H & _)|destruct H as [H _]]; congruence. Qed.
Lemma live_gor P s g id st : reachable P s -> life_of (rlog s) g = At id st -> (forall o, st <> Gone o) -> exists r, c_gors (s_core s) !! g = Some r /\ w_id r = id /\ w_pc r <> WGone.
Proof.
  intros Hr%reach_core Hs Ho. destruct (reach_lives P _ Hr) as [V [H _]]. specialize (H g). unfold lived in H. unfold rlog in Hs.
  destruct (c_gors (s_core s) !! g) as [r|] eqn:Hg; [|destruct H as [H _]; congruence]. destruct H as (st' & H & Hf). rewrite Hs in H. injection H as -> ->.
  exists r. split; [done|]. split; [done|]. intros Hp. destruct (gone_fit _ _ _ _ V Hg Hp Hf) as (o & ->). by apply (Ho o).
Qed.
Lemma life_known P s id : reachable P s -> is_Some (known (rlog s) id) <-> exists g st, life_of (rlog s) g = At id st /\ forall o, st <> Gone o.
Proof.
  intros Hr. pose proof (reach_core P s Hr) as Hc. destruct (reach_lives P _ Hc) as [V [H _]]. pose proof (creach_worker_log P _ Hc id) as W.
  transitivity (is_Some (c_workers (s_core s) !! id)).
  { unfold rlog. destruct (c_workers (s_core s) !! id) as [i|]; [destruct W as ((f & -> & _) & _); split; eauto|destruct W as (-> & _); split; by intros []]. }
  rewrite (ci_act _ V id). split.
  - intros (g & r & Hg & Hid & Hp). specialize (H g). unfold lived in H. rewrite Hg in H. destruct H as (st & Hs & Hf). exists g, st. rewrite Hid in Hs. split; [done|]. intros o ->. apply Hp. by eapply fit_gone.
  - intros (g & st & Hs & Ho). destruct (live_gor P s g id st Hr Hs Ho) as (r & Hg & Hid & Hp). by exists g, r.
Qed.
Lemma life_one P s id g g' st st' : reachable P s -> life_of (rlog s) g = At id st -> life_of (rlog s) g' = At id st' -> (forall o, st <> Gone o) -> (forall o, st' <> Gone o) -> g = g'.
Proof.
  intros Hr Hs Hs' Ho Ho'. destruct (live_gor P s g id st Hr Hs Ho) as (r & Hg & Hid & Hp). destruct (live_gor P s g' id st' Hr Hs' Ho') as (r' & Hg' & Hid' & Hp').
  apply reach_core in Hr. destruct (reach_lives P _ Hr) as [V _]. apply (ci_uniq _ V g g' r r'); congruence.
Qed.
Lemma life_registered P s id g w : reachable P s -> registered (rlog s) id = Some (g, w) -> exists st, life_of (rlog s) g = At id st /\ ((exists e, st = Up w false e) \/ st = Gone (Some w)).
Proof.
  intros Hr%reach_core Hreg. destruct (reach_lives P _ Hr) as [V [_ I]]. pose proof (worker_log_reg P _ (creach_worker_log P _ Hr) id) as W. unfold rlog in *. rewrite Hreg in W.
  destruct (c_workers (s_core s) !! id) as [i|] eqn:Hi; [|done]. apply (I id i g w Hi). by symmetry.
Qed.
Lemma life_dead P s g id st : reachable P s -> EvDead ∈ rlog s -> life_of (rlog s) g = At id st -> exists o, st = Gone o.
Proof.
  intros Hr Hd Hs. destruct (dead_empty P s Hr Hd) as (_ & Hw & _). destruct st as [| | | | |o]; [..|by exists o]; exfalso;
    (destruct (live_gor P s g id _ Hr Hs) as (r & Hg & Hid & Hp); [done|]; apply reach_core in Hr; destruct (reach_lives P _ Hr) as [V _];
     assert (is_Some (c_workers (s_core s) !! id)) as [i Hi] by (apply (ci_act _ V); eauto); by rewrite Hw, lookup_empty in Hi).
Qed.
