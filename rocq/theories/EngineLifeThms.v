(** What the automaton of C89 says about the engine. *)
From stdpp Require Import gmap strings list.
From Coq Require Import ZArith Lia.
From Verif Require Import Err Tomb Snapshot Engine EngineSpec EngineMicro EngineSteps EngineLog EngineSafety EngineFresh EngineKill EngineObs EngineHandlers EngineMore EngineMore2 EngineGoexitProofs
  EngineLifeSpec EngineLife LeakEngine.

Lemma life_ok E s g : reachable E s -> life_of (s_log s) g <> Wrong.
Proof. intros Hr. pose proof (reachable_lived E s Hr g) as H. unfold lived in H. destruct (s_gors s !! g) as [r|]; [destruct H as (st & H & _)|]; congruence. Qed.
Lemma life_progress E s n g : reachable E s -> in_progress (s_log s) n = Some g <-> exists c st, life_of (s_log s) g = At n c st /\ st <> Over.
Proof.
  intros Hr. destruct (reachable_linv E s Hr) as [V L]. pose proof (reachable_lived E s Hr g) as H. rewrite (l_prog E s L). unfold lived in H. unfold active. split.
  - intros (r & Hg & Hn & Hp). rewrite Hg in H. destruct H as (st & H & Hf). rewrite Hn in H. eexists _, st. split; [exact H|]. intros ->. by eapply fit_over.
  - intros (c & st & Hs & Ho). destruct (s_gors s !! g) as [r|]; [|congruence]. destruct H as (st' & H & Hf). rewrite Hs in H. injection H as -> -> ->.
    exists r. split; [done|]. split; [done|]. intros Hp. rewrite Hp in Hf. done.
Qed.
Lemma life_cancelled E s g n c st : reachable E s -> life_of (s_log s) g = At n c st -> c = true <-> asked_to_stop (s_log s) g.
Proof.
  intros Hr Hs. destruct (reachable_linv E s Hr) as [V L]. pose proof (reachable_lived E s Hr g) as H. unfold lived in H. rewrite <- (l_canc E s L).
  destruct (s_gors s !! g) as [r|]; [|congruence]. destruct H as (st' & H & Hf). rewrite Hs in H. injection H as -> -> ->. apply bool_decide_eq_true.
Qed.
Lemma life_dead E s g n c st : reachable E s -> EvDead ∈ s_log s -> (forall g n, EvStartRet g n (inl WSelf) ∉ s_log s) -> life_of (s_log s) g = At n c st -> st = Over.
Proof.
  intros Hr Hd Hw Hs. destruct (in_progress (s_log s) n) as [g'|] eqn:Hp.
  - exfalso. apply elem_of_list_split in Hd as (pre & post & Hl). assert (is_Some (in_progress (s_log s) n)) as Hn by eauto. rewrite Hl in Hn. apply prog_quiet in Hn as [g2 Hg].
    + destruct (dead_prog E s pre post n g2 Hr Hl Hg) as (g3 & Hreg). destruct (registered_event _ _ _ _ Hreg) as (t & Hev).
      apply (Hw g3 n). apply (register_ret E s g3 n WSelf t Hr). rewrite Hl. apply elem_of_app. right. by right.
    + intros ev (p1 & p2 & ->)%elem_of_list_split. rewrite <- app_assoc in Hl. cbn in Hl. apply (dead_no_events E s _ _ _ Hr Hl). set_solver.
  - assert (st <> Over -> in_progress (s_log s) n = Some g) as Hx. { intros Ho. apply (life_progress E s n g Hr). by exists c, st. }
    destruct st; try done; by rewrite Hx in Hp.
Qed.
