(** C88: goroutines do not leak, the engine. Statements only. *)
From stdpp Require Import gmap strings list.
From Coq Require Import ZArith Lia.
From Verif Require Import Err Snapshot Engine EngineSpec EngineExample LeakSpec.
From Verif Require LeakEngine.

(** At any time the goroutines created and not yet accounted for by the loop are at most as many as the manifolds installed and not
    uninstalled, however many restarts there have been. *)
Theorem C88_engine : forall E s, reachable E s ->
  how_many e_finish (s_log s) <= how_many e_launch (s_log s) /\
  how_many e_launch (s_log s) - how_many e_finish (s_log s) <= how_many e_install (s_log s) - how_many e_uninstall (s_log s).
Proof. exact LeakEngine.goroutines. Qed.
Print Assumptions C88_engine.

(** When the engine is dead, every goroutine it ever created has been accounted for, unless a Start func returned the engine itself. *)
Theorem C88_engine_dead : forall E s, reachable E s -> EvDead ∈ s_log s -> (forall g n, EvStartRet g n (inl WSelf) ∉ s_log s) ->
  how_many e_launch (s_log s) = how_many e_finish (s_log s).
Proof. exact LeakEngine.goroutines_dead. Qed.
Print Assumptions C88_engine_dead.

(** Five goroutines so far, two running, two manifolds; five at the end. *)
Example C88_engine_example : let s := ex_state ex_env ls_again in reachable ex_env s /\
  how_many e_launch (s_log s) = 5 /\ how_many e_finish (s_log s) = 3 /\ how_many e_install (s_log s) = 2 /\ how_many e_uninstall (s_log s) = 0.
Proof. intros s. split; [apply ex_reach; ex_go|]. split_and!; ex_go. Qed.
Definition is_self (ev : event) : bool := match ev with EvStartRet _ _ (inl WSelf) => true | _ => false end.
Lemma no_self log : existsb is_self log = false -> forall g n, EvStartRet g n (inl WSelf) ∉ log.
Proof. intros H g n. by eapply ex_absent. Qed.
Lemma dead_in log : existsb (fun ev => match ev with EvDead => true | _ => false end) log = true -> EvDead ∈ log.
Proof. intros (ev & Hi & He)%existsb_exists. apply elem_of_list_In in Hi. by destruct ev. Qed.
Example C88_engine_dead_example : let s := ex_state ex_env ls_dead in reachable ex_env s /\ EvDead ∈ s_log s /\
  (forall g n, EvStartRet g n (inl WSelf) ∉ s_log s) /\ how_many e_launch (s_log s) = 5.
Proof. intros s. split; [apply ex_reach; ex_go|]. split; [apply dead_in; ex_go|]. split; [apply no_self; ex_go|ex_go]. Qed.

(** The exception is needed: an engine whose only worker is the engine itself ends without waiting for that goroutine. *)
Definition ls_self_dead : list label := [LInstall "self" m_self; LDelayFire 0; LStartRet 0 (inl WSelf); LExpire 0; LStarted 0; LKill; LDying].
Theorem C88_engine_self_refuted : exists E s, reachable E s /\ EvDead ∈ s_log s /\ how_many e_launch (s_log s) <> how_many e_finish (s_log s).
Proof. exists ex_env, (ex_state ex_env ls_self_dead). split; [apply ex_reach; ex_go|]. split; [apply dead_in; ex_go|vm_compute; discriminate]. Qed.
Print Assumptions C88_engine_self_refuted.
