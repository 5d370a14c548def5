(** C89: the life of an attempt follows one automaton, the engine. Statements only. *)
From stdpp Require Import gmap strings list.
From Coq Require Import ZArith Lia.
From Verif Require Import Err Snapshot Engine EngineSpec EngineExample EngineLifeSpec.
From Verif Require EngineLifeThms.

(** What is observed of an attempt always follows the automaton. *)
Theorem C89_engine : forall E s g, reachable E s -> life_of (s_log s) g <> Wrong.
Proof. exact EngineLifeThms.life_ok. Qed.
Print Assumptions C89_engine.

(** The attempt that is in progress for a name is the one whose life has begun, for that name, and is not over; hence there is at most one. *)
Theorem C89_engine_progress : forall E s n g, reachable E s -> in_progress (s_log s) n = Some g <-> exists c st, life_of (s_log s) g = At n c st /\ st <> Over.
Proof. exact EngineLifeThms.life_progress. Qed.
Print Assumptions C89_engine_progress.

(** The automaton knows whether the context of the attempt was cancelled. *)
Theorem C89_engine_cancelled : forall E s g n c st, reachable E s -> life_of (s_log s) g = At n c st -> c = true <-> asked_to_stop (s_log s) g.
Proof. exact EngineLifeThms.life_cancelled. Qed.
Print Assumptions C89_engine_cancelled.

(** When the engine is dead every attempt is over, unless a Start func returned the engine itself. *)
Theorem C89_engine_dead : forall E s g n c st, reachable E s -> EvDead ∈ s_log s -> (forall g n, EvStartRet g n (inl WSelf) ∉ s_log s) ->
  life_of (s_log s) g = At n c st -> st = Over.
Proof. exact EngineLifeThms.life_dead. Qed.
Print Assumptions C89_engine_dead.

(** "api" was started after "db", which then failed: the attempt for "api" is bounced, its worker killed. Later both are up again;
    at the end everything is over. *)
Example C89_engine_example_bounce : let s := ex_state ex_env ls_fail in reachable ex_env s /\
  life_of (s_log s) 0 = At "db" false Over /\ life_of (s_log s) 1 = At "api" true (Killed (WExt 11)) /\ life_of (s_log s) 7 = NotBegun.
Proof. intros s. split; [apply ex_reach; ex_go|]. split_and!; ex_go. Qed.
Example C89_engine_example_up : let s := ex_state ex_env ls_again in reachable ex_env s /\
  life_of (s_log s) 1 = At "api" true Over /\ life_of (s_log s) 4 = At "api" false (Running (WExt 14)) /\ in_progress (s_log s) "api" = Some 4.
Proof. intros s. split; [apply ex_reach; ex_go|]. split_and!; ex_go. Qed.
Lemma dead_in log : existsb (fun ev => match ev with EvDead => true | _ => false end) log = true -> EvDead ∈ log.
Proof. intros (ev & Hi & He)%existsb_exists. apply elem_of_list_In in Hi. by destruct ev. Qed.
Definition is_self (ev : event) : bool := match ev with EvStartRet _ _ (inl WSelf) => true | _ => false end.
Lemma no_self log : existsb is_self log = false -> forall g n, EvStartRet g n (inl WSelf) ∉ log.
Proof. intros H g n. by eapply ex_absent. Qed.
Example C89_engine_example_dead : let s := ex_state ex_env ls_dead in reachable ex_env s /\ EvDead ∈ s_log s /\ (forall g n, EvStartRet g n (inl WSelf) ∉ s_log s) /\
  life_of (s_log s) 4 = At "api" false Over.
Proof. intros s. split; [apply ex_reach; ex_go|]. split; [apply dead_in; ex_go|]. split; [apply no_self; ex_go|ex_go]. Qed.
