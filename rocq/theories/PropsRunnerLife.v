(** C89: the life of an attempt follows one automaton, the runner. Statements only. *)
From stdpp Require Import gmap strings list.
From Coq Require Import ZArith Lia.
From Verif Require Import Err Runner RunnerSpec RunnerExample RunnerLifeSpec.
From Verif Require RunnerLifeThms.

(** What is observed of a goroutine of the runner always follows the automaton. *)
Theorem C89_runner : forall P s g, reachable P s -> life_of (rlog s) g <> Wrong.
Proof. exact RunnerLifeThms.life_ok. Qed.
Print Assumptions C89_runner.

(** The ids that are known are those with a goroutine that is not gone, and there is only one of those. *)
Theorem C89_runner_known : forall P s id, reachable P s -> is_Some (known (rlog s) id) <-> exists g st, life_of (rlog s) g = At id st /\ forall o, st <> Gone o.
Proof. exact RunnerLifeThms.life_known. Qed.
Print Assumptions C89_runner_known.
Theorem C89_runner_one : forall P s id g g' st st', reachable P s -> life_of (rlog s) g = At id st -> life_of (rlog s) g' = At id st' ->
  (forall o, st <> Gone o) -> (forall o, st' <> Gone o) -> g = g'.
Proof. exact RunnerLifeThms.life_one. Qed.
Print Assumptions C89_runner_one.

(** The registered worker is one that was accepted and on which the runner has not called Kill; it may be one whose end was handled. *)
Theorem C89_runner_registered : forall P s id g w, reachable P s -> registered (rlog s) id = Some (g, w) ->
  exists st, life_of (rlog s) g = At id st /\ ((exists e, st = Up w false e) \/ st = Gone (Some w)).
Proof. exact RunnerLifeThms.life_registered. Qed.
Print Assumptions C89_runner_registered.

(** When the runner is dead every goroutine is gone. *)
Theorem C89_runner_dead : forall P s g id st, reachable P s -> EvDead ∈ rlog s -> life_of (rlog s) g = At id st -> exists o, st = Gone o.
Proof. exact RunnerLifeThms.life_dead. Qed.
Print Assumptions C89_runner_dead.

(** "a" failed and is restarted, "b" is up; the worker of "a" that failed is still the registered one, and stopping "a" before the
    restart calls Kill on it. *)
Example C89_runner_example : let s := rx_state rx rl_fail in reachable rx s /\ registered (rlog s) "a" = Some (0, 10) /\
  life_of (rlog s) 0 = At "a" (Gone (Some 10)) /\ life_of (rlog s) 1 = At "b" (Up 11 false false) /\ life_of (rlog s) 2 = At "a" Planned /\ is_Some (known (rlog s) "a").
Proof. intros s. split; [rx_go|]. do 4 (split; [rx_go|]). exists (1, 0). rx_go. Qed.
Example C89_runner_example_stale : let s := rx_state rx (rl_fail ++ stop_ 3 "a") in reachable rx s /\ EvKill 0 "a" 10 ∈ rlog s /\ life_of (rlog s) 0 = At "a" (Gone None).
Proof. intros s. split; [rx_go|]. split; [|rx_go]. apply (rx_present 0). rx_go. Qed.
(** Stopped while the start func ran: the worker is accepted and killed. *)
Example C89_runner_example_early : let s := rx_state rx rl_early in reachable rx s /\ life_of (rlog s) 0 = At "c" (Up 20 true false).
Proof. intros s. split; rx_go. Qed.
Lemma dead_in log : existsb (fun ev => match ev with EvDead => true | _ => false end) log = true -> EvDead ∈ log.
Proof. intros (ev & Hi & He)%existsb_exists. apply elem_of_list_In in Hi. by destruct ev. Qed.
Example C89_runner_example_dead : let s := rx_state rx rl_dead in reachable rx s /\ EvDead ∈ rlog s /\ life_of (rlog s) 1 = At "b" (Gone None).
Proof. intros s. split; [rx_go|]. split; [apply dead_in; rx_go|rx_go]. Qed.
