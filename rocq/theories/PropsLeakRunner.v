(** C88: goroutines do not leak, the runner. Statements only. *)
From stdpp Require Import gmap strings list.
From Coq Require Import ZArith Lia.
From Verif Require Import Err Runner RunnerSpec RunnerExample LeakSpec.
From Verif Require LeakRunner.

(** At any time the goroutines created and not yet accounted for by the loop are exactly as many as the ids accepted and not removed. *)
Theorem C88_runner : forall P s, reachable P s ->
  how_many r_finish (rlog s) <= how_many r_launch (rlog s) /\ how_many r_removed (rlog s) <= how_many r_known (rlog s) /\
  how_many r_launch (rlog s) - how_many r_finish (rlog s) = how_many r_known (rlog s) - how_many r_removed (rlog s).
Proof. exact LeakRunner.goroutines. Qed.
Print Assumptions C88_runner.

(** When the runner is dead, every goroutine it ever created has been accounted for, and every id was removed. *)
Theorem C88_runner_dead : forall P s, reachable P s -> EvDead ∈ rlog s ->
  how_many r_launch (rlog s) = how_many r_finish (rlog s) /\ how_many r_known (rlog s) = how_many r_removed (rlog s).
Proof. exact LeakRunner.goroutines_dead. Qed.
Print Assumptions C88_runner_dead.

(** WorkerNames returns as many names as there are goroutines. *)
Theorem C88_runner_names : forall P s pre ns post, reachable P s -> rlog s = pre ++ EvClient (CvNames ns) :: post ->
  how_many r_launch post = how_many r_finish post + size ns.
Proof. exact LeakRunner.names_count. Qed.
Print Assumptions C88_runner_names.

(** "a" and "b" run, "a" for the second time; then "a" is stopped and removed, and WorkerNames is called; a runner that is dead. *)
Example C88_runner_example : let s := rx_state rx rl_back in reachable rx s /\
  how_many r_launch (rlog s) = 3 /\ how_many r_finish (rlog s) = 1 /\ how_many r_known (rlog s) = 2 /\ how_many r_removed (rlog s) = 0.
Proof. intros s. split; [rx_go|]. split_and!; rx_go. Qed.
Lemma dead_in log : existsb (fun ev => match ev with EvDead => true | _ => false end) log = true -> EvDead ∈ log.
Proof. intros (ev & Hi & He)%existsb_exists. apply elem_of_list_In in Hi. by destruct ev. Qed.
Example C88_runner_dead_example : let s := rx_state rx rl_dead in reachable rx s /\ EvDead ∈ rlog s /\ how_many r_launch (rlog s) = 2.
Proof. intros s. split; [rx_go|]. split; [apply dead_in; rx_go|rx_go]. Qed.
Definition names_at (k : nat) (s : state) : gset string := match rlog s !! k with Some (EvClient (CvNames ns)) => ns | _ => ∅ end.
Lemma names_here s : match rlog s !! 0 with Some (EvClient (CvNames _)) => true | _ => false end = true -> rlog s = [] ++ EvClient (CvNames (names_at 0 s)) :: drop 1 (rlog s).
Proof. unfold names_at. destruct (rlog s) as [|ev l]; [done|]. cbn. destruct ev as [| | | | | | | | | | | | | | | ce]; try done. all: try (destruct ce; done). Qed.
Example C88_runner_names_example : let s := rx_state rx rl_gone in reachable rx s /\
  rlog s = [] ++ EvClient (CvNames (names_at 0 s)) :: drop 1 (rlog s) /\ size (names_at 0 s) = 1.
Proof. intros s. split; [rx_go|]. split; [apply names_here; rx_go|rx_go]. Qed.
