(** C88: goroutines do not leak, the catacomb. Statements only. *)
From stdpp Require Import gmap strings list.
From Coq Require Import Lia.
From Verif Require Import Err Catacomb CatacombSpec CatacombExample LeakSpec LeakCatacombSpec.
From Verif Require LeakCatacomb.

(** The goroutines the catacomb waits for (the counter of its WaitGroup) are one or two for every worker that was bound and not
    released, and at most one more, which listens for Add. *)
Theorem C88_catacomb : forall me s, reachable me s ->
  how_many c_gone (x_log s) <= how_many c_bound (x_log s) /\
  how_many c_bound (x_log s) - how_many c_gone (x_log s) <= x_wg s <= 2 * (how_many c_bound (x_log s) - how_many c_gone (x_log s)) + 1.
Proof. exact LeakCatacomb.goroutines. Qed.
Print Assumptions C88_catacomb.

(** A dead catacomb has none left. *)
Theorem C88_catacomb_dead : forall me s, reachable me s -> EvDead ∈ x_log s -> how_many c_bound (x_log s) = how_many c_gone (x_log s) /\ x_wg s = 0.
Proof. exact LeakCatacomb.goroutines_dead. Qed.
Print Assumptions C88_catacomb_dead.

(** Worker 1 failed and was released, worker 2 is being stopped; all released in the end. *)
Example C88_catacomb_example : let s := cx cl_fail in reachable 0 s /\ how_many c_bound (x_log s) = 2 /\ how_many c_gone (x_log s) = 1 /\ x_wg s = 2.
Proof. intros s. split; [cx_go|]. split_and!; cx_go. Qed.
Lemma dead_in log : existsb (fun ev => match ev with EvDead => true | _ => false end) log = true -> EvDead ∈ log.
Proof. intros (ev & Hi & He)%existsb_exists. apply elem_of_list_In in Hi. by destruct ev. Qed.
Example C88_catacomb_example_dead : let s := cx cl_dead in reachable 0 s /\ EvDead ∈ x_log s /\ how_many c_bound (x_log s) = 3 /\ how_many c_gone (x_log s) = 3.
Proof. intros s. split; [cx_go|]. split; [apply dead_in; cx_go|]. split; cx_go. Qed.
