(** C89: the life of a worker of a catacomb follows one automaton. Statements only. *)
From stdpp Require Import gmap strings list.
From Verif Require Import Err Catacomb CatacombSpec CatacombExample CatacombLifeSpec.
From Verif Require CatacombLife.

(** What is observed of a binding always follows the automaton: it is made once, calls Kill on the worker at most once, passes an error
    of the worker on at most once, and nothing happens after its end. *)
Theorem C89_catacomb : forall me s b, reachable me s -> life_of (x_log s) b <> Wrong.
Proof. exact CatacombLife.life_ok. Qed.
Print Assumptions C89_catacomb.

(** The automaton speaks about the worker that was bound. *)
Theorem C89_catacomb_bound : forall me s b w, reachable me s ->
  EvBind b w ∈ x_log s <-> exists k t, life_of (x_log s) b = Owned w k t \/ life_of (x_log s) b = Released w k t.
Proof. exact CatacombLife.life_bound. Qed.
Print Assumptions C89_catacomb_bound.

(** A worker is released only when it has finished; a dead catacomb owns no worker. *)
Theorem C89_catacomb_released : forall me s b w k t, reachable me s -> life_of (x_log s) b = Released w k t -> finished (x_log s) w.
Proof. exact CatacombLife.life_released. Qed.
Print Assumptions C89_catacomb_released.
Theorem C89_catacomb_dead : forall me s b w k t, reachable me s -> EvDead ∈ x_log s -> life_of (x_log s) b <> Owned w k t.
Proof. exact CatacombLife.life_dead. Qed.
Print Assumptions C89_catacomb_dead.

(** Worker 1 failed, which killed the catacomb, which called Kill on worker 2; a worker that finished by itself; a dead catacomb. *)
Example C89_catacomb_example : let s := cx cl_fail in reachable 0 s /\ life_of (x_log s) 0 = Released (WExt 1) false true /\
  life_of (x_log s) 1 = Owned (WExt 2) true false /\ life_of (x_log s) 2 = NotBegun.
Proof. intros s. split; [cx_go|]. split_and!; cx_go. Qed.
Example C89_catacomb_example_clean : let s := cx cl_clean_gone in reachable 0 s /\ life_of (x_log s) 0 = Released (WExt 1) false false.
Proof. intros s. split; cx_go. Qed.
Lemma dead_in log : existsb (fun ev => match ev with EvDead => true | _ => false end) log = true -> EvDead ∈ log.
Proof. intros (ev & Hi & He)%existsb_exists. apply elem_of_list_In in Hi. by destruct ev. Qed.
Example C89_catacomb_example_dead : let s := cx cl_dead in reachable 0 s /\ EvDead ∈ x_log s /\ life_of (x_log s) 1 = Released (WExt 2) true true /\ life_of (x_log s) 2 = Released (WExt 3) true false.
Proof. intros s. split; [cx_go|]. split; [apply dead_in; cx_go|]. split; cx_go. Qed.
