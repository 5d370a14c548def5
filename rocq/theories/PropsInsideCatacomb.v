(** Property C83, the catacomb. Statements only: every theorem is closed by a lemma proved elsewhere. Vocabulary: CatacombSpec.v. *)
From stdpp Require Import gmap strings list.
From Verif Require Import Err Tomb Catacomb CatacombSpec CatacombProgressSpec CatacombThms CatacombMore CatacombExample InsideCatacomb.

(** C83: the catacomb's Wait returns only after Work has returned and all its workers have finished; so called from Work or from one of
    the workers, it waits for itself. (A worker's Add of itself to a dying catacomb waits for itself as well: C44_add_answer.) *)
Theorem C83_catacomb_wait me s e : reachable me s -> EvWait e ∈ x_log s ->
  work_returned (x_log s) /\ (forall b w, EvBind b w ∈ x_log s -> finished (x_log s) w) /\ (forall i w, EvAddRet i w None ∈ x_log s -> finished (x_log s) w).
Proof. exact (c_wait_ends me s e). Qed.
Print Assumptions C83_catacomb_wait.
Example C83_catacomb_example : let s := cx cl_dead in reachable 0 s /\ EvWait (Some (EUser 9)) ∈ x_log s /\ EvAddRet 0 (WExt 3) None ∈ x_log s /\ EvBind 2 (WExt 3) ∈ x_log s.
Proof. intros s. split_and!; cx_go. Qed.
