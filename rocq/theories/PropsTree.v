(** C78: workers made of workers. *)
From stdpp Require Import gmap strings list relations.
From Verif Require Import Err Tomb Tree TreeSpec TreeProofs TreeFinish TreeExample.

(** C78: whoever waits for a worker waits for everything below it: when Wait of an engine, a runner or a worker built around a
    catacomb returns, the workers that it started or accepted have finished, and theirs, and so on. *)
Theorem C78_nothing_left F n nd c : freachable F -> f_nodes F !! n = Some nd -> dead nd -> descendant F n c ->
  exists ndc, f_nodes F !! c = Some ndc /\ dead ndc.
Proof. exact (nothing_left F n nd c). Qed.
Print Assumptions C78_nothing_left.

(** (Every worker that it is responsible for is one of the workers of the forest.) *)
Theorem C78_workers F n nd k : freachable F -> f_nodes F !! n = Some nd -> owns nd k ->
  exists c ndc, f_link F !! (n, k) = Some c /\ f_nodes F !! c = Some ndc.
Proof. exact (owned_linked F n nd k). Qed.
Print Assumptions C78_workers.

(** C78: a worker on which somebody calls Kill begins to stop, unless it has finished. *)
Theorem C78_kill F n F' nd' : freachable F -> fstep F (FKill n) = Some F' -> f_nodes F' !! n = Some nd' -> crashed nd' = false ->
  (killed nd' /\ dying nd') \/ dead nd'.
Proof. exact (kill_tells2 F n F' nd'). Qed.
Print Assumptions C78_kill.

(** C78: and so does a worker on which the one above it calls Kill. *)
Theorem C78_kill_passed F n nd k c ndc : freachable F -> f_nodes F !! n = Some nd -> has_killed nd k = true -> f_link F !! (n, k) = Some c ->
  f_nodes F !! c = Some ndc -> crashed ndc = false -> (killed ndc /\ dying ndc) \/ dead ndc.
Proof. exact (kill_passed2 F n nd k c ndc). Qed.
Print Assumptions C78_kill_passed.

(** C78: the shutdown of a tree does not get stuck: a worker that was told to stop, and below which nothing that is bound to
    happen is possible any more, has finished, and everything below it. *)
Theorem C78_stops F n nd : freachable F -> acyclic F -> f_nodes F !! n = Some nd -> ready nd = true -> dying nd -> sound F n -> at_rest F n ->
  dead nd /\ forall c, descendant F n c -> exists ndc, f_nodes F !! c = Some ndc /\ dead ndc.
Proof. exact (stops F n nd). Qed.
Print Assumptions C78_stops.

(** C78: whatever state the tree is in, a worker that was killed can still be brought to its end by steps that are bound to
    happen, in it and below it, with harmless results of user code: nothing that happened before made that impossible
    (unless, on the way, the program crashes or a catacomb is given itself). *)
Theorem C78_can_finish F n nd : freachable F -> acyclic F -> f_nodes F !! n = Some nd -> ready nd = true -> killed nd ->
  exists ls F', winds_down F n ls F' /\ ((exists nd', f_nodes F' !! n = Some nd' /\ dead nd') \/ ~ sound F' n).
Proof. exact (can_finish F n nd). Qed.
Print Assumptions C78_can_finish.

(** An engine, whose worker is built around a catacomb, which has a runner, which has a worker. *)
Lemma tx_dead_reach : freachable (tx tx_dead).
Proof. apply tx_reach; [vm_compute; reflexivity|apply tx_fok]. Qed.
Definition is_engine (F : forest) (n : nat) : bool := match f_nodes F !! n with Some (NEngine _ _) => true | _ => false end.
Definition is_runner (F : forest) (n : nat) : bool := match f_nodes F !! n with Some (NRunner _ _) => true | _ => false end.
Definition is_catacomb (F : forest) (n : nat) : bool := match f_nodes F !! n with Some (NCatacomb _ _) => true | _ => false end.
Example C78_example_kinds : let F := tx tx_dead in is_engine F 0 = true /\ is_catacomb F 1 = true /\ is_runner F 2 = true /\
  f_link F !! (0, 0) = Some 1 /\ f_link F !! (1, 0) = Some 2 /\ f_link F !! (1, 1) = Some 3 /\ f_link F !! (2, 0) = Some 4.
Proof. vm_compute. tauto. Qed.
(** It was shut down from the top; at the end Kill has reached everything, and all have finished. *)
Example C78_example_order : map (n_dead (tx tx_kill2)) [0; 1; 2; 3; 4] = [false; false; false; false; false] /\
  map (n_dead (tx tx_dead2)) [0; 1; 2; 3; 4] = [false; false; true; false; true] /\
  map (n_dead (tx tx_dead1)) [0; 1; 2; 3; 4] = [false; true; true; true; true] /\
  map (n_dead (tx tx_dead)) [0; 1; 2; 3; 4] = [true; true; true; true; true].
Proof. vm_compute. tauto. Qed.
Example C78_example_sat : let F := tx tx_dead in freachable F /\ acyclic F /\ sound F 0 /\ at_rest F 0 /\ descendant F 0 4 /\ (exists nd, f_nodes F !! 0 = Some nd /\ dying nd).
Proof.
  intros F. split; [apply tx_dead_reach|]. split; [apply (tx_acyclic_ok F (fun n => 5 - n)); vm_compute; reflexivity|].
  split; [apply tx_sound_ok; vm_compute; reflexivity|]. split; [apply tx_rest_ok; [apply tx_dead_reach|vm_compute; reflexivity]|]. split.
  - eapply tc_l; [apply (child_ok F 0 0 1); vm_compute; reflexivity|]. eapply tc_l; [apply (child_ok F 1 0 2); vm_compute; reflexivity|]. apply tc_once. apply (child_ok F 2 0 4); vm_compute; reflexivity.
  - apply dying_ok. vm_compute. reflexivity.
Qed.
(** Before: everybody has been told to stop except 4, nobody has finished. *)
Example C78_example_told : map (dying_check (tx tx_up)) [0; 1; 2; 3; 4] = [false; false; false; false; false] /\
  map (dying_check (tx tx_kill)) [0; 1; 2; 3; 4] = [true; true; false; false; false] /\
  map (dying_check (tx tx_kill2)) [0; 1; 2; 3; 4] = [true; true; true; true; false] /\
  map (dying_check (tx tx_dead2)) [0; 1; 2; 3; 4] = [true; true; true; true; true].
Proof. vm_compute. tauto. Qed.

Lemma tx_kill_fok : Forall fok tx_kill.
Proof. pose proof tx_fok as H. unfold tx_dead in H. apply fok_app in H. unfold tx_dead1 in H. apply fok_app in H. unfold tx_dead2 in H. apply fok_app in H. unfold tx_kill2 in H. by apply fok_app in H. Qed.
(** C78_can_finish applies right after Kill on the top, when nobody has finished. *)
Example C78_example_can_finish : let F := tx tx_kill in freachable F /\ acyclic F /\ sound F 0 /\
  (exists nd, f_nodes F !! 0 = Some nd /\ ready nd = true /\ killed nd /\ ~ dead nd).
Proof.
  intros F. split; [apply tx_reach; [vm_compute; reflexivity|exact tx_kill_fok]|].
  split; [apply (tx_acyclic_ok F (fun n => 5 - n)); vm_compute; reflexivity|]. split; [apply tx_sound_ok; vm_compute; reflexivity|].
  apply (running_top F 0); vm_compute; reflexivity.
Qed.

(** C78: "no worker contains itself" cannot be left out: two catacombs, each given the worker around the other, were told to
    stop, and will never finish. *)
Theorem C78_cycle_refuted : exists F, freachable F /\ sound F 0 /\ at_rest F 0 /\
  exists nd nd', f_nodes F !! 0 = Some nd /\ f_nodes F !! 1 = Some nd' /\ ready nd = true /\ dying nd /\ dying nd' /\ child F 0 1 /\ child F 1 0 /\ ~ dead nd /\ ~ dead nd'.
Proof. exact cycle_stuck. Qed.
Print Assumptions C78_cycle_refuted.
