(** C81: infinite executions of workers made of workers. *)
From stdpp Require Import gmap strings list relations.
From Verif Require Import Err Tomb Tree TreeSpec TreeProofs TreeExample FairSpec FairTreeSpec FairExample FairTree FairTreeExample.

(** C81: a worker that was killed comes to its end, and everything below it. In every infinite execution of engines,
    runners, catacombs and plain workers, in which no worker ever contains itself ([rank]), and in which, for [n] and the workers
    below it: none is starved of the steps that are bound to happen in it; the loop of a runner that was killed takes the
    Dying case in the end; and, from time [i] on, none crashes, no catacomb is given itself, and clients give them no new work;
    if [n] was killed at time [i], then some time later its Wait returns, and that of all its descendants. *)
Theorem C81_tree_dies tr lab (rank : nat -> nat) n i nd :
  freachable (tr 0) -> execution fstep tr lab -> (forall j l, lab j = Some l -> fok l) ->
  (forall j m k c, f_link (tr j) !! (m, k) = Some c -> rank c < rank m) ->
  (forall j m, below (tr j) n m -> not_starved fstep (bound_in m) tr lab /\ heeds m tr) ->
  (forall j, i <= j -> sound (tr j) n) ->
  (forall j m l cs, i <= j -> lab j = Some (FStep m l cs) -> below (tr j) n m -> new_work l = false) ->
  f_nodes (tr i) !! n = Some nd -> ready nd = true -> killed nd ->
  exists j nd', i <= j /\ f_nodes (tr j) !! n = Some nd' /\ dead nd' /\
    forall c, descendant (tr j) n c -> exists ndc, f_nodes (tr j) !! c = Some ndc /\ dead ndc.
Proof. exact (tree_dies tr lab rank n i nd). Qed.
Print Assumptions C81_tree_dies.

(** An engine, whose worker is built around a catacomb, which has a runner and a plain worker; the runner has a worker. They are
    built, the engine is killed; at that time nobody has finished. *)
Example C81_example_tree : let i := length tx_kill in
  freachable (ft_tr 0) /\ execution fstep ft_tr ft_lab /\ (forall j l, ft_lab j = Some l -> fok l) /\
  (forall j m k c, f_link (ft_tr j) !! (m, k) = Some c -> ft_rank c < ft_rank m) /\
  (forall j m, below (ft_tr j) 0 m -> not_starved fstep (bound_in m) ft_tr ft_lab /\ heeds m ft_tr) /\
  (forall j, i <= j -> sound (ft_tr j) 0) /\
  (forall j m l cs, i <= j -> ft_lab j = Some (FStep m l cs) -> below (ft_tr j) 0 m -> new_work l = false) /\
  (exists nd, f_nodes (ft_tr i) !! 0 = Some nd /\ ready nd = true /\ killed nd /\ ~ dead nd) /\
  map (n_dead (ft_tr i)) [0; 1; 2; 3; 4] = [false; false; false; false; false].
Proof.
  intros i. split; [exists []; split; [apply Forall_nil|]; done|]. split; [exact ft_exec|]. split; [exact ft_fok|]. split; [exact ft_ranked|].
  split; [intros j m _; split; [apply ft_fair|apply ft_heeds]|]. split; [intros j _; apply ft_sound|].
  split; [intros j m l cs Hj Hl _; exact (ft_new_work j m l cs Hj Hl)|]. split; [apply (running_top (ft_tr i) 0); vm_compute; reflexivity|]. vm_compute. reflexivity.
Qed.
