(** C82: reports of workers made of workers. *)
From stdpp Require Import gmap strings list relations.
From Verif Require Import Err Tomb Tree TreeSpec TreeProofs TreeExample Reports ReportsSpec ReportsProofs ReportsInv ReportsLive ReportsExample.
From Verif Require Engine Runner RunnerExample.

(** C82: what a Report returns is true. It was begun after the call, and completed. What it says about the worker's
    own state was so when it was begun; what it says about the workers in it was so all the time while it was made, however much else
    was going on; it has a report of every worker in the engine or runner that has a Report method; and each of them is
    such a report itself, made meanwhile. *)
Theorem C82_true ls R i n t : Forall rok ls -> rrun rinit ls = Some R -> r_calls R !! i = Some (Returned n t) ->
  exists pre post a b, ls = pre ++ RCall i n :: post /\ length pre < a /\ true_report (forests rinit ls) a b n t.
Proof. exact (report_true ls R i n t). Qed.
Print Assumptions C82_true.

(** C82: nothing else is different because reports take time: all that can happen to the workers while reports are made can also
    happen if they are made at once. So what C78 and C81 say about reachable trees also holds here. *)
Theorem C82_projection R : rreachable R -> freachable (r_forest R).
Proof. exact (projection R). Qed.
Print Assumptions C82_projection.

(** C82: reports do not deadlock. If no worker contains itself ([rank]), then as long as a Report call has not returned, there is
    something that this call, or another Report call, or a goroutine of Runner.Worker that has the mutex, can do now. *)
Theorem C82_no_deadlock (rank : nat -> nat) R i p : rreachable R ->
  (forall n k c, f_link (r_forest R) !! (n, k) = Some c -> rank c < rank n) ->
  r_calls R !! i = Some p -> (forall n t, p <> Returned n t) -> exists l R', report_step l /\ rstep R l = Some R'.
Proof. exact (never_stuck rank R i p). Qed.
Print Assumptions C82_no_deadlock.

(** C82: and they come to an end: such steps do not go on for ever, *)
Theorem C82_finite (rank : nat -> nat) R : rreachable R ->
  (forall n k c, f_link (r_forest R) !! (n, k) = Some c -> rank c < rank n) ->
  ~ exists tr : nat -> rstate, tr 0 = R /\ forall j, exists l, report_step l /\ rstep (tr j) l = Some (tr (S j)).
Proof. exact (no_infinite rank R). Qed.
Print Assumptions C82_finite.

(** C82: ... so from every state all the calls in progress can return. *)
Theorem C82_returns (rank : nat -> nat) R : rreachable R ->
  (forall n k c, f_link (r_forest R) !! (n, k) = Some c -> rank c < rank n) ->
  exists ls R', Forall report_step ls /\ rrun R ls = Some R' /\
    (forall i, is_Some (r_calls R !! i) -> exists n t, r_calls R' !! i = Some (Returned n t)).
Proof. exact (all_return rank R). Qed.
Print Assumptions C82_returns.

(** C82: while a Report method of an engine or runner waits for that of one of its workers, the engine or runner does not die: its
    Wait does not return, whatever happened to it. *)
Theorem C82_blocks R i m nd : rreachable R -> waits_in R i m -> f_nodes (r_forest R) !! m = Some nd ->
  (match nd with NEngine _ _ | NRunner _ _ => True | _ => False end) -> ~ dead nd.
Proof. exact (blocks R i m nd). Qed.
Print Assumptions C82_blocks.

(** C82: but if a worker contains itself, then "reports do not deadlock" is false: Report of a runner that runs itself never
    returns, and never gives the runner's mutex back, whatever happens. (engine.go:312 has a check for this case, runner.go:686
    has not.) *)
Theorem C82_self_refuted : exists R, rreachable R /\ forall ls R', Forall rok ls -> rrun R ls = Some R' ->
  (forall n t, r_calls R' !! 0 <> Some (Returned n t)) /\ is_Some (r_calls R' !! 0) /\ r_lock R' !! 0 = Some 0.
Proof. exact self_refuted. Qed.
Print Assumptions C82_self_refuted.

(** An engine, whose worker is built around a catacomb, which has a runner and a plain worker; the runner has a worker. Report on the
    engine goes down to the runner, but another Report on the runner is first; the engine is killed meanwhile, and does not
    die; both return. The engine's report has its worker, that has the two workers of the catacomb, ...; its state is the
    one when it was begun. *)
Example C82_example_tree :
  Forall rok rp_end /\ rrun rinit rp_end = Some (rp rp_end) /\
  (exists t, r_calls (rp rp_end) !! 0 = Some (Returned 0 t) /\ shape t = [[0]; [0; 1]; [0]; []; []] /\ (exists tb k, t = RT (Some (Engine.EStarted, None)) tb k)) /\
  (exists t, r_calls (rp rp_end) !! 1 = Some (Returned 2 t) /\ shape t = [[0]; []]).
Proof.
  split; [exact rp_fok|]. split; [apply rp_run; vm_compute; reflexivity|]. split.
  - apply rp_tree0. vm_compute. reflexivity.
  - apply rp_tree1. vm_compute. reflexivity.
Qed.
Example C82_example_mid : rreachable (rp rp_mid) /\
  (forall n k c, f_link (r_forest (rp rp_mid)) !! (n, k) = Some c -> rp_rank c < rp_rank n) /\
  (exists st, r_calls (rp rp_mid) !! 0 = Some (Entering 2 st)) /\ r_lock (rp rp_mid) !! 2 = Some 1 /\ waits_in (rp rp_mid) 0 0 /\
  rstep (rp rp_mid) (REnter 0 []) = None /\ (exists E s, f_nodes (r_forest (rp rp_mid)) !! 0 = Some (NEngine E s) /\ t_dying (Engine.s_tomb s) = true) /\
  rstep (rp rp_mid) (RForest (FStep 0 (LEngine Engine.LDying) [])) = None.
Proof.
  split; [apply rp_reach; [vm_compute; reflexivity|apply (rok_app _ _ rp_fok)]|]. split; [apply rp_ranked_check; vm_compute; reflexivity|].
  destruct (rp_wait (rp rp_mid)) as [H1 H2]; [vm_compute; reflexivity|]. split; [exact H1|]. split; [vm_compute; reflexivity|]. split; [exact H2|].
  split; [vm_compute; reflexivity|]. split; [|vm_compute; reflexivity]. apply rp_dying. vm_compute. reflexivity.
Qed.
