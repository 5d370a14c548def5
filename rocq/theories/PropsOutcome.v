(** C85: what runs in the end does not depend on the order of installation or on the schedule. *)
From stdpp Require Import gmap strings list relations.
From Coq Require Import ZArith.
From Verif Require Import Err Tomb Snapshot Engine EngineSpec EngineProgressSpec EngineExample FairSpec FairEngineSpec FairProofs FairExample
  OutcomeSpec OutcomeProofs OutcomeExample.

(** C85: in an engine that has converged and whose Start funcs are predictable, a manifold is running exactly if its Start
    func, given the inputs that are running, returns a worker. *)
Theorem C85_running_iff runs E s n m : reachable E s -> ~ is_dying (s_log s) -> converged (s_log s) ->
  none_retired (s_log s) -> predictable runs (s_log s) -> installed (s_log s) n = Some m ->
  (running (s_log s) n <-> runs (m_start m) (running_inputs (s_log s) m) = true).
Proof. exact (running_iff runs E s n m). Qed.
Print Assumptions C85_running_iff.

Example C85_example_running_iff : let s := ex_state ex_env ls_no_db in
  reachable ex_env s /\ ~ is_dying (s_log s) /\ converged (s_log s) /\ none_retired (s_log s) /\ predictable (fun f l => Nat.eqb f 4 || Nat.ltb 0 (length l)) (s_log s) /\
  installed (s_log s) "ui" = Some m_ui /\ running_inputs (s_log s) m_ui = [] /\ registered (s_log s) "ui" = None /\ registered (s_log s) "self" = Some (1, WExt 5).
Proof.
  intros s. split; [apply ex_reach; ex_go|]. split; [apply ex_alive; ex_go|]. split; [apply (quietb_converged ex_env); [apply ex_reach|]; ex_go|].
  split; [apply ex_none_retired; ex_go|]. split; [apply ex_predictable; ex_go|]. split_and!; ex_go.
Qed.

(** C85: two engines with the same manifolds installed, whatever the orders in which they were installed and whatever
    happened before, run the same manifolds once they have converged. *)
Theorem C85_same_outcome runs E1 s1 E2 s2 : reachable E1 s1 -> reachable E2 s2 ->
  ~ is_dying (s_log s1) -> ~ is_dying (s_log s2) -> converged (s_log s1) -> converged (s_log s2) ->
  none_retired (s_log s1) -> none_retired (s_log s2) -> predictable runs (s_log s1) -> predictable runs (s_log s2) ->
  (forall n, installed (s_log s1) n = installed (s_log s2) n) ->
  forall n, running (s_log s1) n <-> running (s_log s2) n.
Proof. exact (same_outcome runs E1 s1 E2 s2). Qed.
Print Assumptions C85_same_outcome.

Example C85_example_same_outcome : let s1 := ex_state ex_env ls_up in let s2 := ex_state ex_env ls_swapped in
  reachable ex_env s1 /\ reachable ex_env s2 /\ ~ is_dying (s_log s1) /\ ~ is_dying (s_log s2) /\ converged (s_log s1) /\ converged (s_log s2) /\
  none_retired (s_log s1) /\ none_retired (s_log s2) /\ predictable ex_runs (s_log s1) /\ predictable ex_runs (s_log s2) /\
  (forall n, installed (s_log s1) n = installed (s_log s2) n) /\
  registered (s_log s1) "api" = Some (1, WExt 11) /\ registered (s_log s2) "api" = Some (2, WExt 21).
Proof.
  intros s1 s2. split; [apply ex_reach; ex_go|]. split; [apply ex_reach; ex_go|]. split; [apply ex_alive; ex_go|]. split; [apply ex_alive; ex_go|].
  split; [apply (quietb_converged ex_env); [apply ex_reach|]; ex_go|]. split; [apply (quietb_converged ex_env); [apply ex_reach|]; ex_go|].
  split; [apply ex_none_retired; ex_go|]. split; [apply ex_none_retired; ex_go|]. split; [apply ex_predictable; ex_go|]. split; [apply ex_predictable; ex_go|].
  split; [apply (ex_installed _ _ _ _ swapped_same); ex_go|]. split; ex_go.
Qed.

(** C85: that no worker retires cannot be left out: a worker that exits with nil is not started again. *)
Theorem C85_retired_refuted : exists E runs s1 s2 n, reachable E s1 /\ reachable E s2 /\
  ~ is_dying (s_log s1) /\ ~ is_dying (s_log s2) /\ converged (s_log s1) /\ converged (s_log s2) /\
  predictable runs (s_log s1) /\ predictable runs (s_log s2) /\ (forall k, installed (s_log s1) k = installed (s_log s2) k) /\
  running (s_log s1) n /\ ~ running (s_log s2) n.
Proof. exact retired_differs. Qed.
Print Assumptions C85_retired_refuted.

(** C85: if the Start funcs want all their inputs, then what runs is exactly what has everything it depends on, directly or
    not, installed. *)
Theorem C85_all_installed E s n : reachable E s -> ~ is_dying (s_log s) -> converged (s_log s) ->
  none_retired (s_log s) -> needs_all (s_log s) ->
  (running (s_log s) n <-> forall x, rtc (depends_on (s_log s)) n x -> is_Some (installed (s_log s) x)).
Proof. exact (running_needs_all E s n). Qed.
Print Assumptions C85_all_installed.

Example C85_example_all_installed : let s := ex_state ex_env ls_no_db in
  reachable ex_env s /\ ~ is_dying (s_log s) /\ converged (s_log s) /\ none_retired (s_log s) /\ needs_all (s_log s) /\
  depends_on (s_log s) "ui" "api" /\ depends_on (s_log s) "api" "db" /\ installed (s_log s) "db" = None /\ registered (s_log s) "ui" = None /\ registered (s_log s) "self" = Some (1, WExt 5).
Proof.
  intros s. split; [apply ex_reach; ex_go|]. split; [apply ex_alive; ex_go|]. split; [apply (quietb_converged ex_env); [apply ex_reach|]; ex_go|].
  split; [apply ex_none_retired; ex_go|]. split; [apply ex_needs_all; ex_go|].
  split; [exists m_ui; split; [ex_go|right; left]|]. split; [exists m_api; split; [ex_go|left]|]. split_and!; ex_go.
Qed.

(** C85: hence two executions as in C80 that end up with the same manifolds installed, in which no worker retires and nobody
    stops the engine, and whose Start funcs are predictable in the same way, run the same manifolds from some time on. *)
Theorem C85_same_end runs E1 tr1 lab1 i1 E2 tr2 lab2 i2 :
  reachable E1 (tr1 0) -> execution (step E1) tr1 lab1 -> not_starved (step E1) (fun s => owed (s_log s)) tr1 lab1 ->
  (forall j l, i1 <= j -> lab1 j = Some l -> calm (s_log (tr1 j)) l) -> (forall t j, exists k, j <= k /\ (t <= s_now (tr1 k))%Z) ->
  reachable E2 (tr2 0) -> execution (step E2) tr2 lab2 -> not_starved (step E2) (fun s => owed (s_log s)) tr2 lab2 ->
  (forall j l, i2 <= j -> lab2 j = Some l -> calm (s_log (tr2 j)) l) -> (forall t j, exists k, j <= k /\ (t <= s_now (tr2 k))%Z) ->
  (forall j, ~ is_dying (s_log (tr1 j))) -> (forall j, ~ is_dying (s_log (tr2 j))) ->
  (forall j, none_retired (s_log (tr1 j)) /\ predictable runs (s_log (tr1 j))) ->
  (forall j, none_retired (s_log (tr2 j)) /\ predictable runs (s_log (tr2 j))) ->
  (forall j1 j2 n, i1 <= j1 -> i2 <= j2 -> installed (s_log (tr1 j1)) n = installed (s_log (tr2 j2)) n) ->
  exists j, forall k1 k2 n, j <= k1 -> j <= k2 -> (running (s_log (tr1 k1)) n <-> running (s_log (tr2 k2)) n).
Proof. exact (same_end runs E1 tr1 lab1 i1 E2 tr2 lab2 i2). Qed.
Print Assumptions C85_same_end.

(** db, then api; and api, which fails without db, then db. *)
Example C85_example_same_end : let tr1 := follow (step ex_env) init (ticking ls_up) in let tr2 := follow (step ex_env) init (ticking ls_swapped) in
  let i1 := 6 in let i2 := 6 in
  reachable ex_env (tr1 0) /\ execution (step ex_env) tr1 (ticking ls_up) /\ not_starved (step ex_env) (fun s => owed (s_log s)) tr1 (ticking ls_up) /\
  (forall j l, i1 <= j -> ticking ls_up j = Some l -> calm (s_log (tr1 j)) l) /\ (forall t j, exists k, j <= k /\ (t <= s_now (tr1 k))%Z) /\
  reachable ex_env (tr2 0) /\ execution (step ex_env) tr2 (ticking ls_swapped) /\ not_starved (step ex_env) (fun s => owed (s_log s)) tr2 (ticking ls_swapped) /\
  (forall j l, i2 <= j -> ticking ls_swapped j = Some l -> calm (s_log (tr2 j)) l) /\ (forall t j, exists k, j <= k /\ (t <= s_now (tr2 k))%Z) /\
  (forall j, ~ is_dying (s_log (tr1 j))) /\ (forall j, ~ is_dying (s_log (tr2 j))) /\
  (forall j, none_retired (s_log (tr1 j)) /\ predictable ex_runs (s_log (tr1 j))) /\
  (forall j, none_retired (s_log (tr2 j)) /\ predictable ex_runs (s_log (tr2 j))) /\
  (forall j1 j2 n, i1 <= j1 -> i2 <= j2 -> installed (s_log (tr1 j1)) n = installed (s_log (tr2 j2)) n) /\
  running (s_log (tr1 20)) "api" /\ ~ running (s_log (tr2 6)) "api" /\ running (s_log (tr2 20)) "api".
Proof.
  intros tr1 tr2 i1 i2.
  split; [by exists []|]. split; [apply ticking_exec; ex_go|]. split; [apply ticking_fair; ex_go|]. split; [apply ticking_calm; ex_go|]. split; [apply ticking_time|].
  split; [by exists []|]. split; [apply ticking_exec; ex_go|]. split; [apply ticking_fair; ex_go|]. split; [apply ticking_calm; ex_go|]. split; [apply ticking_time|].
  split; [apply ticking_alive; ex_go|]. split; [apply ticking_alive; ex_go|].
  split; [apply ticking_steady; ex_go|]. split; [apply ticking_steady; ex_go|].
  split; [apply (ticking_installed _ _ _ _ _ _ _ _ swapped_same); ex_go|].
  split; [apply (runs_now _ _ 1 (WExt 11)); ex_go|]. split; [apply runs_not; ex_go|apply (runs_now _ _ 2 (WExt 21)); ex_go].
Qed.
