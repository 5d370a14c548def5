(** C90: what the runner's table of workers holds. Statements only. *)
From stdpp Require Import gmap strings list.
From Coq Require Import ZArith Lia.
From Verif Require Import Err Runner RunnerSpec RunnerExample.
From Verif Require RunnerTables.

(** The table has an entry for exactly the ids that were accepted and not removed since. *)
Theorem C90_runner_ids : forall P s id, reachable P s -> is_Some (c_workers (s_core s) !! id) <-> is_Some (known (rlog s) id).
Proof. exact RunnerTables.tables_known. Qed.
Print Assumptions C90_runner_ids.

(** Its entry has the done channel and, until the id is asked to stop, the start func it was accepted with; the worker that was
    registered last; the time it was accepted; and the configured restart delay. *)
Theorem C90_runner_info : forall P s id i, reachable P s -> c_workers (s_core s) !! id = Some i -> exists f,
  known (rlog s) id = Some (f, i_done i) /\ i_start i = (if i_stopping i then None else Some f) /\
  i_worker i = registered (rlog s) id /\ first_spawn (rlog s) id = Some (i_started i) /\ i_delay i = r_delay P.
Proof. exact RunnerTables.tables_info. Qed.
Print Assumptions C90_runner_info.

(** An entry marked as stopping was asked to stop and has no worker; when the loop waits for something to do, the mark is exact. *)
Theorem C90_runner_stopping : forall P s id i, reachable P s -> c_workers (s_core s) !! id = Some i ->
  (i_stopping i = true -> stop_asked (rlog s) id = true /\ registered (rlog s) id = None) /\
  (c_loop (s_core s) = LTop -> stop_asked (rlog s) id = i_stopping i).
Proof. exact RunnerTables.tables_stopping. Qed.
Print Assumptions C90_runner_stopping.

(** No two ids share a done channel. *)
Theorem C90_runner_done : forall P s id id' f f' d, reachable P s -> known (rlog s) id = Some (f, d) -> known (rlog s) id' = Some (f', d) -> id = id'.
Proof. exact RunnerTables.tables_done. Qed.
Print Assumptions C90_runner_done.

(** "a" failed and waits for its restart, its old worker still in the table; "b" is up. Then "a" is asked to stop. *)
Example C90_runner_example : let s := rx_state rx rl_fail in reachable rx s /\ c_loop (s_core s) = LTop /\ known (rlog s) "a" = Some (1, 0) /\ registered (rlog s) "a" = Some (0, 10) /\
  stop_asked (rlog s) "a" = false /\ (i_worker <$> c_workers (s_core s) !! "a") = Some (Some (0, 10)) /\ (i_worker <$> c_workers (s_core s) !! "b") = Some (Some (1, 11)).
Proof. intros s. split; [rx_go|]. do 5 (split; [rx_go|]). rx_go. Qed.
Example C90_runner_example_stop : let s := rx_state rx (rl_fail ++ stop_ 3 "a") in reachable rx s /\ c_loop (s_core s) = LTop /\ stop_asked (rlog s) "a" = true /\
  ((fun i => (i_stopping i, i_start i, i_worker i)) <$> c_workers (s_core s) !! "a") = Some (true, None, None) /\ known (rlog s) "a" = Some (1, 0).
Proof. intros s. split; [rx_go|]. do 3 (split; [rx_go|]). rx_go. Qed.
