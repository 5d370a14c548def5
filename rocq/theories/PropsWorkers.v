(** Properties C54 (worker.go: Stop, Dead) and C65 (workertest/check.go). Statements only: every theorem is closed by a lemma proved
    elsewhere. Vocabulary: Workers.v, WorkersSpec.v. The log is newest first: in [pre ++ ev :: post], [post] came before [ev].
    All executions: [reachable V s] ranges over any number of calls, any behaviour of the worker, and any schedule. *)
From stdpp Require Import gmap strings list.
From Coq Require Import ZArith Lia.
From Verif Require Import Err Workers WorkersSpec WorkersProofs.
Local Open Scope Z_scope.

(** C54: Stop returns only after it called Kill and after the worker finished, and returns the worker's error. *)
Theorem C54_stop_returns V s i t0 pre r t post : reachable V s -> w_log s = pre ++ EvRet i r t :: post -> called (w_log s) i CStop t0 ->
  EvEnd r ∈ post /\ exists t1, EvKill i t1 ∈ post.
Proof. exact (stop_returns V s i t0 pre r t post). Qed.
Print Assumptions C54_stop_returns.

(** C54: Stop always calls Kill, *)
Theorem C54_stop_kills V s i t0 : reachable V s -> at_rest V s -> called (w_log s) i CStop t0 -> exists t, EvKill i t ∈ w_log s.
Proof. exact (stop_kills V s i t0). Qed.
Print Assumptions C54_stop_kills.

(** C54: and returns once the worker finished. *)
Theorem C54_stop_finishes V s i t0 : reachable V s -> at_rest V s -> called (w_log s) i CStop t0 -> ended (w_log s) -> exists r t, EvRet i r t ∈ w_log s.
Proof. exact (stop_at_rest V s i t0). Qed.
Print Assumptions C54_stop_finishes.

(** C54: Dead always returns a channel at once: the worker's own one if it has one, otherwise a new one. *)
Theorem C54_dead_channel V s i t0 : reachable V s -> called (w_log s) i CDead t0 -> EvChan i (v_own V) ∈ w_log s.
Proof. exact (dead_returns V s i t0). Qed.
Print Assumptions C54_dead_channel.

(** C54: the new channel is closed only after the worker finished, *)
Theorem C54_dead_closed_after V s i pre post : reachable V s -> w_log s = pre ++ EvClosed i :: post -> ended post /\ EvChan i false ∈ post.
Proof. exact (dead_closed V s i pre post). Qed.
Print Assumptions C54_dead_closed_after.

(** C54: and is closed once it has. *)
Theorem C54_dead_closes V s i t0 : reachable V s -> at_rest V s -> v_own V = false -> called (w_log s) i CDead t0 -> ended (w_log s) -> EvClosed i ∈ w_log s.
Proof. exact (dead_at_rest V s i t0). Qed.
Print Assumptions C54_dead_closes.

(** C54: (the worker finishes once, so its error is unique.) *)
Theorem C54_end_once V s pre e post : reachable V s -> w_log s = pre ++ EvEnd e :: post -> forall e', ~ EvEnd e' ∈ post.
Proof. exact (end_once V s pre e post). Qed.
Print Assumptions C54_end_once.

(** C54: nothing but Stop and the killing check helpers calls Kill: Dead, CheckAlive and CheckKilled do not. *)
Theorem C54_only_killers V s i t : reachable V s -> EvKill i t ∈ w_log s -> exists c t0, called (w_log s) i c t0 /\ kills c.
Proof. exact (killed_by V s i t). Qed.
Print Assumptions C54_only_killers.

(** C65: what a check helper promises when it returns, see [promise]; it killed the worker before if it is one of those that
    kill; and it returns once. *)
Theorem C65_promise V s i c t0 pre r t post : reachable V s -> w_log s = pre ++ EvRet i r t :: post -> called (w_log s) i c t0 ->
  promise V i c t0 post r t /\ (kills c -> exists t1, EvKill i t1 ∈ post) /\ forall r' t', ~ EvRet i r' t' ∈ post.
Proof. exact (returned V s i c t0 pre r t post). Qed.
Print Assumptions C65_promise.

(** C65: every check helper has returned once its timeout passed, whatever the worker does, *)
Theorem C65_times_out V s i c t0 : reachable V s -> at_rest V s -> called (w_log s) i c t0 -> c <> CDead -> c <> CStop ->
  (forall j t1, EvKill j t1 ∈ w_log s -> t1 + v_killTimeout V <= w_now s) -> t0 + v_killTimeout V <= w_now s -> t0 + v_aliveDelay V <= w_now s ->
  exists r t, EvRet i r t ∈ w_log s.
Proof. exact (check_at_rest V s i c t0). Qed.
Print Assumptions C65_times_out.

(** C65: and returns without a timeout once the worker finished. *)
Theorem C65_finishes V s i c t0 : reachable V s -> at_rest V s -> called (w_log s) i c t0 -> c <> CDead -> ended (w_log s) -> exists r t, EvRet i r t ∈ w_log s.
Proof. exact (check_ended V s i c t0). Qed.
Print Assumptions C65_finishes.

(** Unfolded for the helpers one by one. *)
Theorem C65_check_alive V s i t0 pre r t post : reachable V s -> w_log s = pre ++ EvRet i r t :: post -> called (w_log s) i CCheckAlive t0 ->
  failed post i /\ ended post \/ ~ failed post i /\ t0 + v_aliveDelay V <= t.
Proof. intros Hr El Hc. exact (proj2 (proj1 (returned V s i CCheckAlive t0 pre r t post Hr El Hc))). Qed.
Print Assumptions C65_check_alive.
Theorem C65_check_killed V s i t0 pre r t post : reachable V s -> w_log s = pre ++ EvRet i r t :: post -> called (w_log s) i CCheckKilled t0 ->
  EvEnd r ∈ post /\ ~ failed post i \/ r = Some timed_out /\ failed post i /\ t0 + v_killTimeout V <= t.
Proof. intros Hr El Hc. exact (proj1 (returned V s i CCheckKilled t0 pre r t post Hr El Hc)). Qed.
Print Assumptions C65_check_killed.
Theorem C65_check_kill V s i t0 pre r t post : reachable V s -> w_log s = pre ++ EvRet i r t :: post -> called (w_log s) i CCheckKill t0 ->
  EvEnd r ∈ post /\ ~ failed post i \/ r = Some timed_out /\ failed post i /\ exists t1, EvKill i t1 ∈ post /\ t1 + v_killTimeout V <= t.
Proof. intros Hr El Hc. exact (proj1 (returned V s i CCheckKill t0 pre r t post Hr El Hc)). Qed.
Print Assumptions C65_check_kill.
(** CleanKill passes only if the worker finished without an error. *)
Theorem C65_clean_kill V s i t0 pre r t post : reachable V s -> w_log s = pre ++ EvRet i r t :: post -> called (w_log s) i CCleanKill t0 ->
  EvEnd None ∈ post /\ ~ failed post i \/
  failed post i /\ ((exists e, EvEnd (Some e) ∈ post) \/ exists t1, EvKill i t1 ∈ post /\ t1 + v_killTimeout V <= t).
Proof. intros Hr El Hc. exact (proj2 (proj1 (returned V s i CCleanKill t0 pre r t post Hr El Hc))). Qed.
Print Assumptions C65_clean_kill.
Theorem C65_dirty_kill V s i t0 pre r t post : reachable V s -> w_log s = pre ++ EvRet i r t :: post -> called (w_log s) i CDirtyKill t0 ->
  ended post /\ ~ failed post i \/ failed post i /\ exists t1, EvKill i t1 ∈ post /\ t1 + v_killTimeout V <= t.
Proof. intros Hr El Hc. exact (proj2 (proj1 (returned V s i CDirtyKill t0 pre r t post Hr El Hc))). Qed.
Print Assumptions C65_dirty_kill.
Theorem C65_check_nil V s i isnil t0 pre r t post : reachable V s -> w_log s = pre ++ EvRet i r t :: post -> called (w_log s) i (CCheckNilOrKill isnil) t0 ->
  (failed post i <-> isnil = false).
Proof. exact (check_nil V s i isnil t0 pre r t post). Qed.
Print Assumptions C65_check_nil.

(** * Examples *)
Definition vx : setup := mkSetup false 50 10000.
Definition st (V : setup) (ls : list label) : state := default init (run V init ls).
(** Stop and Dead; the worker fails with error 7. *)
Definition ls_stop : list label := [LCall 0 CDead; LCall 1 CStop; LKill 1; LTick 3; LEnd (Some (EUser 7)); LWaited 1; LHelper 0].
Example C54_example : let s := st vx ls_stop in reachable vx s /\ at_rest vx s /\
  w_log s = [EvClosed 0; EvRet 1 (Some (EUser 7)) 3; EvEnd (Some (EUser 7)); EvKill 1 0; EvCall 1 CStop 0; EvChan 0 false; EvCall 0 CDead 0].
Proof. split; [exists ls_stop; vm_compute; reflexivity|]. split; [|vm_compute; reflexivity]. apply rest_2. vm_compute. reflexivity. Qed.
(** CheckAlive passes, CleanKill fails because of the error, CheckKill gets it; then CheckAlive fails. *)
Definition ls_check : list label :=
  [LCall 0 CCheckAlive; LTick 50; LSelTimer 0; LCall 1 CCleanKill; LKill 1; LCall 2 CCheckKill; LKill 2; LEnd (Some (EUser 7));
   LHelper 0; LHelper 1; LSelWait 1; LHelper 2; LSelWait 2; LCall 3 CCheckAlive; LHelper 3; LSelWait 3].
Example C65_example : let s := st vx ls_check in reachable vx s /\ at_rest vx s /\
  w_log s = [EvRet 3 None 50; EvFail 3; EvCall 3 CCheckAlive 50; EvRet 2 (Some (EUser 7)) 50; EvRet 1 None 50; EvFail 1; EvEnd (Some (EUser 7));
             EvKill 2 50; EvCall 2 CCheckKill 50; EvKill 1 50; EvCall 1 CCleanKill 50; EvRet 0 None 50; EvCall 0 CCheckAlive 0].
Proof. split; [exists ls_check; vm_compute; reflexivity|]. split; [|vm_compute; reflexivity]. apply rest_2. vm_compute. reflexivity. Qed.
(** A worker that does not stop. *)
Definition ls_never : list label := [LCall 0 CDirtyKill; LKill 0; LTick 10000; LSelTimer 0].
Example C65_example_timeout : let s := st vx ls_never in reachable vx s /\ w_log s = [EvRet 0 None 10000; EvFail 0; EvKill 0 0; EvCall 0 CDirtyKill 0].
Proof. split; [exists ls_never; vm_compute; reflexivity|]. vm_compute. reflexivity. Qed.
Example C65_example_rest : let s := st vx ls_never in at_rest vx s /\ called (w_log s) 0 CDirtyKill 0 /\ (forall j t1, EvKill j t1 ∈ w_log s -> t1 + v_killTimeout vx <= w_now s) /\
  0 + v_killTimeout vx <= w_now s /\ 0 + v_aliveDelay vx <= w_now s.
Proof.
  split; [apply rest_2; vm_compute; reflexivity|]. assert (El : w_log (st vx ls_never) = [EvRet 0 None 10000; EvFail 0; EvKill 0 0; EvCall 0 CDirtyKill 0]) by (vm_compute; reflexivity).
  unfold called. rewrite El. split; [do 3 right; left|]. assert (En : w_now (st vx ls_never) = 10000) by (vm_compute; reflexivity). rewrite En. simpl. split; [|lia].
  intros j t1 H. rewrite !elem_of_cons in H. destruct H as [?|[?|[[= _ ->]|[?|H]]]]; [done|done|lia|done|by apply elem_of_nil in H].
Qed.
