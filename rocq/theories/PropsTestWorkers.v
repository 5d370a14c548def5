(** Property C55: the workers for tests (workertest/workers.go, fake_watcher.go). Statements only: every theorem is closed by a lemma
    proved elsewhere. Vocabulary: TestWorkers.v, TestWorkersSpec.v. The log is newest first. [reachable] ranges over every
    sequence of Kill, ReallyKill and Wait calls from any goroutines. *)
From stdpp Require Import list.
From Coq Require Import ZArith Lia.
From Verif Require Import Err Tomb TestWorkers TestWorkersSpec TestWorkersProofs.

(** C55: Wait of an error worker returns only after Kill, and always the supplied error. *)
Theorem C55_error_wait e w pre r post : reachable KError e w -> k_log w = pre ++ EvWait r :: post -> r = e /\ EvKill ∈ post.
Proof. exact (error_wait e w pre r post). Qed.
Print Assumptions C55_error_wait.

(** C55: Wait of a forever worker returns only after ReallyKill, and always the supplied error; *)
Theorem C55_forever_wait e w pre r post : reachable KForever e w -> k_log w = pre ++ EvWait r :: post -> r = e /\ EvReallyKill ∈ post.
Proof. exact (forever_wait e w pre r post). Qed.
Print Assumptions C55_forever_wait.

(** C55: its Kill does nothing. *)
Theorem C55_forever_ignores_kill e w : reachable KForever e w -> exists w', step w LKill = Some w' /\ k_tomb w' = k_tomb w /\ k_run w' = k_run w /\ k_log w' = EvKill :: k_log w.
Proof. exact (forever_ignores e w). Qed.
Print Assumptions C55_forever_ignores_kill.

(** C55: before that Wait blocks and the goroutine keeps running; also for ever if the error is one that tomb.Kill refuses. *)
Theorem C55_blocks k e w : k <> KDead -> reachable k e w -> ~ killer k ∈ k_log w \/ forbidden e -> step w LWait = None /\ step w LReturn = None.
Proof. exact (blocked k e w). Qed.
Print Assumptions C55_blocks.

(** C55: afterwards Wait returns the error, at once or after the goroutine returned (nothing else can stop that). *)
Theorem C55_ready k e w : k <> KDead -> reachable k e w -> killer k ∈ k_log w -> ~ forbidden e ->
  (exists w', step w LWait = Some w' /\ k_log w' = EvWait e :: k_log w) \/
  (step w LWait = None /\ exists w1 w', step w LReturn = Some w1 /\ step w1 LWait = Some w' /\ k_log w' = EvWait e :: k_log w).
Proof. exact (ready k e w). Qed.
Print Assumptions C55_ready.

(** C55: Wait of a dead worker never blocks, *)
Theorem C55_dead_ready e w : reachable KDead e w -> exists w', step w LWait = Some w' /\ k_log w' = EvWait e :: k_log w.
Proof. exact (dead_ready e w). Qed.
Print Assumptions C55_dead_ready.

(** C55: and returns the supplied error. *)
Theorem C55_dead_wait e w pre r post : reachable KDead e w -> k_log w = pre ++ EvWait r :: post -> r = e.
Proof. exact (dead_wait e w pre r post). Qed.
Print Assumptions C55_dead_wait.

(** C55: Kill and ReallyKill panic only for the errors tomb.ErrDying and tomb.ErrStillAlive. *)
Theorem C55_panics k e w pre post : reachable k e w -> k_log w = pre ++ EvPanic :: post -> forbidden e /\ k <> KDead.
Proof. exact (panics k e w pre post). Qed.
Print Assumptions C55_panics.

(** In that case they do: such an error worker cannot be stopped. *)
Theorem C55_errdying_refuted : exists w, reachable KError (Some ETombDying) w /\ k_log w = [EvPanic; EvKill] /\ step w LWait = None /\ step w LReturn = None.
Proof. exists (kill_tomb (emit EvKill (new_worker KError (Some ETombDying)))). split; [exists [LKill]; reflexivity|]. split; [reflexivity|]. split; reflexivity. Qed.
Print Assumptions C55_errdying_refuted.

(** C55: NewFakeWatcher panics iff len < preload (or len is negative); otherwise it holds preload events. *)
Theorem C55_watcher_new len preload : (new_fake_watcher len preload = None <-> (len < preload \/ len < 0)%Z) /\
  (forall f, new_fake_watcher len preload = Some f -> f_buf f = Z.to_nat preload /\ f_cap f = Z.to_nat len /\ f_closed f = false).
Proof. exact (watcher_new len preload). Qed.
Print Assumptions C55_watcher_new.

(** C55: the events that can be received are exactly the preload and one for each Ping; Changes ends only after Close and after
    the last event was received. *)
Theorem C55_watcher_events len preload f : wreachable len preload f ->
  f_received f <= Z.to_nat preload + f_pings f /\
  (f_received f < Z.to_nat preload + f_pings f <-> exists f', wstep f LReceive = Some f' /\ f_received f' = S (f_received f)) /\
  (f_ended f <> 0 -> f_closed f = true /\ f_received f = Z.to_nat preload + f_pings f).
Proof. exact (watcher_counts len preload f). Qed.
Print Assumptions C55_watcher_events.

(** C55: Ping blocks iff the channel is full; Ping and Close panic only after Close. *)
Theorem C55_watcher_ping len preload f : wreachable len preload f ->
  (wstep f LPing = None <-> f_closed f = false /\ Z.to_nat preload + f_pings f - f_received f = Z.to_nat len) /\
  (f_panics f <> 0 -> f_closed f = true).
Proof. exact (watcher_ping len preload f). Qed.
Print Assumptions C55_watcher_ping.

(** C55: Ping and Close panic exactly when the watcher was closed before; Close never blocks. *)
Theorem C55_watcher_panics len preload f0 ls f : new_fake_watcher len preload = Some f0 -> wrun f0 ls = Some f -> f_panics f = late_calls false ls.
Proof. exact (watcher_panics len preload f0 ls f). Qed.
Print Assumptions C55_watcher_panics.
Theorem C55_watcher_close f : exists f', wstep f LClose = Some f' /\ f_closed f' = true /\ f_received f' = f_received f /\ f_pings f' = f_pings f /\ f_worker f' = f_worker f.
Proof. exact (watcher_close f). Qed.
Print Assumptions C55_watcher_close.

(** C55: a Ping is handed to a waiting receiver directly only if no older event is left. *)
Theorem C55_watcher_hand len preload f : wreachable len preload f ->
  (exists f', wstep f LHandOver = Some f') <-> f_closed f = false /\ f_received f = Z.to_nat preload + f_pings f.
Proof. exact (watcher_hand len preload f). Qed.
Print Assumptions C55_watcher_hand.

(** C55: the embedded worker ends without an error after Kill, and not by Stop or Close. *)
Theorem C55_watcher_worker len preload f pre r post : wreachable len preload f -> k_log (f_worker f) = pre ++ EvWait r :: post -> r = None /\ EvKill ∈ post.
Proof. exact (watcher_worker len preload f pre r post). Qed.
Print Assumptions C55_watcher_worker.

Definition tw (k : kind) (e : option err) (ls : list label) : worker := default (new_worker k e) (run (new_worker k e) ls).
Example C55_example : let w := tw KError (Some (EUser 7)) [LKill; LReturn; LWait; LKill; LWait] in reachable KError (Some (EUser 7)) w /\
  k_log w = [EvWait (Some (EUser 7)); EvKill; EvWait (Some (EUser 7)); EvKill] /\ ~ forbidden (Some (EUser 7)) /\ killer KError ∈ k_log w.
Proof. split; [exists [LKill; LReturn; LWait; LKill; LWait]; reflexivity|]. split; [reflexivity|]. split; [by intros [|]|]. right. left. Qed.
Example C55_example_forever : let w := tw KForever None [LKill; LKill; LReallyKill; LReturn; LWait] in reachable KForever None w /\
  k_log w = [EvWait None; EvReallyKill; EvKill; EvKill].
Proof. split; [exists [LKill; LKill; LReallyKill; LReturn; LWait]; reflexivity|]. reflexivity. Qed.
Example C55_example_alive : let w := tw KForever None [LKill; LKill] in reachable KForever None w /\ ~ killer KForever ∈ k_log w.
Proof. split; [exists [LKill; LKill]; reflexivity|]. intros H. repeat (apply elem_of_cons in H as [?|H]; [done|]). by apply elem_of_nil in H. Qed.
Example C55_example_dead : let w := tw KDead (Some (EUser 7)) [LWait; LKill; LWait] in reachable KDead (Some (EUser 7)) w /\
  k_log w = [EvWait (Some (EUser 7)); EvKill; EvWait (Some (EUser 7))].
Proof. split; [exists [LWait; LKill; LWait]; reflexivity|]. reflexivity. Qed.
(** Two preloaded events and a Ping; then Stop, Close, and the fourth receive finds the end. *)
Definition wls : list wlabel := [LReceive; LPing; LStop; LReceive; LClose; LReceive; LReceive; LPing; LWorker LKill; LWorker LReturn; LWorker LWait].
Definition fx : watcher := mkWatcher 2 2 false (new_worker KError None) 0 0 0 0.
Definition tf (ls : list wlabel) : watcher := default fx (wrun fx ls).
Example C55_example_watcher : let f := tf wls in wreachable 2 2 f /\ f_received f = 3 /\ f_pings f = 1 /\ f_ended f = 1 /\ f_panics f = 1 /\ k_log (f_worker f) = [EvWait None; EvKill].
Proof. split; [exists fx, wls; split; vm_compute; reflexivity|]. repeat split; vm_compute; reflexivity. Qed.
Example C55_example_full : wreachable 2 2 fx /\ wstep fx LPing = None /\ f_closed fx = false.
Proof. split; [exists fx, []; split; vm_compute; reflexivity|]. split; vm_compute; reflexivity. Qed.
Example C55_example_late : new_fake_watcher 2 2 = Some fx /\ is_Some (wrun fx (wls ++ [LClose; LStop; LPing])) /\ late_calls false (wls ++ [LClose; LStop; LPing]) = 3.
Proof. split; [vm_compute; reflexivity|]. split; [eexists; vm_compute; reflexivity|vm_compute; reflexivity]. Qed.
Example C55_example_hand : let f := tf [LReceive; LReceive; LHandOver] in wreachable 2 2 f /\ f_closed f = false /\ f_received f = 3 /\ f_pings f = 1.
Proof. split; [exists fx, [LReceive; LReceive; LHandOver]; split; vm_compute; reflexivity|]. repeat split; vm_compute; reflexivity. Qed.
