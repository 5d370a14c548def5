(** Concrete executions of the runner model, used by the Examples beside the property theorems. *)
From stdpp Require Import gmap strings list.
From Coq Require Import ZArith.
From Verif Require Import Err Runner RunnerSpec RunnerProgressSpec.

(** [EUser 98] and [EUser 99] are fatal, bigger numbers are more important, [EUser 7] is not restarted, RestartDelay 3. *)
Definition score (e : err) : nat := match e with EUser n => n | _ => 0 end.
Definition rx : rcfg := mkRCfg (fun e => 98 <=? score e) (fun e => negb (score e =? 7)) (fun a b => score b <? score a) 3.
(** The runner made from parameters without MoreImportant. *)
Definition rx_params : runner_params := mkParams "r" (Some (fun e => 98 <=? score e)) None None 3.
Definition rx_default : rcfg := match new_runner rx_params with inl P => P | inr _ => rx end.

(** Workers with even numbers are reporters. *)
Definition rx_rep (w : nat) : option nat := if Nat.even w then Some (w * 10) else None.

Definition A : label := LCore KAct.
(** StartWorker *)
Definition start_ (i : nat) (id : string) (f : nat) : list label := [LCall i (KStart id f); LRecvStart i; A; A; A].
(** the goroutine runs its start func, which returns worker w, and the loop registers it *)
Definition ret_ (g w : nat) : list label := [LCore (KStartRet g (inl w)); LCore (KRecvStarted g); A; A].
Definition up_ (g w : nat) : list label := LCore (KBegin g) :: ret_ g w.
(** the worker ends, and the loop handles that *)
Definition down_ (g : nat) (e : option err) : list label := [LCore (KEnd g e); LCore (KExit g); LCore (KRecvDone g); A; A].
Definition stop_ (i : nat) (id : string) : list label := [LCall i (KStop id); LRecvStop i; A; A].

(** a (goroutine 0) and b (goroutine 1) run *)
Definition rl_up : list label := start_ 0 "a" 1 ++ up_ 0 10 ++ start_ 1 "b" 2 ++ up_ 1 11.
(** a second StartWorker for a *)
Definition rl_dup : list label := rl_up ++ start_ 2 "a" 3.
(** a fails and is in its restart delay (goroutine 2) *)
Definition rl_fail : list label := rl_dup ++ down_ 0 (Some (EUser 1)) ++ [LCore (KBegin 2)].
(** it comes back *)
Definition rl_back : list label := rl_fail ++ [LCore (KTick 3); LCore (KFire 2)] ++ ret_ 2 12 ++ [LNames; LReport rx_rep].
(** it is stopped, and ends with an error *)
Definition rl_stop : list label := rl_back ++ stop_ 3 "a" ++ [LReport rx_rep].
Definition rl_gone : list label := rl_stop ++ down_ 2 (Some (EUser 1)) ++ [LNames].
(** c is stopped before its start func returns *)
Definition rl_early : list label := start_ 0 "c" 4 ++ [LCore (KBegin 0)] ++ stop_ 1 "c" ++ ret_ 0 20.
(** b ends with an error that is not worth a restart, a without error *)
Definition rl_norestart : list label := rl_up ++ down_ 1 (Some (EUser 7)) ++ down_ 0 None.
(** a's error is fatal: b is killed, and ends with another fatal error; the runner is dead *)
Definition rl_fatal : list label := rl_up ++ down_ 0 (Some (EUser 99)) ++ [A].
Definition rl_dead : list label := rl_fatal ++ down_ 1 (Some (EUser 98)) ++ [LCore KReturn; LWait].
(** calls on the dead runner *)
Definition rl_late : list label := rl_dead ++ [LCall 5 (KStart "d" 1); LCallDead 5; LCall 6 (KStop "a"); LCallDead 6;
  LCall 7 (KWorker "a"); LLock 7; LCheck 7; LCall 8 (KStopRm "a"); LLock 8].
(** the runner is killed while a is in its restart delay *)
Definition rl_kill : list label := rl_fail ++ [LCore KKill].
Definition rl_killed : list label := rl_kill ++ [LCore KDying; A; A; LCore (KDelayAbort 2); LCore (KRecvDone 2); A; A] ++ down_ 1 None ++ [LCore KReturn; LWait].
(** a fatal error while a is in its restart delay: a is started all the same *)
Definition rl_pending : list label := rl_fail ++ down_ 1 (Some (EUser 99)) ++ [A].
Definition rl_pending_start : list label := rl_pending ++ [LCore (KTick 3); LCore (KFire 2)].
Definition rl_pending_set : list label := rl_pending_start ++ ret_ 2 12.
(** Worker(a) waits for a *)
Definition rl_ask : list label := start_ 0 "a" 1 ++ [LCall 4 (KWorker "a"); LLock 4; LWtCheck 4; LWtAdd 4].
Definition rl_asked : list label := rl_ask ++ up_ 0 10 ++ [LWtWake 4; LWc 4].
(** its abort channel is closed while its goroutine waits; or between the goroutine's look at the channel and Cond.Wait *)
Definition rl_aborted : list label := rl_ask ++ [LCore (KCtx 4); LSelAbort 4; LWtWake 4; LWtCheck 4].
Definition rl_missed : list label := start_ 0 "a" 1 ++ [LCall 4 (KWorker "a"); LLock 4; LWtCheck 4; LCore (KCtx 4); LSelAbort 4; LWtAdd 4].
(** the runner is killed while Worker(a) waits *)
Definition rl_dead_waiter : list label := rl_ask ++ [LCore KKill; LCore KDying; A; A; LCore (KBegin 0); LCore (KStartRet 0 (inr (EUser 1))); LCore (KRecvDone 0); A; A; LCore KReturn; LWait].
(** Worker(z) finds nothing *)
Definition rl_none : list label := rl_up ++ [LCall 4 (KWorker "z"); LLock 4; LCheck 4].
(** Worker(a) in a's restart delay *)
Definition rl_stale : list label := rl_fail ++ [LCall 4 (KWorker "a"); LLock 4; LCheck 4].
(** StopAndRemoveWorker *)
Definition rl_rm1 : list label := rl_up ++ [LCall 4 (KStopRm "a"); LLock 4; LCheck 4; LStopKill 4; LCore (KEnd 0 None); LStopWaited 4].
Definition rl_rm2 : list label := rl_rm1 ++ [LCore (KExit 0); LCore (KRecvDone 0); A; A].
Definition rl_rm : list label := rl_rm2 ++ [LDoneRecv 4; LCall 5 (KStopRm "a"); LLock 5; LCheck 5].
(** the abort channel of StopAndRemoveWorker is closed while it waits for the worker *)
Definition rl_rm_abort : list label := rl_up ++ [LCall 4 (KStopRm "a"); LLock 4; LCheck 4; LStopKill 4; LCore (KCtx 4)].
(** two at once *)
Definition rl_two : list label := rl_up ++ [LCall 4 (KStopRm "a"); LLock 4; LCheck 4; LStopKill 4; LCall 5 (KStopRm "a"); LLock 5; LCheck 5; LStopKill 5;
  LCore (KEnd 0 None); LStopWaited 4; LStopWaited 5; LCore (KExit 0); LCore (KRecvDone 0); A; A; LDoneRecv 4].
(** in the restart delay *)
Definition rl_rm_delay : list label := rl_fail ++ [LCall 4 (KStopRm "a"); LLock 4; LCheck 4; LStopKill 4; LStopWaited 4; LCore (KTick 3); LCore (KFire 2)] ++ ret_ 2 12.
(** the worker's error makes the runner restart it, although StopAndRemoveWorker killed it *)
Definition rl_killed_start : list label := [LCore KKill] ++ start_ 0 "a" 1.
(** the context of a's StartWorker call is cancelled while its start func runs *)
Definition rl_ctx : list label := start_ 0 "a" 1 ++ [LCore (KBegin 0); LCore (KCtx 0)].
(** a fatal error while c's start func runs *)
Definition rl_ctx_fatal : list label := rl_up ++ start_ 2 "c" 4 ++ [LCore (KBegin 2)] ++ down_ 0 (Some (EUser 99)) ++ [A].
(** worker.Wait calls runtime.Goexit *)
Definition rl_lost : list label := rl_up ++ [LCore (KLost 0); LCore KKill; LCore KDying; A; A] ++ down_ 1 None.
(** a fatal error the tomb does not take *)
Definition rl_panic : list label := start_ 0 "a" 1 ++ up_ 0 10 ++ down_ 0 (Some ETombStillAlive) ++ [A; LCore KReturn].
Definition rx_all : rcfg := mkRCfg (fun _ => true) (fun _ => true) (fun _ _ => true) 3.
(** two fatal errors, default ranking *)
Definition rl_two_fatal : list label := rl_up ++ down_ 0 (Some (EUser 99)) ++ [A] ++ down_ 1 (Some (EUser 98)) ++ [LCore KReturn; LWait].

Definition rx_state (P : rcfg) (ls : list label) : state := default init (run P init ls).
Definition rx_ok (P : rcfg) (ls : list label) : bool := match run P init ls with Some _ => true | None => false end.
Lemma rx_run P ls : rx_ok P ls = true -> run P init ls = Some (rx_state P ls).
Proof. unfold rx_ok, rx_state. by destruct (run P init ls). Qed.
Lemma rx_reach P ls : rx_ok P ls = true -> reachable P (rx_state P ls).
Proof. intros H. exists ls. by apply rx_run. Qed.

(** The log around its k-th newest event *)
Definition later (k : nat) (s : state) : list event := take k (rlog s).
Definition before (k : nat) (s : state) : list event := drop (S k) (rlog s).
Lemma rx_split (k : nat) s ev : rlog s !! k = Some ev -> rlog s = later k s ++ ev :: before k s.
Proof. intros H. symmetry. by apply take_drop_middle. Qed.
Lemma rx_present (k : nat) (log : list event) ev : log !! k = Some ev -> ev ∈ log.
Proof. apply elem_of_list_lookup_2. Qed.
Lemma rx_absent (p : event -> bool) log : existsb p log = false -> forall ev, p ev = true -> ev ∉ log.
Proof.
  induction log as [|x log IH]; simpl; intros H ev Hp; [apply not_elem_of_nil|].
  apply orb_false_iff in H as [H1 H2]. intros [->|Hx]%elem_of_cons; [congruence|]. by eapply IH.
Qed.
Ltac rx_go := lazymatch goal with
  | |- reachable _ _ => apply rx_reach; vm_compute; reflexivity
  | |- run _ _ _ = Some (rx_state _ _) => apply rx_run; vm_compute; reflexivity
  | |- rlog _ = later _ _ ++ _ => apply rx_split; vm_compute; reflexivity
  | |- _ => vm_compute; reflexivity end.
