(** Properties C49-C52, C61, C62 of the Catacomb. Statements only: every theorem is closed by a lemma proved elsewhere.
    Vocabulary: CatacombSpec.v (the log) and CatacombProgressSpec.v (internal steps, rest). *)
From stdpp Require Import gmap strings list.
From Verif Require Import Err Tomb Catacomb CatacombSpec CatacombProgressSpec CatacombThms CatacombMore CatacombExample.

(** C49: the catacomb kills a bound worker only when it is dying. *)
Theorem C49_kill_only_dying me s pre b w post : reachable me s -> x_log s = pre ++ EvWKill (ByBind b) w :: post -> is_dying post /\ EvBind b w ∈ post.
Proof. exact (bind_kill_dying me s pre b w post). Qed.
Print Assumptions C49_kill_only_dying.

(** C49: when a dying catacomb comes to rest every bound worker has finished and is forgotten, or it was killed and has not
    finished yet. (It does come to rest: C51.) *)
Theorem C49_all_stopped me s b w : reachable me s -> x_crash s = false -> at_rest me s -> is_dying (x_log s) -> EvBind b w ∈ x_log s ->
  EvGone b ∈ x_log s /\ finished (x_log s) w \/ EvWKill (ByBind b) w ∈ x_log s /\ ~ finished (x_log s) w.
Proof. exact (dying_stops me s b w). Qed.
Print Assumptions C49_all_stopped.

(** All three workers were killed. *)
Example C49_example : let s := cx cl_killed in reachable 0 s /\ x_crash s = false /\ at_rest 0 s /\ EvKill FromClient (Some (EUser 9)) ∈ x_log s /\ EvBind 0 (WExt 1) ∈ x_log s /\
  x_log s = later 0 s ++ EvWKill (ByBind 2) (WExt 3) :: before 0 s.
Proof. intros s. split_and!; cx_go. Qed.

(** C50: no misuse of the WaitGroup is ever recorded (x_wgbad is set by a Done on zero, and by an Add on zero once
    somebody waits: wg_add, wg_done). *)
Theorem C50_waitgroup me s : reachable me s -> x_wgbad s = false.
Proof. exact (waitgroup me s). Qed.
Print Assumptions C50_waitgroup.
(** C50: without that flag: the counter always is the number of goroutines that have still to call Done (so none of them finds it at zero), *)
Theorem C50_counter me s : reachable me s -> x_wg s = goroutines s.
Proof. exact (wg_counter me s). Qed.
Print Assumptions C50_counter.
(** C50: and it only grows before the goroutine that waits for it exists, or while it is not zero. *)
Theorem C50_grows me s l s' : reachable me s -> step me s l = Some s' -> x_wg s < x_wg s' -> x_wg s <> 0 \/ x_work s = WkNone.
Proof. exact (wg_new me s l s'). Qed.
Print Assumptions C50_grows.

(** A worker is handed over while Work is over and the catacomb waits for the WaitGroup. *)
Example C50_example : let s := cx (cl_up ++ [LAdd 0 (WExt 3); LAdd 1 (WExt 4)] ++ work_ None ++ [LHand 0; LAdded; LHand 1]) in reachable 0 s /\ x_work s = WkWg false /\ x_wg s = 7 /\ x_lis s = LiGot (WExt 4).
Proof. intros s. split_and!; cx_go. Qed.

(** C51: from every state, the number of steps taken by the catacomb and by calls under way is bounded, whatever the workers and
    Work do (as long as there are no new requests). *)
Theorem C51_finite me s : reachable me s -> exists n, forall ls s', run me s ls = Some s' -> Forall (fun l => request l = false) ls -> length (filter (fun l => internal l = true) ls) <= n.
Proof. exact (shutdown_finite me s). Qed.
Print Assumptions C51_finite.

(** C51: so every state leads to rest, *)
Theorem C51_settles me s : reachable me s -> exists ls s', Forall (fun l => internal l = true) ls /\ run me s ls = Some s' /\ at_rest me s'.
Proof. exact (settles me s). Qed.
Print Assumptions C51_settles.

(** C51: and a dying catacomb at rest is dead, or Work has not returned, or it has left by runtime.Goexit, or a worker that was
    killed has not finished. *)
Theorem C51_rest me s : reachable me s -> x_crash s = false -> at_rest me s -> is_dying (x_log s) -> (exists i, EvUsed i ∈ x_log s) ->
  EvDead ∈ x_log s \/ (EvWork ∈ x_log s /\ ~ work_returned (x_log s)) \/ EvWorkRet WkGoexit ∈ x_log s \/
  (exists b w, EvBind b w ∈ x_log s /\ EvWKill (ByBind b) w ∈ x_log s /\ ~ finished (x_log s) w).
Proof. exact (shutdown_rest me s). Qed.
Print Assumptions C51_rest.

(** C51: when Work has returned and the killed workers have finished, rest means death. *)
Theorem C51_dead me s r e : reachable me s -> x_crash s = false -> at_rest me s -> EvWorkRet r ∈ x_log s -> outcome r = Some e ->
  (forall b w, EvBind b w ∈ x_log s -> EvWKill (ByBind b) w ∈ x_log s -> finished (x_log s) w) -> EvDead ∈ x_log s.
Proof. exact (shutdown_dead me s r e). Qed.
Print Assumptions C51_dead.

Example C51_example : let s := cx cl_dead in reachable 0 s /\ x_crash s = false /\ at_rest 0 s /\ EvKill FromClient (Some (EUser 9)) ∈ x_log s /\ EvUsed 0 ∈ x_log s /\
  EvWorkRet (WkReturn (Some (ECatacombDying 0))) ∈ x_log s.
Proof. intros s. split_and!; cx_go. Qed.
(** Not dead yet: from here C51_settles and then, when the workers have finished and Work has returned, C51_dead apply. *)
Example C51_example_killed : let s := cx cl_killed in reachable 0 s /\ x_crash s = false /\ at_rest 0 s /\ EvKill FromClient (Some (EUser 9)) ∈ x_log s /\ EvUsed 0 ∈ x_log s /\ x_work s = WkRun.
Proof. intros s. split_and!; cx_go. Qed.

(** C52: when a bound worker has finished without an error, its two goroutines can end on their own, and the tomb stays as it is; *)
Theorem C52_can_go me s b n : reachable me s -> x_crash s = false -> EvBind b (WExt n) ∈ x_log s -> EvEnd n None ∈ x_log s ->
  exists ls s', Forall (fun l => of_binding b l = true) ls /\ run me s ls = Some s' /\ x_tomb s' = x_tomb s /\ EvGone b ∈ x_log s'.
Proof. exact (finished_can_go me s b n). Qed.
Print Assumptions C52_can_go.

(** C52: at rest they have ended; *)
Theorem C52_gone me s b n e : reachable me s -> x_crash s = false -> at_rest me s -> EvBind b (WExt n) ∈ x_log s -> EvEnd n e ∈ x_log s -> EvGone b ∈ x_log s.
Proof. exact (finished_gone me s b n e). Qed.
Print Assumptions C52_gone.

(** C52: and not before the worker finished. *)
Theorem C52_not_before me s b : reachable me s -> EvGone b ∈ x_log s -> exists n e, EvBind b (WExt n) ∈ x_log s /\ EvEnd n e ∈ x_log s.
Proof. exact (gone_finished me s b). Qed.
Print Assumptions C52_not_before.

Example C52_example : let s := cx cl_clean in reachable 0 s /\ x_crash s = false /\ EvBind 0 (WExt 1) ∈ x_log s /\ EvEnd 1 None ∈ x_log s /\ t_dying (x_tomb s) = false.
Proof. intros s. split_and!; cx_go. Qed.
Example C52_example_gone : let s := cx cl_clean_gone in reachable 0 s /\ x_crash s = false /\ at_rest 0 s /\ EvBind 0 (WExt 1) ∈ x_log s /\ EvEnd 1 None ∈ x_log s /\ EvGone 0 ∈ x_log s.
Proof. intros s. split_and!; cx_go. Qed.

(** C61: a catacomb to which its own parent worker was added is never dead. *)
Theorem C61_self_never_dead me s b : reachable me s -> EvBind b WSelf ∈ x_log s -> ~ EvDead ∈ x_log s.
Proof. exact (self_never_dead me s b). Qed.
Print Assumptions C61_self_never_dead.

(** Killed, Work returned, all other workers finished: it is at rest and not dead. *)
Example C61_example : let s := cx cl_self in reachable 0 s /\ at_rest 0 s /\ x_crash s = false /\ EvBind 2 WSelf ∈ x_log s /\ EvGone 0 ∈ x_log s /\ EvGone 1 ∈ x_log s /\ EvKill FromWork None ∈ x_log s.
Proof. intros s. split_and!; cx_go. Qed.

(** C62: when Work leaves by runtime.Goexit, Kill is not called for it and the catacomb is never dead. *)
Theorem C62_goexit_never_dead me s : reachable me s -> EvWorkRet WkGoexit ∈ x_log s -> ~ EvDead ∈ x_log s /\ forall e, ~ EvKill FromWork e ∈ x_log s.
Proof. exact (goexit_never_dead me s). Qed.
Print Assumptions C62_goexit_never_dead.

Example C62_example : let s := cx cl_goexit in reachable 0 s /\ at_rest 0 s /\ x_crash s = false /\ EvWorkRet WkGoexit ∈ x_log s /\ EvGone 0 ∈ x_log s /\ EvGone 1 ∈ x_log s.
Proof. intros s. split_and!; cx_go. Qed.
