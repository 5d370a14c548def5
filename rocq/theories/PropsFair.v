(** C80: infinite executions in which steps that are bound to happen are not put off for ever. *)
From stdpp Require Import gmap strings list.
From Coq Require Import ZArith.
From Verif Require Import Err Tomb FairSpec FairEngineSpec FairProofs FairExample.
From Verif Require Snapshot Engine EngineSpec EngineProgressSpec EngineExample FairEngine
  Runner RunnerSpec RunnerProgressSpec RunnerExample Catacomb CatacombSpec CatacombExample FairCatacombSpec FairCatacomb.

(** C80: in every such execution of the engine, once it is dying it is dead some time later. *)
Theorem C80_engine_dies E tr lab i : Engine.reachable E (tr 0) -> execution (Engine.step E) tr lab ->
  not_starved (Engine.step E) (fun s => EngineProgressSpec.owed (Engine.s_log s)) tr lab ->
  EngineSpec.is_dying (Engine.s_log (tr i)) -> exists j, i <= j /\ Engine.EvDead ∈ Engine.s_log (tr j).
Proof. exact (engine_dies E tr lab i). Qed.
Print Assumptions C80_engine_dies.

Example C80_example_engine_dies : let ls := EngineExample.ls_dead in let lab := fun i => ls !! i in let tr := follow (Engine.step EngineExample.ex_env) Engine.init lab in
  Engine.reachable EngineExample.ex_env (tr 0) /\ execution (Engine.step EngineExample.ex_env) tr lab /\
  not_starved (Engine.step EngineExample.ex_env) (fun s => EngineProgressSpec.owed (Engine.s_log s)) tr lab /\
  existsb EngineExample.is_dying_ev (Engine.s_log (tr (length EngineExample.ls_fatal))) = true /\
  t_dead (Engine.s_tomb (tr (length EngineExample.ls_fatal))) = false /\ t_dead (Engine.s_tomb (tr (length ls))) = true.
Proof.
  intros ls lab tr. split; [by exists []|]. split; [apply play_exec; vm_compute; reflexivity|].
  split; [apply play_fair, edead_rest; vm_compute; reflexivity|]. split_and!; vm_compute; reflexivity.
Qed.

(** C80 (and C24): when from some time on nothing is installed any more, no worker exits unless it was killed, failing Start
    calls return errors that mean missing or nil, and time passes, then there comes a time from which on every installed
    manifold is where it belongs, for as long as nobody kills the engine. *)
Theorem C80_engine_converges E tr lab i : Engine.reachable E (tr 0) -> execution (Engine.step E) tr lab ->
  not_starved (Engine.step E) (fun s => EngineProgressSpec.owed (Engine.s_log s)) tr lab ->
  (forall j l, i <= j -> lab j = Some l -> EngineProgressSpec.calm (Engine.s_log (tr j)) l) ->
  (forall t j, exists k, j <= k /\ (t <= Engine.s_now (tr k))%Z) ->
  exists j, i <= j /\ forall k, j <= k -> EngineSpec.is_dying (Engine.s_log (tr k)) \/ converged (Engine.s_log (tr k)).
Proof. intros Hr He Hf. exact (FairEngine.converges E tr lab Hr He Hf i). Qed.
Print Assumptions C80_engine_converges.

(** db has failed, api is bounced and is missing db; both come back; then only time passes. *)
Definition fx_calm : list Engine.label := [Engine.LExit 1 None; Engine.LStopped 1; Engine.LTick 2; Engine.LDelayFire 3; Engine.LStartRet 3 (inr (EConst KMissing)); Engine.LExpire 3; Engine.LStopped 3; Engine.LTick 5; Engine.LDelayFire 2;
  Engine.LStartRet 2 (inl (Snapshot.WExt 12)); Engine.LExpire 2; Engine.LStarted 2; Engine.LTick 5; Engine.LDelayFire 4; Engine.LStartRet 4 (inl (Snapshot.WExt 14)); Engine.LExpire 4; Engine.LStarted 4].
Example C80_example_converges : let ls := EngineExample.ls_fail ++ fx_calm in let i := length EngineExample.ls_fail in
  let tr := follow (Engine.step EngineExample.ex_env) Engine.init (ticking ls) in
  Engine.reachable EngineExample.ex_env (tr 0) /\ execution (Engine.step EngineExample.ex_env) tr (ticking ls) /\
  not_starved (Engine.step EngineExample.ex_env) (fun s => EngineProgressSpec.owed (Engine.s_log s)) tr (ticking ls) /\
  (forall j l, i <= j -> ticking ls j = Some l -> EngineProgressSpec.calm (Engine.s_log (tr j)) l) /\
  (forall t j, exists k, j <= k /\ (t <= Engine.s_now (tr k))%Z) /\
  EngineSpec.registered (Engine.s_log (tr i)) "db" = None /\ EngineSpec.registered (Engine.s_log (tr (length ls))) "db" = Some (2, Snapshot.WExt 12) /\
  EngineSpec.registered (Engine.s_log (tr (length ls))) "api" = Some (4, Snapshot.WExt 14) /\ Engine.dying (tr (length ls)) = false.
Proof.
  intros ls i tr. split; [by exists []|]. split; [apply ticking_exec; vm_compute; reflexivity|]. split; [apply ticking_fair; vm_compute; reflexivity|].
  split; [apply ticking_calm; vm_compute; reflexivity|]. split; [apply ticking_time|]. split_and!; vm_compute; reflexivity.
Qed.

(** C80: in every such execution of the runner in which no worker's Wait calls runtime.Goexit and which gets no new requests
    from [i] on, once the runner stops everything it is dead some time later (or its loop returned one of the two errors the
    tomb rejects, or, not after Kill, the clock has to reach the end of a restart delay: see C34). *)
Theorem C80_runner_dies P tr lab i : tr 0 = Runner.init -> execution (Runner.step P) tr lab ->
  (forall j g, lab j <> Some (Runner.LCore (Runner.KLost g))) ->
  (forall j l, i <= j -> lab j = Some l -> RunnerProgressSpec.request l = false) ->
  not_starved (Runner.step P) (fun s => RunnerProgressSpec.owed (RunnerSpec.rlog s)) tr lab ->
  RunnerSpec.stopping_all (RunnerSpec.rlog (tr i)) ->
  exists j, i <= j /\ (Runner.EvDead ∈ RunnerSpec.rlog (tr j) \/
    (Runner.c_loop (Runner.s_core (tr j)) = Runner.LEnded /\ exists e, RunnerSpec.final_of P (RunnerSpec.rlog (tr j)) = Some e /\ (e = ETombStillAlive \/ e = ETombDying)) \/
    (RunnerProgressSpec.waits_for_clock (tr j) /\ Runner.EvKilled ∉ RunnerSpec.rlog (tr j))).
Proof. exact (runner_dies P tr lab i). Qed.
Print Assumptions C80_runner_dies.

Example C80_example_runner_dies : let ls := RunnerExample.rl_dead in let lab := fun i => ls !! i in let i := length RunnerExample.rl_fatal in
  let tr := follow (Runner.step RunnerExample.rx) Runner.init lab in
  tr 0 = Runner.init /\ execution (Runner.step RunnerExample.rx) tr lab /\ (forall j g, lab j <> Some (Runner.LCore (Runner.KLost g))) /\
  (forall j l, i <= j -> lab j = Some l -> RunnerProgressSpec.request l = false) /\
  not_starved (Runner.step RunnerExample.rx) (fun s => RunnerProgressSpec.owed (RunnerSpec.rlog s)) tr lab /\
  RunnerSpec.stopping_all (RunnerSpec.rlog (tr i)) /\ t_dead (Runner.c_tomb (Runner.s_core (tr i))) = false /\ t_dead (Runner.c_tomb (Runner.s_core (tr (length ls)))) = true.
Proof.
  intros ls lab i tr. split; [done|]. split; [apply play_exec; vm_compute; reflexivity|]. split; [apply play_no_lost; vm_compute; reflexivity|].
  split; [apply play_no_request; vm_compute; reflexivity|]. split; [apply play_fair, rdead_rest; vm_compute; reflexivity|].
  split; [apply (RunnerExample.rx_present 1); vm_compute; reflexivity|]. split; vm_compute; reflexivity.
Qed.

(** C80: in every such execution of a catacomb in which Invoke and Add are not called any more from [i] on, once the catacomb
    was used and is dying it is dead some time later. Excluded, as in C51: executions in which the program has crashed (C47),
    Work calls runtime.Goexit (C62), or the catacomb was given the worker around it (C61). *)
Theorem C80_catacomb_dies me tr lab i : Catacomb.reachable me (tr 0) -> execution (Catacomb.step me) tr lab -> not_starved (Catacomb.step me) FairCatacombSpec.due tr lab ->
  (forall j l, i <= j -> lab j = Some l -> FairCatacombSpec.new_work l = false) ->
  (forall j, Catacomb.x_crash (tr j) = false /\ Catacomb.EvWorkRet Catacomb.WkGoexit ∉ Catacomb.x_log (tr j) /\ forall b, Catacomb.EvBind b Catacomb.WSelf ∉ Catacomb.x_log (tr j)) ->
  (exists c, Catacomb.EvUsed c ∈ Catacomb.x_log (tr i)) -> CatacombSpec.is_dying (Catacomb.x_log (tr i)) -> exists j, i <= j /\ Catacomb.EvDead ∈ Catacomb.x_log (tr j).
Proof. exact (FairCatacomb.catacomb_dies me tr lab i). Qed.
Print Assumptions C80_catacomb_dies.

Example C80_example_catacomb_dies : let ls := CatacombExample.cl_dead in let lab := fun i => ls !! i in let i := length CatacombExample.cl_kill in
  let tr := follow (Catacomb.step 0) Catacomb.init lab in
  Catacomb.reachable 0 (tr 0) /\ execution (Catacomb.step 0) tr lab /\ not_starved (Catacomb.step 0) FairCatacombSpec.due tr lab /\
  (forall j l, i <= j -> lab j = Some l -> FairCatacombSpec.new_work l = false) /\
  (forall j, Catacomb.x_crash (tr j) = false /\ Catacomb.EvWorkRet Catacomb.WkGoexit ∉ Catacomb.x_log (tr j) /\ forall b, Catacomb.EvBind b Catacomb.WSelf ∉ Catacomb.x_log (tr j)) /\
  (exists c, Catacomb.EvUsed c ∈ Catacomb.x_log (tr i)) /\ CatacombSpec.is_dying (Catacomb.x_log (tr i)) /\
  t_dead (Catacomb.x_tomb (tr i)) = false /\ t_dead (Catacomb.x_tomb (tr (length ls))) = true.
Proof.
  intros ls lab i tr. split; [by exists []|]. split; [apply play_exec; vm_compute; reflexivity|]. split; [apply play_fair, cdead_rest; vm_compute; reflexivity|].
  split; [apply play_no_new_work; vm_compute; reflexivity|]. split; [apply play_sound; vm_compute; reflexivity|].
  split; [exists 0; apply (elem_of_list_lookup_2 _ 8); vm_compute; reflexivity|].
  split; [exists Catacomb.FromClient, (Some (EUser 9)); apply (elem_of_list_lookup_2 _ 0); vm_compute; reflexivity|]. split; vm_compute; reflexivity.
Qed.
