(** Vocabulary for C82: reports of workers made of workers. *)
From stdpp Require Import gmap strings list relations.
From Verif Require Import Err Tomb Tree TreeSpec Reports.
From Verif Require Snapshot Engine EngineSpec Runner RunnerSpec.

(** The forests that an execution goes through, beginning with that of [R]. *)
Fixpoint forests (R : rstate) (ls : list rlabel) : list forest :=
  r_forest R :: match ls with [] => [] | l :: ls' => match rstep R l with Some R' => forests R' ls' | None => [] end end.

(** What a report must say is told from the events that happened to the worker so far, as in C19 and C39. *)
(** Worker number [k] of [nd] is in a report of [nd]: the engine has registered it under a name that is installed, and it has a Report
    method; the runner has registered it for an id that it knows. *)
Definition has_reporter (nd : node) (k : nat) : Prop :=
  match nd with
  | NEngine E s => exists n m w, EngineSpec.installed (Engine.s_log s) n = Some m /\ EngineSpec.registered (Engine.s_log s) n = Some (k, Snapshot.WExt w) /\ Engine.e_reporter E w = true
  | NRunner _ s => exists id w, RunnerSpec.known (RunnerSpec.rlog s) id <> None /\ RunnerSpec.registered (RunnerSpec.rlog s) id = Some (k, w)
  | _ => False
  end.
(** What a report says about the worker itself: the state of the engine, and its error. *)
Definition self_so (nd : node) (hd : option (Engine.estate * option err)) : Prop :=
  match nd with
  | NEngine E s =>
    let log := Engine.s_log s in
    let worst := EngineSpec.worst_of (Engine.e_cfg E) log in
    match hd with
    | Some (Engine.EStarted, e) => ~ EngineSpec.is_dying log /\ e = None
    | Some (Engine.EStopping, e) => EngineSpec.is_dying log /\ Engine.EvDead ∉ log /\ e = worst
    | Some (Engine.EStopped, e) => Engine.EvDead ∈ log /\ e = match Engine.c_filter (Engine.e_cfg E) with Some f => f worst | None => worst end
    | None => False
    end
  | _ => hd = None
  end.
(** What it says about its workers, but for their own reports. *)
Definition row_so (log : list Engine.event) (n : string) (m : Snapshot.manifold) (r : Engine.mreport) : Prop :=
  EngineSpec.observed_state log n (Engine.mr_state r) /\
  Engine.mr_inputs r = Snapshot.m_inputs m /\
  Engine.mr_startCount r = (let c := EngineSpec.starts_since_install log n in if (0 <? c)%nat then Some c else None) /\
  Engine.mr_started r = EngineSpec.registered_at log n /\
  Engine.mr_error r = EngineSpec.shown_error log n.
Definition workers_so (nd : node) (tb : table) : Prop :=
  match nd, tb with
  | NEngine E s, TEngine m =>
    forall n, match EngineSpec.installed (Engine.s_log s) n, m !! n with
              | Some mf, Some r => row_so (Engine.s_log s) n mf r
              | None, None => True | _, _ => False end
  | NRunner _ s, TRunner m =>
    let log := RunnerSpec.rlog s in
    forall id, match m !! id with
               | None => RunnerSpec.known log id = None
               | Some r => RunnerSpec.known log id <> None /\ RunnerSpec.first_spawn log id = Some (Runner.rr_started r) /\
                   Runner.rr_status r = match RunnerSpec.registered log id with Some _ => Runner.StStarted | None => Runner.StStopped end
               end
  | NCatacomb _ _, TUser | NPlain _ _, TUser => True
  | _, _ => False
  end.
(** [t] is a true report of [n]. It was begun at time [a] and was complete at time [b]. What it says about [n] itself was so at time
    [a], and what it says about the workers of [n] was so all the time from [a] to [b]. If [n] is an engine or a runner, then the workers
    with a report of their own are all those that [n] had and that have a Report method. And each of these reports is a true report
    of that worker, begun and completed meanwhile. *)
Inductive true_report (tr : list forest) : nat -> nat -> nat -> rtree -> Prop :=
  | true_intro a b n hd tb kids F nd :
    a <= b -> is_Some (tr !! b) ->
    tr !! a = Some F -> f_nodes F !! n = Some nd -> self_so nd hd ->
    (forall j F', a <= j <= b -> tr !! j = Some F' -> exists nd', f_nodes F' !! n = Some nd' /\ workers_so nd' tb) ->
    (match nd with NEngine _ _ | NRunner _ _ => forall k, has_reporter nd k <-> k ∈ kids.*1 | _ => True end) -> NoDup kids.*1 ->
    (forall k t, (k, t) ∈ kids -> exists c a' b', a <= a' /\ b' <= b /\ f_link F !! (n, k) = Some c /\ true_report tr a' b' c t) ->
    true_report tr a b n (RT hd tb kids).

(** The Report methods that call [i] has begun and not finished: on which worker, and what it still has to ask, or waits for. *)
Definition waits_in (R : rstate) (i m : nat) : Prop :=
  exists k f, fr_node f = m /\
    ((exists n st, r_calls R !! i = Some (Entering n st) /\ (k, f) ∈ st) \/
     (exists g st, r_calls R !! i = Some (Inside g st) /\ (k, f) ∈ st)).

(** Steps of Report calls, and of a goroutine of Runner.Worker that has the mutex and lets it go (runner.go:385-391). *)
Definition report_step (l : rlabel) : Prop :=
  match l with
  | REnter _ _ | RAsk _ _ | RLeave _ => True
  | RForest (FStep _ (LRunner (Runner.LWtCheck _ | Runner.LWtAdd _)) []) => True
  | _ => False
  end.
