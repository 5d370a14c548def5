(** Model of dependency/engine.go: the Engine's loop goroutine, its runWorker goroutines and its API.

    One label of [step] is one atomic action: a channel rendezvous together with the loop's handler, or one
    action of a runWorker goroutine, of a client, or of the clock.

    Simplifications (see DESIGN.md): logging is dropped; callbacks are pure; a Start func returns a worker
    or an error (interface.go:30-31 demands it), it neither panics nor calls runtime.Goexit; a worker's Report
    returns at once and does not call back into the engine. *)
From stdpp Require Import gmap strings list.
From Coq Require Import ZArith.
From RecordUpdate Require Import RecordSet.
From Verif Require Import Err Tomb Order Validate Snapshot.
Import RecordSetNotations.
Local Open Scope Z_scope.

(** engine.go:39-90 [EngineConfig]: the fields that influence behaviour.  Delays are nanoseconds. *)
Record config := mkConfig {
  c_isFatal : option err -> bool;
  c_worstError : option err -> option err -> option err;
  c_filter : option (option err -> option err);
  c_errorDelay : Z;
  c_bounceDelay : Z;
  c_backoffReset : Z
}.

(** Everything the environment decides that is not part of a label:
    - [e_preempt k]: an external Kill lands just before the loop's k-th poll of isDying;
    - [e_rank k]: the order of the loop's k-th map iteration (see Order.v);
    - [e_delay g d r]: the delay used by attempt [g] for base delay [d > 0] and [r] recent errors
      (engine.go:415-430; Backoff.v gives the actual computation);
    - [e_outf]: what Output funcs do;
    - [e_reporter w]: worker [w] is a Reporter, whose Report returns [e_wreport k w] when [k] events have happened. *)
Record env := mkEnv {
  e_cfg : config;
  e_preempt : nat -> bool;
  e_rank : nat -> string -> nat;
  e_delay : nat -> Z -> nat -> Z;
  e_outf : outputs;
  e_reporter : nat -> bool;
  e_wreport : nat -> nat -> nat
}.

(** engine.go:786-798 [workerInfo] *)
Record info := mkInfo {
  i_starting : bool;
  i_stopping : bool;
  i_cancel : option nat;          (* the context to cancel; contexts are numbered like attempts *)
  i_worker : option worker;
  i_err : option err;
  i_rlog : list access;
  i_startedTime : option Z;       (* None is the zero time *)
  i_startCount : nat;
  i_attempts : nat;
  i_recent : nat
}.
Global Instance eta_info : Settable _ := settable! mkInfo
  <i_starting; i_stopping; i_cancel; i_worker; i_err; i_rlog; i_startedTime; i_startCount; i_attempts; i_recent>.

(** The zero workerInfo (engine.go:786-798), read by Go when a name is missing from the map. *)
Definition info0 : info := mkInfo false false None None None [] None 0 0 0.

(** engine.go:801-809 *)
Definition i_stopped (i : info) : bool :=
  match i_worker i with
  | Some _ => false
  | None => negb (i_starting i)
  end.

(** engine.go:812-822 *)
Inductive wstate := SStarting | SStopping | SStarted | SStopped.
(** engine.go:812-822 [state] *)
Definition i_state (i : info) : wstate :=
  if i_starting i then SStarting
  else if i_stopping i then SStopping
  else match i_worker i with Some _ => SStarted | None => SStopped end.

(** Where a runWorker goroutine is (engine.go:512-574). *)
Inductive pc :=
  | PDelay (ready : Z)                 (* :522-528, Clock.After fires at [ready] *)
  | PStart                             (* :530, inside Start *)
  | PReturned (r : worker + err)       (* Start returned, the getter is not yet expired (:520, :535-542) *)
  | PSendStarted (w : worker)          (* :543-555 *)
  | PWait (w : worker)                 (* :565, inside worker.Wait() *)
  | PSelf                              (* :561 *)
  | PSendStopped (e : option err)      (* :569 *)
  | PGone.                             (* returned *)

(** A goroutine of runWorker, engine.go:512-575, with its arguments. *)
Record gor := mkGor {
  g_name : string;
  g_start : nat;
  g_snap : snap;
  g_expired : bool;
  g_access : list access;
  g_pc : pc
}.
Global Instance eta_gor : Settable _ := settable! mkGor
  <g_name; g_start; g_snap; g_expired; g_access; g_pc>.

(** What Report returns (engine.go:247-319). *)
Record mreport := mkMReport {
  mr_state : wstate;
  mr_inputs : list string;
  mr_startCount : option nat;
  mr_started : option Z;
  mr_error : option err;
  mr_report : option nat             (* what the worker's own Report returned *)
}.
(** engine.go:259, 273-281. *)
Inductive estate := EStarted | EStopping | EStopped.
(** engine.go:258-266, 282-290. *)
Record report := mkReport {
  rp_state : estate;
  rp_error : option err;
  rp_manifolds : gmap string mreport
}.

(** Observable events. Of engine.go:201-782; the log itself has no counterpart. *)
Inductive event :=
  | EvInstalled (n : string) (m : manifold)                  (* the loop accepted the manifold *)
  | EvInstall (n : string) (m : manifold) (r : option err)   (* Install returned r *)
  | EvAttempt (g : nat) (n : string) (sn : snap) (t d : Z)   (* attempt g launched at time t with delay d *)
  | EvStartCall (g : nat) (n : string) (f : nat) (t : Z)     (* Start func f called *)
  | EvStartRet (g : nat) (n : string) (r : worker + err)     (* Start returned *)
  | EvGet (g : nat) (n : string) (out : option nat) (r : option err) (call : option (nat * worker * nat))
  | EvRegister (g : nat) (n : string) (w : worker) (t : Z)   (* the loop accepted the worker *)
  | EvMetric (n : string)                                    (* Metrics.RecordStart(n) *)
  | EvCancel (g : nat) (n : string)                          (* the context of attempt g was cancelled *)
  | EvKill (g : nat) (n : string) (w : worker)               (* Kill called on the worker of attempt g *)
  | EvExit (g : nat) (n : string) (e : option err)           (* worker.Wait() returned e to attempt g *)
  | EvStopped (g : nat) (n : string) (raw e : option err) (t : Z)
      (* the loop processed the end of attempt g: error raw, e after the manifold's filter *)
  | EvUninstall (n : string)
  | EvDying                                                  (* the engine's tomb was killed first *)
  | EvDead                                                   (* the engine's tomb is dead *)
  | EvReport (r : report)
  | EvWait (e : option err).                                 (* Wait returned e *)

(** engine.go:156-188, the goroutines of engine.go:432, the clock, and where the loop (engine.go:201-227) is. *)
Record state := mkState {
  s_tomb : tomb;
  s_worst : option err;
  s_manifolds : gmap string manifold;
  s_dependents : gmap string (list string);
  s_current : gmap string info;
  s_oneShot : bool;             (* oneShotDying != nil *)
  s_running : bool;             (* the loop has not returned *)
  s_gors : gmap nat gor;
  s_next : nat;                 (* next attempt number *)
  s_cancelled : gset nat;       (* cancelled contexts *)
  s_now : Z;
  s_polls : nat;
  s_log : list event            (* newest first *)
}.
Global Instance eta_state : Settable _ := settable! mkState
  <s_tomb; s_worst; s_manifolds; s_dependents; s_current; s_oneShot; s_running; s_gors; s_next;
   s_cancelled; s_now; s_polls; s_log>.

(** engine.go:132-152 [NewEngine] with a valid configuration: tomb.Go(loop). *)
Definition init : state :=
  mkState (tomb_go tomb_new) None ∅ ∅ ∅ true true ∅ 0 ∅ 0 0 [].

(** The log has no counterpart in engine.go. *)
Definition emit (ev : event) (s : state) : state := s <| s_log ::= cons ev |>.

(** engine.current[name], e.g. engine.go:388, 581. *)
Definition info_of (s : state) (n : string) : info := default info0 (s_current s !! n).
(** engine.manifolds[name], e.g. engine.go:300, 382. *)
Definition manifold_of (s : state) (n : string) : manifold := default manifold0 (s_manifolds s !! n).
(** engine.dependents[name], engine.go:775. *)
Definition dependents_of (s : state) (n : string) : list string := default [] (s_dependents s !! n).
(** engine.current[name] = info, e.g. engine.go:410, 599. *)
Definition set_info (n : string) (i : info) (s : state) : state := s <| s_current ::= <[n := i]> |>.
(** Where runWorker (engine.go:512-575) is. *)
Definition set_pc (g : nat) (p : pc) (s : state) : state :=
  s <| s_gors ::= alter (fun r => r <| g_pc := p |>) g |>.

(** [engine.tomb.Kill(e)]. engine.go:231, 384, 390, 584, 658, 661. *)
Definition kill_tomb (e : option err) (s : state) : state :=
  let s' := s <| s_tomb ::= (fun t => tomb_kill t e) |> in
  if negb (t_dying (s_tomb s)) && t_dying (s_tomb s') then emit EvDying s' else s'.

(** engine.go:749-756 [isDying], called by the loop: an external Kill may land just before. *)
Definition poll (E : env) (s : state) : state :=
  (if e_preempt E (s_polls s) then kill_tomb None s else s) <| s_polls ::= S |>.
(** engine.go:749-756 [isDying], after the poll. *)
Definition dying (s : state) : bool := t_dying (s_tomb s).

(** [worker.Kill()] on the worker of attempt [g]; killing the engine's own worker is engine.go:230-232. *)
Definition kill_worker (g : nat) (n : string) (w : worker) (s : state) : state :=
  let s' := emit (EvKill g n w) s in
  match w with WSelf => kill_tomb None s' | WExt _ => s' end.

(** engine.go:445-503 [snapshot] *)
Definition take_snapshot (s : state) (inputs : list string) : snap :=
  mkSnap (list_to_map ((fun r => (r, i_worker (info_of s r))) <$> inputs))
         (list_to_map ((fun r => (r, m_output (manifold_of s r))) <$> inputs)).

(** engine.go:402-432: the part of requestStart that launches a runWorker goroutine.  The info was copied at
    :388, nothing changes it in between. *)
Definition launch (E : env) (n : string) (delay : Z) (s : state) : state :=
  let g := s_next s in
  let i := info_of s n <| i_starting := true |> <| i_attempts ::= S |> <| i_err := None |> <| i_cancel := Some g |> in
  let s1 := set_info n i s in
  let m := manifold_of s1 n in
  let sn := take_snapshot s1 (m_inputs m) in
  let d := if 0 <? delay then e_delay E g delay (i_recent i) else delay in
  emit (EvAttempt g n sn (s_now s1) d)
    (s1 <| s_gors ::= <[g := mkGor n (m_start m) sn false [] (PDelay (s_now s1 + d))]> |>
        <| s_next ::= S |>).

(** engine.go:379-433 [requestStart] *)
Definition request_start (E : env) (n : string) (delay : Z) (s : state) : state :=
  let s1 := match s_manifolds s !! n with
            | Some _ => s
            | None => kill_tomb (Some (EMsg (MsgUnknownManifold n))) s end in
  let s2 := if i_stopped (info_of s1 n) then s1
            else kill_tomb (Some (EMsg (MsgSecondWorker n))) s1 in
  let s3 := poll E s2 in
  if dying s3 then s3 else launch E n delay s3.

(** engine.go:736-744: the part of requestStop that acts *)
Definition do_stop (n : string) (s : state) : state :=
  let i := info_of s n <| i_stopping := true |> in
  let s1 := match i_cancel i with
            | Some c => emit (EvCancel c n) (s <| s_cancelled ::= union {[c]} |>)
            | None => s
            end in
  let s2 := match i_worker i with
            | Some w => kill_worker (default 0%nat (i_cancel i)) n w s1
            | None => s1
            end in
  set_info n (i <| i_cancel := None |>) s2.

(** engine.go:727-745 [requestStop] *)
Definition request_stop (n : string) (s : state) : state :=
  let i := info_of s n in
  if i_stopping i || i_stopped i then s else do_stop n s.

(** engine.go:773-782 [bounceDependents] *)
Definition bounce_one (E : env) (d : string) (s : state) : state :=
  if i_stopped (info_of s d) then request_start E d (c_bounceDelay (e_cfg E)) s else request_stop d s.
(** engine.go:773-782 [bounceDependents] *)
Definition bounce_dependents (E : env) (n : string) (s : state) : state :=
  fold_left (fun s d => bounce_one E d s) (dependents_of s n) s.

(** engine.go:353-365 [uninstall]; set.Strings.Values returns the members in unspecified order. *)
Definition uninstall_list (rank : string -> nat) (n : string) (l : list string) : list string :=
  iter_order rank (filter (fun d => d <> n) (remove_dups l)).
(** engine.go:353-365 [uninstall] *)
Definition uninstall (E : env) (n : string) (s : state) : state :=
  emit (EvUninstall n)
   (s <| s_dependents ::= fmap (uninstall_list (e_rank E (s_polls s)) n) |>
      <| s_current ::= delete n |>
      <| s_manifolds ::= delete n |>
      <| s_polls ::= S |>).

(** engine.go:369-375 [checkAcyclic]: the installed manifolds override the new one, then Validate. *)
Definition inputs_graph (ms : gmap string manifold) : graph := m_inputs <$> ms.
(** engine.go:369-375 [checkAcyclic] *)
Definition check_acyclic (E : env) (n : string) (m : manifold) (s : state) : option err :=
  let g := inputs_graph (s_manifolds s ∪ {[n := m]}) in
  validate_err g (iter_order (e_rank E (s_polls s)) (map_to_list g).*1).

(** engine.go:343-347: the new manifold is recorded *)
Definition add_dependents (n : string) (inputs : list string) (ds : gmap string (list string)) :=
  fold_left (fun ds i => <[i := default [] (ds !! i) ++ [n]]> ds) inputs ds.
(** engine.go:343-347 *)
Definition record_manifold (n : string) (m : manifold) (s : state) : state :=
  emit (EvInstalled n m)
   (s <| s_manifolds ::= <[n := m]> |>
      <| s_dependents ::= add_dependents n (m_inputs m) |>
      <| s_current ::= <[n := info0]> |>).

(** engine.go:335-350 [gotInstall] *)
Definition got_install (E : env) (n : string) (m : manifold) (s : state) : option err * state :=
  match s_manifolds s !! n with
  | Some _ => (Some (EMsg (MsgAlreadyInstalled n)), s)
  | None =>
    match check_acyclic E n m s with
    | Some e => (Some (EWrap (MsgCannotInstall n) e), s <| s_polls ::= S |>)
    | None => (None, request_start E n 0 (record_manifold n m (s <| s_polls ::= S |>)))
    end
  end.

(** engine.go:591-602: the worker is accepted *)
Definition register (g : nat) (n : string) (w : worker) (rlog : list access) (s : state) : state :=
  let i := info_of s n <| i_worker := Some w |> <| i_starting := false |> <| i_startCount ::= S |>
             <| i_attempts := 0%nat |> <| i_rlog := rlog |> <| i_startedTime := Some (s_now s) |> in
  emit (EvMetric n) (emit (EvRegister g n w (s_now s)) (set_info n i s)).

(** engine.go:578-607 [gotStarted] *)
Definition got_started (E : env) (g : nat) (n : string) (w : worker) (rlog : list access) (s : state) : state :=
  match i_worker (info_of s n) with
  | Some _ => kill_worker g n w (kill_tomb (Some (EMsg (MsgUnexpectedStart n))) s)
  | None =>
    if i_stopping (info_of s n) then kill_worker g n w s
    else
      let s1 := poll E s in
      if dying s1 then kill_worker g n w s1
      else bounce_dependents E n (register g n w rlog s1)
  end.

(** engine.go:619-651: the new value of recentErrors (and startAttempts), from the error before filtering *)
Definition recent_errors (cfg : config) (i : info) (e : option err) (now : Z) : info :=
  match e with
  | None => i <| i_recent := 0%nat |>
  | Some e' =>
    if err_is e' (EConst KStartAborted) then i <| i_attempts := 0%nat |> <| i_recent := 1%nat |>
    else if err_is e' (EConst KMissing) then i <| i_recent := 1%nat |>
    else
      match i_startedTime i with
      | None => i <| i_recent ::= S |>
      | Some t => if now - t <? c_backoffReset cfg then i <| i_recent ::= S |> else i <| i_recent := 1%nat |>
      end
  end.

(** engine.go:684-716: what to do with a worker that was not asked to stop *)
Definition after_stop (E : env) (n : string) (e : option err) (s : state) : state :=
  match e with
  | None => s
  | Some e' =>
    if err_is e' (EConst KStartAborted) then s
    else if err_is e' (EConst KMissing) then s
    else if err_is e' (EConst KBounce) then request_start E n (c_bounceDelay (e_cfg E)) s
    else if err_is e' (EConst KUninstall) then uninstall E n s
    else request_start E n (c_errorDelay (e_cfg E)) s
  end.

(** engine.go:653-655 *)
Definition filtered (s : state) (n : string) (raw : option err) : option err :=
  match m_filter (manifold_of s n) with Some f => f raw | None => raw end.

(** engine.go:617-672: the info is updated and reset, fatal errors are recorded *)
Definition end_attempt (E : env) (g : nat) (n : string) (raw : option err) (rlog : list access) (s : state) : state :=
  let cfg := e_cfg E in
  let i := recent_errors cfg (info_of s n) raw (s_now s) in
  let e := filtered s n raw in
  let s0 := emit (EvStopped g n raw e (s_now s)) s in
  let s1 :=
    if i_stopped i then kill_tomb (Some (EMsg (MsgUnexpectedStop n))) s0
    else if c_isFatal cfg e then kill_tomb None (s0 <| s_worst ::= c_worstError cfg e |>)
    else s0 in
  set_info n (mkInfo false false None None e rlog None (i_startCount i) (i_attempts i) (i_recent i)) s1.

(** engine.go:615-723 [gotStopped] *)
Definition got_stopped (E : env) (g : nat) (n : string) (raw : option err) (rlog : list access) (s : state) : state :=
  let i := info_of s n in
  let s1 := poll E (end_attempt E g n raw rlog s) in
  if dying s1 then s1
  else
    let s2 := if i_stopping i then request_start E n (c_bounceDelay (e_cfg E)) s1
              else after_stop E n (filtered s n raw) s1 in
    match i_worker i with
    | Some _ => bounce_dependents E n s2
    | None => s2
    end.

(** engine.go:761-768 [allOthersStopped] *)
Definition all_others_stopped (s : state) : bool :=
  bool_decide (map_Forall (fun _ i => i_stopped i = true \/ i_worker i = Some WSelf) (s_current s)).

(** engine.go:221-225: end of a loop iteration; returning tomb.ErrDying ends the tomb's only goroutine *)
Definition end_iteration (E : env) (s : state) : state :=
  let s1 := poll E s in
  if dying s1 && all_others_stopped s1 then
    emit EvDead (s1 <| s_running := false |> <| s_tomb ::= (fun t => tomb_done t (Some ETombDying)) |>)
  else s1.

(** engine.go:205-209: requestStop for every name, in map order *)
Definition stop_all (E : env) (s : state) : state :=
  let order := iter_order (e_rank E (s_polls s)) (map_to_list (s_current s)).*1 in
  fold_left (fun s n => request_stop n s) order (s <| s_oneShot := false |> <| s_polls ::= S |>).

(** engine.go:295-319 [manifoldsReport] *)
Definition worker_report (E : env) (s : state) (i : info) : option nat :=
  match i_worker i with
  | Some (WExt w) => if e_reporter E w then Some (e_wreport E (length (s_log s)) w) else None
  | _ => None       (* no worker, or the engine, which is a Reporter (:312) *)
  end.
Definition manifold_report (E : env) (s : state) (n : string) (i : info) : mreport :=
  mkMReport (i_state i) (m_inputs (manifold_of s n))
    (if (0 <? i_startCount i)%nat then Some (i_startCount i) else None)
    (i_startedTime i) (i_err i) (worker_report E s i).
(** engine.go:295-319 [manifoldsReport] *)
Definition manifolds_report (E : env) (s : state) : gmap string mreport :=
  map_imap (fun n i => Some (manifold_report E s n i)) (s_current s).

(** engine.go:271-290 [liveReport] *)
Definition live_report (E : env) (s : state) : report :=
  if dying s then
    mkReport EStopping
      (match tomb_err (s_tomb s) with Some e => Some e | None => s_worst s end) (manifolds_report E s)
  else mkReport EStarted None (manifolds_report E s).

(** engine.go:235-244 [Wait], once the tomb is dead *)
Definition wait_result (E : env) (s : state) : option err :=
  match tomb_err (s_tomb s) with
  | Some e => Some e
  | None => match c_filter (e_cfg E) with Some f => f (s_worst s) | None => s_worst s end
  end.

(** engine.go:253-266, the second case of Report on a dead engine *)
Definition dead_report (E : env) (s : state) : report :=
  mkReport EStopped (wait_result E s) (manifolds_report E s).

(** engine.go:437-440: whether the context of attempt [g] is done; it is derived from a cancellable context
    and from the tomb (tomb.Context), so that it ends with either. *)
Definition ctx_done (s : state) (g : nat) : bool := dying s || bool_decide (g ∈ s_cancelled s).

Inductive label :=
  | LKill                                   (* :230 a client calls Kill *)
  | LTick (d : Z)                           (* the clock advances *)
  | LInstall (n : string) (m : manifold)    (* :327, :213 Install handled by the loop *)
  | LInstallRefused (n : string) (m : manifold)   (* :325 Install refused *)
  | LReport                                 (* :250, :210 *)
  | LReportDead                             (* :253 *)
  | LWait                                   (* :235 Wait returns *)
  | LDying                                  (* :205 *)
  | LDelayFire (g : nat)                    (* :527 *)
  | LAbort (g : nat)                        (* :523, :525 *)
  | LGet (g : nat) (n : string) (out : option nat)  (* a client uses the getter of attempt g *)
  | LStartRet (g : nat) (r : worker + err)  (* :530 Start returns *)
  | LExpire (g : nat)                       (* :520, :534-542 *)
  | LStarted (g : nat)                      (* :549, :216 *)
  | LStartedDying (g : nat)                 (* :544 *)
  | LExit (g : nat) (e : option err)        (* :565 worker.Wait returns *)
  | LSelfDying (g : nat)                    (* :561 *)
  | LStopped (g : nat).                     (* :569, :218 *)

(** engine.go:201-331, 512-575. *)
Definition step (E : env) (s : state) (l : label) : option state :=
  match l with
  | LKill => Some (kill_tomb None s)
  | LTick d => if 0 <=? d then Some (s <| s_now ::= Z.add d |>) else None
  | LInstall n m =>
    if s_running s then
      let '(r, s1) := got_install E n m s in
      Some (end_iteration E (emit (EvInstall n m r) s1))
    else None
  | LInstallRefused n m =>
    if dying s then Some (emit (EvInstall n m (Some (EMsg MsgShuttingDown))) s) else None
  | LReport =>
    if s_running s then
      let s1 := poll E s in
      Some (end_iteration E (emit (EvReport (live_report E s1)) s1))
    else None
  | LReportDead => if t_dead (s_tomb s) then Some (emit (EvReport (dead_report E s)) s) else None
  | LWait => if t_dead (s_tomb s) then Some (emit (EvWait (wait_result E s)) s) else None
  | LDying =>
    if s_running s && s_oneShot s && dying s then Some (end_iteration E (stop_all E s)) else None
  | LDelayFire g =>
    match s_gors s !! g with
    | Some (mkGor n f _ _ _ (PDelay ready)) =>
      if ready <=? s_now s then Some (emit (EvStartCall g n f (s_now s)) (set_pc g PStart s)) else None
    | _ => None
    end
  | LAbort g =>
    match s_gors s !! g with
    | Some (mkGor _ _ _ _ _ (PDelay _)) =>
      if dying s || ctx_done s g then
        Some (set_pc g (PSendStopped (Some (EConst KStartAborted)))
               (s <| s_gors ::= alter (fun r => r <| g_expired := true |>) g |>))
      else None
    | _ => None
    end
  | LGet g n out =>
    match s_gors s !! g with
    | Some r =>
      let '(e, call, alog) := snapshot_get (e_outf E) (g_snap r) (g_expired r) (g_access r) n out in
      Some (emit (EvGet g n out e call) (s <| s_gors ::= <[g := r <| g_access := alog |>]> |>))
    | None => None
    end
  | LStartRet g r =>
    match s_gors s !! g with
    | Some (mkGor n _ _ _ _ PStart) => Some (emit (EvStartRet g n r) (set_pc g (PReturned r) s))
    | _ => None
    end
  | LExpire g =>
    match s_gors s !! g with
    | Some (mkGor _ _ _ _ _ (PReturned r)) =>
      let p := match r with
               | inl w => PSendStarted w
               | inr e => if err_is e (EConst KStartAborted)
                          then PSendStopped (Some (EConst KStartAborted)) else PSendStopped (Some e)
               end in
      Some (set_pc g p (s <| s_gors ::= alter (fun r => r <| g_expired := true |>) g |>))
    | _ => None
    end
  | LStarted g =>
    match s_gors s !! g with
    | Some (mkGor n _ _ _ alog (PSendStarted w)) =>
      if s_running s then
        let s1 := set_pc g (match w with WSelf => PSelf | WExt _ => PWait w end) s in
        Some (end_iteration E (got_started E g n w alog s1))
      else None
    | _ => None
    end
  | LStartedDying g =>
    match s_gors s !! g with
    | Some (mkGor n _ _ _ _ (PSendStarted w)) =>
      if dying s then
        Some (kill_worker g n w (set_pc g (match w with WSelf => PSelf | WExt _ => PWait w end) s))
      else None
    | _ => None
    end
  | LExit g e =>
    match s_gors s !! g with
    | Some (mkGor n _ _ _ _ (PWait w)) => Some (emit (EvExit g n e) (set_pc g (PSendStopped e) s))
    | _ => None
    end
  | LSelfDying g =>
    match s_gors s !! g with
    | Some (mkGor n _ _ _ _ PSelf) =>
      if dying s then
        Some (emit (EvExit g n (Some ETombDying)) (set_pc g (PSendStopped (Some ETombDying)) s))
      else None
    | _ => None
    end
  | LStopped g =>
    match s_gors s !! g with
    | Some (mkGor n _ _ _ alog (PSendStopped e)) =>
      if s_running s then
        let s1 := set_pc g PGone s in
        Some (end_iteration E (got_stopped E g n e alog s1))
      else None
    | _ => None
    end
  end.

(** Executions of engine.go: any interleaving. *)
Fixpoint run (E : env) (s : state) (ls : list label) : option state :=
  match ls with
  | [] => Some s
  | l :: ls' => match step E s l with Some s' => run E s' ls' | None => None end
  end.

(** As above (engine.go). *)
Definition reachable (E : env) (s : state) : Prop := exists ls, run E init ls = Some s.
