(** Specification vocabulary for the engine: what an observer of the event log can say.
    A log lists events newest first; a log [l = pre ++ ev :: post] means that [post] is what had happened
    when [ev] occurred, and [pre] is what happened later. *)
From stdpp Require Import gmap strings list relations.
From Coq Require Import ZArith.
From Verif Require Import Err Snapshot Engine.

(** The manifold installed under a name. *)
Fixpoint installed (log : list event) (n : string) : option manifold :=
  match log with
  | [] => None
  | EvInstalled n' m :: log' => if bool_decide (n' = n) then Some m else installed log' n
  | EvUninstall n' :: log' => if bool_decide (n' = n) then None else installed log' n
  | _ :: log' => installed log' n
  end.

(** The worker currently registered for a name, with the number of its start attempt. *)
Fixpoint registered (log : list event) (n : string) : option (nat * worker) :=
  match log with
  | [] => None
  | EvRegister g n' w _ :: log' => if bool_decide (n' = n) then Some (g, w) else registered log' n
  | EvStopped _ n' _ _ _ :: log' => if bool_decide (n' = n) then None else registered log' n
  | _ :: log' => registered log' n
  end.

(** How many workers were ever registered for a name. *)
Fixpoint registrations (log : list event) (n : string) : nat :=
  match log with
  | [] => 0
  | EvRegister _ n' _ _ :: log' => (if bool_decide (n' = n) then 1 else 0) + registrations log' n
  | _ :: log' => registrations log' n
  end.

(** The newest start attempt for a name: its number, its snapshot, and the log when it was launched. *)
Fixpoint last_attempt (log : list event) (n : string) : option (nat * snap * list event) :=
  match log with
  | [] => None
  | EvAttempt g n' sn _ _ :: log' => if bool_decide (n' = n) then Some (g, sn, log') else last_attempt log' n
  | _ :: log' => last_attempt log' n
  end.

(** The start attempt for a name whose end the engine has not yet processed. *)
Fixpoint in_progress (log : list event) (n : string) : option nat :=
  match log with
  | [] => None
  | EvAttempt g n' _ _ _ :: log' => if bool_decide (n' = n) then Some g else in_progress log' n
  | EvStopped _ n' _ _ _ :: log' => if bool_decide (n' = n) then None else in_progress log' n
  | _ :: log' => in_progress log' n
  end.

(** The newest end of an attempt for a name since it was installed: attempt, raw error and filtered error. *)
Fixpoint last_end (log : list event) (n : string) : option (nat * option err * option err) :=
  match log with
  | [] => None
  | EvInstalled n' _ :: log' => if bool_decide (n' = n) then None else last_end log' n
  | EvStopped g n' raw e _ :: log' => if bool_decide (n' = n) then Some (g, raw, e) else last_end log' n
  | _ :: log' => last_end log' n
  end.

(** Kill was called on the engine (by anybody), or a fatal error was seen. *)
Definition is_dying (log : list event) : Prop := EvDying ∈ log.

(** The engine asked this attempt (or its worker) to stop. *)
Definition asked_to_stop (log : list event) (g : nat) : Prop := exists n, EvCancel g n ∈ log.

(** Start was called for this attempt / has returned / returned a worker whose Wait has returned. *)
Definition start_called (log : list event) (g : nat) : Prop := exists n f t, EvStartCall g n f t ∈ log.
Definition start_failed (log : list event) (g : nat) : Prop := exists n e, EvStartRet g n (inr e) ∈ log.
Definition worker_exited (log : list event) (g : nat) : Prop := exists n e, EvExit g n e ∈ log.
(** ... and nothing of it is left running *)
Definition finished (log : list event) (g : nat) : Prop := start_failed log g \/ worker_exited log g.

(** The fatal errors seen, combined by WorstError, oldest first. *)
Fixpoint worst_of (cfg : config) (log : list event) : option err :=
  match log with
  | [] => None
  | EvStopped _ _ _ e _ :: log' =>
    if c_isFatal cfg e then c_worstError cfg e (worst_of cfg log') else worst_of cfg log'
  | _ :: log' => worst_of cfg log'
  end.

(** Number of registrations / RecordStart calls of a name since it was installed. *)
Fixpoint starts_since_install (log : list event) (n : string) : nat :=
  match log with
  | [] => 0
  | EvInstalled n' _ :: log' => if bool_decide (n' = n) then 0 else starts_since_install log' n
  | EvRegister _ n' _ _ :: log' => (if bool_decide (n' = n) then 1 else 0) + starts_since_install log' n
  | _ :: log' => starts_since_install log' n
  end.
Fixpoint metrics_since_install (log : list event) (n : string) : nat :=
  match log with
  | [] => 0
  | EvInstalled n' _ :: log' => if bool_decide (n' = n) then 0 else metrics_since_install log' n
  | EvMetric n' :: log' => (if bool_decide (n' = n) then 1 else 0) + metrics_since_install log' n
  | _ :: log' => metrics_since_install log' n
  end.

(** When the worker registered for a name was registered. *)
Fixpoint registered_at (log : list event) (n : string) : option Z :=
  match log with
  | [] => None
  | EvRegister _ n' _ t :: log' => if bool_decide (n' = n) then Some t else registered_at log' n
  | EvStopped _ n' _ _ _ :: log' => if bool_decide (n' = n) then None else registered_at log' n
  | _ :: log' => registered_at log' n
  end.

(** The consecutive-error count of a manifold (C20), from the history of its ends. *)
Fixpoint error_count (cfg : config) (log : list event) (n : string) : nat :=
  match log with
  | [] => 0
  | EvInstalled n' _ :: log' => if bool_decide (n' = n) then 0 else error_count cfg log' n
  | EvStopped _ n' raw _ t :: log' =>
    if bool_decide (n' = n) then
      match raw with
      | None => 0
      | Some _ =>
        if is_const raw KStartAborted || is_const raw KMissing then 1
        else match registered_at log' n with
             | Some t0 => if (c_backoffReset cfg <=? t - t0)%Z then 1 else S (error_count cfg log' n)
             | None => S (error_count cfg log' n)
             end
      end
    else error_count cfg log' n
  | _ :: log' => error_count cfg log' n
  end.

(** The delay of an attempt with base delay [base] (see Backoff.v for [e_delay]). *)
Definition attempt_delay (E : env) (g : nat) (base : Z) (count : nat) : Z :=
  if (0 <? base)%Z then e_delay E g base count else base.

(** [n] is installed and lists [x] in its Inputs. *)
Definition depends_on (log : list event) (n x : string) : Prop :=
  exists m, installed log n = Some m /\ x ∈ m_inputs m.

(** The manifold that was installed under the attempt's name when attempt [g] was launched. *)
Fixpoint attempt_manifold (log : list event) (g : nat) : option manifold :=
  match log with
  | [] => None
  | EvAttempt g' n _ _ _ :: log' => if bool_decide (g' = g) then installed log' n else attempt_manifold log' g
  | _ :: log' => attempt_manifold log' g
  end.

(** A worker was registered for, or an attempt ended for, the name [x]. *)
Definition changes (ev : event) (x : string) : Prop :=
  match ev with
  | EvRegister _ n _ _ => n = x
  | EvStopped _ n _ _ _ => n = x
  | _ => False
  end.

(** The name of the manifold whose start attempt or worker an event is about. *)
Definition ev_name (ev : event) : option string :=
  match ev with
  | EvAttempt _ n _ _ _ | EvStartCall _ n _ _ | EvStartRet _ n _ | EvRegister _ n _ _ | EvMetric n
  | EvCancel _ n | EvKill _ n _ | EvExit _ n _ | EvStopped _ n _ _ _ => Some n
  | _ => None
  end.

(** What an observer concludes about the state of an installed manifold (engine.go:812-822). *)
Definition observed_state (log : list event) (n : string) (st : wstate) : Prop :=
  match registered log n with
  | Some (g, _) => (asked_to_stop log g /\ st = SStopping) \/ (~ asked_to_stop log g /\ st = SStarted)
  | None => match in_progress log n with Some _ => st = SStarting | None => st = SStopped end
  end.

(** Errors after which a manifold is left alone: nil, ErrMissing, and errAborted *)
Definition terminal (e : option err) : bool :=
  match e with
  | None => true
  | Some e => err_is e (EConst KStartAborted) || err_is e (EConst KMissing)
  end.

(** The newest start or stop notification in the log is about the worker of this name that appeared or disappeared
    (an attempt that ended without a registered worker is neither), and nothing was installed since. *)
Fixpoint last_change (log : list event) : option string :=
  match log with
  | [] => None
  | EvInstalled _ _ :: _ => None
  | EvRegister _ n _ _ :: _ => Some n
  | EvStopped _ n _ _ _ :: log' => match registered log' n with Some _ => Some n | None => None end
  | _ :: log' => last_change log'
  end.

(** The delay with which a manifold that was not asked to stop is restarted after the error [e], if it is. *)
Definition restart_delay (cfg : config) (e : option err) : option Z :=
  if terminal e then None
  else if is_const e KBounce then Some (c_bounceDelay cfg)
  else if is_const e KUninstall then None
  else Some (c_errorDelay cfg).

(** Why an attempt for [n] was launched with base delay [base], given the log at that time: it was just
    installed, or the worker of an input appeared or disappeared, or its own previous attempt just ended. *)
Definition launch_why (cfg : config) (post : list event) (n : string) (base : Z) : Prop :=
  (base = 0%Z /\ exists m l, post = EvInstalled n m :: l) \/
  (base = c_bounceDelay cfg /\ exists x, last_change post = Some x /\ depends_on post n x) \/
  (exists g raw e t l, post = EvStopped g n raw e t :: l /\
    ((asked_to_stop post g /\ base = c_bounceDelay cfg) \/
     (~ asked_to_stop post g /\ restart_delay cfg e = Some base))).

(** The launch of attempt [g]: name, snapshot, and the log at that time. *)
Fixpoint attempt_of (log : list event) (g : nat) : option (string * snap * list event) :=
  match log with
  | [] => None
  | EvAttempt g' n sn _ _ :: log' => if bool_decide (g' = g) then Some (n, sn, log') else attempt_of log' g
  | _ :: log' => attempt_of log' g
  end.

(** The engine has seen attempt [g]'s Start func return: its worker was registered or killed, or has finished,
    or the end of the attempt was processed. *)
Definition start_done (log : list event) (g : nat) : Prop :=
  exists ev, ev ∈ log /\
    match ev with
    | EvRegister g' _ _ _ | EvKill g' _ _ | EvExit g' _ _ | EvStopped g' _ _ _ _ => g' = g
    | _ => False
    end.

(** What Get must return according to interface.go:92-101, for a snapshot of the inputs. *)
Definition get_spec (outf : outputs) (sn : snap) (name : string) (out : option nat)
    (r : option err) (call : option (nat * worker * nat)) : Prop :=
  match sn_workers sn !! name with
  | None | Some None => is_const r KMissing = true /\ call = None      (* not declared, or not running *)
  | Some (Some w) =>
    match out, sn_outputs sn !! name with
    | None, _ => r = None /\ call = None                              (* only asked for presence *)
    | Some t, Some (Some f) => r = outf f w t /\ call = Some (f, w, t)
    | Some t, _ => is_const r KMissing = true /\ call = None          (* no Output func *)
    end
  end.

(** Where the error that ends attempt [g] came from: the worker's Wait, a failed Start, or a start that was
    abandoned before Start was called, because the engine is dying or asked for it. *)
Definition end_cause (log : list event) (g : nat) (n : string) (raw : option err) : Prop :=
  EvExit g n raw ∈ log \/
  (exists e, EvStartRet g n (inr e) ∈ log /\
    raw = Some (if err_is e (EConst KStartAborted) then EConst KStartAborted else e)) \/
  (raw = Some (EConst KStartAborted) /\ ~ start_called log g /\ (is_dying log \/ asked_to_stop log g)).

(** The error after the Filter of the manifold installed under the name. *)
Definition after_filter (log : list event) (n : string) (raw : option err) : option err :=
  match installed log n with
  | Some m => match m_filter m with Some f => f raw | None => raw end
  | None => raw
  end.

(** The error Report shows for a manifold: that of its last end, unless an attempt is in progress. *)
Definition shown_error (log : list event) (n : string) : option err :=
  match in_progress log n with
  | Some _ => None
  | None => match last_end log n with Some (_, _, e) => e | None => None end
  end.

(** What the registered worker of a name reports about itself, now, if it is a Reporter; the engine is not asked. *)
Definition own_report (E : env) (log : list event) (n : string) : option nat :=
  match registered log n with
  | Some (_, WExt w) => if e_reporter E w then Some (e_wreport E (length log) w) else None
  | Some (_, WSelf) | None => None
  end.

(** What Report must say about an installed manifold (engine.go:295-319). *)
Definition mreport_spec (E : env) (log : list event) (n : string) (m : manifold) (mr : mreport) : Prop :=
  observed_state log n (mr_state mr) /\
  mr_inputs mr = m_inputs m /\
  mr_startCount mr = (if (0 <? starts_since_install log n)%nat then Some (starts_since_install log n) else None) /\
  mr_started mr = registered_at log n /\
  mr_error mr = shown_error log n /\
  mr_report mr = own_report E log n.

(** What Report must say (engine.go:247-290), given the events so far. *)
Definition report_spec (E : env) (log : list event) (r : report) : Prop :=
  let cfg := e_cfg E in
  (forall n, match installed log n, rp_manifolds r !! n with
             | Some m, Some mr => mreport_spec E log n m mr
             | None, None => True
             | _, _ => False
             end) /\
  match rp_state r with
  | EStarted => ~ is_dying log /\ rp_error r = None
  | EStopping => is_dying log /\ EvDead ∉ log /\ rp_error r = worst_of cfg log
  | EStopped => EvDead ∈ log /\
      rp_error r = match c_filter cfg with Some f => f (worst_of cfg log) | None => worst_of cfg log end
  end.

(** A manifold [k] has reacted to an event, [pre] being what happened since and [post] what had happened before:
    if it was idle an attempt was launched, otherwise its attempt in progress was asked to stop. *)
Definition served (log pre post : list event) (k : string) : Prop :=
  match in_progress post k with
  | None => exists g sn t d, EvAttempt g k sn t d ∈ pre
  | Some g => asked_to_stop log g
  end.

(** The worker of [n] appeared or disappeared *)
Definition came_or_went (ev : event) (post : list event) (n : string) : Prop :=
  match ev with
  | EvRegister _ n' _ _ => n' = n
  | EvStopped _ n' _ _ _ => n' = n /\ registered post n <> None
  | _ => False
  end.

(** After the end of attempt [g] with (filtered) error [e] the manifold is to be started again with base delay
    [base]: the engine had asked for the stop, or the error says so. *)
Definition restarts (cfg : config) (post : list event) (g : nat) (e : option err) (base : Z) : Prop :=
  (asked_to_stop post g /\ base = c_bounceDelay cfg) \/ (~ asked_to_stop post g /\ restart_delay cfg e = Some base).

(** ... it is to be uninstalled *)
Definition uninstalls (post : list event) (g : nat) (e : option err) : Prop :=
  ~ asked_to_stop post g /\ terminal e = false /\ is_const e KBounce = false /\ is_const e KUninstall = true.

(** Installing [m] as [n] on top of what is installed would make a cycle of dependencies. *)
Definition would_cycle (log : list event) (n : string) (m : manifold) : Prop :=
  exists a, tc (fun a b => (a = n /\ b ∈ m_inputs m) \/ depends_on log a b) a a.
