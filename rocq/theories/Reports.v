(** Reports of workers made of workers. Report of an engine runs in its loop (dependency/engine.go:210, :247-319), Report of a runner
    holds its mutex (runner.go:672-697); both call the Report methods of their workers meanwhile, which may be engines and
    runners again. Here a Report takes its time: the calls go down into the workers of Tree.v one by one, while everything else
    goes on, except what needs a loop or a mutex that is busy with a report. Engine.v and Runner.v alone do a report at once.
    Simplifications: a worker that is an engine or a runner forwards Report to it; the Report method of another
    worker may call Report on workers of its catacomb, and returns; the values in a report are as in Engine.v and Runner.v. The event
    [EvReport] that Engine.v logs is logged when the report is complete; what the caller gets is the [rtree]. *)
From stdpp Require Import gmap strings list.
From RecordUpdate Require Import RecordSet.
From Verif Require Import Err Tomb Tree.
From Verif Require Snapshot Engine EngineSpec Runner.
Import RecordSetNotations.

(** ** What a report says *)
(** engine.go:279-318, runner.go:678-691: all but the nested reports (:313, :688). *)
Definition bare (r : Engine.mreport) : Engine.mreport :=
  Engine.mkMReport (Engine.mr_state r) (Engine.mr_inputs r) (Engine.mr_startCount r) (Engine.mr_started r) (Engine.mr_error r) None.
Inductive table :=
  | TEngine (m : gmap string Engine.mreport)
  | TRunner (m : gmap string Runner.rreport)
  | TUser.                                        (* whatever another worker says *)
Definition table_of (nd : node) : table :=
  match nd with
  | NEngine E s => TEngine (bare <$> Engine.manifolds_report E s)
  | NRunner _ s => TRunner (Runner.report_of (fun _ => None) <$> Runner.c_workers (Runner.s_core s))
  | _ => TUser
  end.
(** engine.go:256, :264, :272-289: the state and the error in an engine's report. *)
Definition head_of (nd : node) : option (Engine.estate * option err) :=
  match nd with
  | NEngine E s => let r := if t_dead (Engine.s_tomb s) then Engine.dead_report E s else Engine.live_report E s in
                   Some (Engine.rp_state r, Engine.rp_error r)
  | _ => None
  end.
(** A whole report: of the worker itself, and of its workers (by number, as in Tree.v). engine.go:271-320, runner.go:672-696. *)
Inductive rtree := RT (hd : option (Engine.estate * option err)) (tb : table) (kids : list (nat * rtree)).

(** Whose Report is called (engine.go:310-314: if it is a Reporter other than the engine; runner.go:684-690; a worker of a runner without a Report method counts as one whose report is empty). In Engine.v the field
    [worker] of workerInfo does not say which attempt brought the worker; the log does. *)
Definition reporters (nd : node) : list nat :=
  match nd with
  | NEngine E s =>
    omap (fun n => match EngineSpec.registered (Engine.s_log s) n with
                   | Some (g, Snapshot.WExt w) => if Engine.e_reporter E w then Some g else None
                   | _ => None end) (map_to_list (Engine.s_current s)).*1
  | NRunner _ s => omap (fun x => fst <$> Runner.i_worker x.2) (map_to_list (Runner.c_workers (Runner.s_core s)))
  | _ => []
  end.

(** ** The calls *)
(** A Report method that is running: on which worker; does it keep the loop or the mutex busy; what it has collected; which
    workers it has not called yet. *)
Record frame := mkFrame { fr_node : nat; fr_locks : bool; fr_head : option (Engine.estate * option err); fr_table : table;
  fr_todo : list nat; fr_kids : list (nat * rtree) }.
(** Where a call is. Of the Report methods that it has gone through, each waits for the one of its worker number [k]. *)
Inductive rpc :=
  | Entering (n : nat) (st : list (nat * frame))      (* engine.go:250, runner.go:674: Report of [n] was called *)
  | Inside (f : frame) (st : list (nat * frame))
  | Returned (n : nat) (t : rtree).
Record rstate := mkRState {
  r_forest : forest;
  r_calls : gmap nat rpc;
  r_lock : gmap nat nat       (* the loop of this engine, the mutex of this runner is busy with that report *)
}.
Global Instance eta_rstate : Settable _ := settable! mkRState <r_forest; r_calls; r_lock>.
(** No worker yet, no call of Report (engine.go:247, runner.go:672). *)
Definition rinit : rstate := mkRState finit ∅ ∅.

(** A step that needs the loop (engine.go:203-219) or the mutex: one that is not possible if somebody else has locked it. *)
Definition needs (nd : node) (l : nlabel) : bool :=
  match nd, l with
  | NEngine _ _, LEngine l =>
    match l with
    | Engine.LInstall _ _ | Engine.LReport | Engine.LDying | Engine.LStarted _ | Engine.LStopped _ => true
    | _ => false
    end
  | NRunner P s, LRunner l => match Runner.step P (s <| Runner.s_mu := Some 0 |>) l with None => true | Some _ => false end
  | _, _ => false
  end.
(** engine.go:203-219, runner.go:57. *)
Definition blocked (R : rstate) (l : flabel) : bool :=
  match l with
  | FStep m l _ => match f_nodes (r_forest R) !! m, r_lock R !! m with Some nd, Some _ => needs nd l | _, _ => false end
  | _ => false
  end.

Definition frame_of (n : nat) (nd : node) (locks : bool) (todo : list nat) : frame :=
  mkFrame n locks (head_of nd) (table_of nd) todo [].
(** engine.go:249-252 (accepted by the loop), :253 (the engine is dead); runner.go:674 (locked); another worker, whose Report calls
    that of its workers [ks]. *)
Definition enter (R : rstate) (n : nat) (ks : list nat) : option frame :=
  match f_nodes (r_forest R) !! n with
  | None => None
  | Some nd =>
    let free := bool_decide (r_lock R !! n = None) in
    match nd with
    | NEngine _ s => if Engine.s_running s then if free then Some (frame_of n nd true (reporters nd)) else None
                     else if t_dead (Engine.s_tomb s) then Some (frame_of n nd false (reporters nd)) else None
    | NRunner _ s => if free && bool_decide (Runner.s_mu s = None) then Some (frame_of n nd true (reporters nd)) else None
    | _ => if forallb (fun k => bool_decide (is_Some (f_link (r_forest R) !! (n, k)))) ks then Some (frame_of n nd false ks) else None
    end
  end.
(** The report is complete: the loop goes on (engine.go:212, :221), the mutex is unlocked (runner.go:675). *)
Definition report_label (nd : node) : option nlabel :=
  match nd with
  | NEngine _ s => Some (LEngine (if t_dead (Engine.s_tomb s) then Engine.LReportDead else Engine.LReport))
  | NRunner _ _ => Some (LRunner (Runner.LReport (fun _ => None)))
  | _ => None
  end.
(** engine.go:212, 265, runner.go:695: Report returns, its event is logged. *)
Definition leave (F : forest) (m : nat) : option forest :=
  match f_nodes F !! m with
  | None => None
  | Some nd => match report_label nd with Some l => fstep F (FStep m l []) | None => Some F end
  end.

Inductive rlabel :=
  | RForest (l : flabel)                    (* anything else *)
  | RCall (i n : nat)                       (* somebody calls Report *)
  | REnter (i : nat) (ks : list nat)
  | RAsk (i k : nat)                        (* engine.go:313, runner.go:686 *)
  | RLeave (i : nat).                       (* Report of a worker returns *)

(** engine.go:247-320, runner.go:672-696. *)
Definition rstep (R : rstate) (l : rlabel) : option rstate :=
  match l with
  | RForest l => if blocked R l then None else match fstep (r_forest R) l with Some F => Some (R <| r_forest := F |>) | None => None end
  | RCall i n =>
    match r_calls R !! i, f_nodes (r_forest R) !! n with
    | None, Some nd => if ready nd then Some (R <| r_calls ::= <[i := Entering n []]> |>) else None
    | _, _ => None
    end
  | REnter i ks =>
    match r_calls R !! i with
    | Some (Entering n st) =>
      match enter R n ks with
      | Some f => Some (R <| r_calls ::= <[i := Inside f st]> |> <| r_lock ::= if fr_locks f then <[n := i]> else id |>)
      | None => None
      end
    | _ => None
    end
  | RAsk i k =>
    match r_calls R !! i with
    | Some (Inside f st) =>
      if negb (bool_decide (k ∈ fr_todo f)) then None else
      match f_link (r_forest R) !! (fr_node f, k) with
      | Some c => Some (R <| r_calls ::= <[i := Entering c
          ((k, mkFrame (fr_node f) (fr_locks f) (fr_head f) (fr_table f) (list_difference (fr_todo f) [k]) (fr_kids f)) :: st)]> |>)
      | None => None
      end
    | _ => None
    end
  | RLeave i =>
    match r_calls R !! i with
    | Some (Inside f st) =>
      match fr_todo f, leave (r_forest R) (fr_node f) with
      | [], Some F =>
        let t := RT (fr_head f) (fr_table f) (fr_kids f) in
        Some (R <| r_forest := F |> <| r_lock ::= if fr_locks f then delete (fr_node f) else id |> <| r_calls ::= <[i :=
          match st with
          | [] => Returned (fr_node f) t
          | (k, g) :: st' => Inside (mkFrame (fr_node g) (fr_locks g) (fr_head g) (fr_table g) (fr_todo g) (fr_kids g ++ [(k, t)])) st'
          end]> |>)
      | _, _ => None
      end
    | _ => None
    end
  end.
(** As in Tree.v (engine.go:132, runner.go:206): new workers are fresh. *)
Definition rok (l : rlabel) : Prop := match l with RForest l => fok l | _ => True end.
(** Executions (engine.go:247-320, runner.go:672-696). *)
Fixpoint rrun (R : rstate) (ls : list rlabel) : option rstate :=
  match ls with [] => Some R | l :: ls' => match rstep R l with Some R' => rrun R' ls' | None => None end end.
(** As above (engine.go:247-320, runner.go:672-696). *)
Definition rreachable (R : rstate) : Prop := exists ls, Forall rok ls /\ rrun rinit ls = Some R.
