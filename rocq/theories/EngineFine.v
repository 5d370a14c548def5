(** Fine-grained model of the loop goroutine of dependency/engine.go.

    In [Engine.step] a message is received and handled in one atomic step.  Here the handler runs as a
    sequence of small actions, and clients (Kill, Install) and runWorker goroutines take steps between any
    two of them.  The loop goroutine alone touches [engine.manifolds], [dependents], [current] and
    [worstError] (engine.go:195-227); it shares the tomb, the contexts it cancels and the goroutines it starts.

    [act] is the code the loop has still to run: a stack of calls, each cut where the code calls another
    function, polls the tomb, or acts on something another goroutine can see.

    Simplifications: the clock does not advance while a message is handled, and a report is assembled at once
    ([FRecv LReport]); logging is dropped. *)
From stdpp Require Import gmap strings list.
From Coq Require Import ZArith.
From RecordUpdate Require Import RecordSet.
From Verif Require Import Err Tomb Order Validate Snapshot Engine.
Import RecordSetNotations.
Local Open Scope Z_scope.

Inductive act :=
  | AStart (n : string) (d : Z)               (* requestStart (:379) *)
  | AStart2 (n : string) (d : Z)              (* :388 *)
  | AStart3 (n : string) (d : Z)              (* :394 *)
  | ALaunch (n : string) (d : Z)              (* :402 *)
  | AStop (n : string)                        (* requestStop (:727) *)
  | ACancel (c : nat) (n : string)            (* :738 *)
  | AKill (g : nat) (n : string) (w : worker) (* worker.Kill() (:742, :588) *)
  | AKillSelf                                 (* engine.tomb.Kill(nil) (:231, :661) *)
  | AComplain (m : msg)                       (* engine.tomb.Kill(errors.Errorf("fatal: ...")) *)
  | ASet (n : string) (i : info)              (* engine.current[name] = info (:744, :665) *)
  | ABounces (n : string)                     (* bounceDependents (:773) *)
  | ABounce (d : string)                      (* :775 *)
  | AInstall (n : string) (m : manifold)      (* gotInstall (:335) *)
  | AAnswer (n : string) (m : manifold) (r : option err) (* ticket.result <- ... (:215) *)
  | AStarted (g : nat) (n : string) (w : worker) (al : list access) (* gotStarted (:578) *)
  | AStarted2 (g : nat) (n : string) (w : worker) (al : list access) (* :586 *)
  | ARegister (g : nat) (n : string) (w : worker) (al : list access) (* :591 *)
  | AStopped (g : nat) (n : string) (raw : option err) (al : list access) (* gotStopped (:615) *)
  | AWorst (e : option err)                   (* :660 *)
  | AStopped2 (n : string) (stopping had : bool) (e : option err) (* :673 *)
  | AAfter (n : string) (e : option err)      (* :684 *)
  | AUninstall (n : string)                   (* uninstall (:353) *)
  | AStopAll                                  (* :205 *)
  | AEnd.                                     (* :221 *)

(** One action of the loop: the calls it makes next, and the new state. *)
Definition act_step (E : env) (a : act) (s : state) : list act * state :=
  match a with
  (* engine.go:382-385 *)
  | AStart n d =>
    (match s_manifolds s !! n with Some _ => [] | None => [AComplain (MsgUnknownManifold n)] end ++ [AStart2 n d], s)
  (* engine.go:388-391 *)
  | AStart2 n d =>
    ((if i_stopped (info_of s n) then [] else [AComplain (MsgSecondWorker n)]) ++ [AStart3 n d], s)
  (* engine.go:394-397 *)
  | AStart3 n d => let s1 := poll E s in (if dying s1 then [] else [ALaunch n d], s1)
  (* engine.go:402-432 *)
  | ALaunch n d => ([], launch E n d s)
  (* engine.go:729-744 *)
  | AStop n =>
    let i := info_of s n in
    if i_stopping i || i_stopped i then ([], s)
    else
      (match i_cancel i with Some c => [ACancel c n] | None => [] end ++
       match i_worker i with Some w => [AKill (default 0%nat (i_cancel i)) n w] | None => [] end ++
       [ASet n (i <| i_stopping := true |> <| i_cancel := None |>)], s)
  | ACancel c n => ([], emit (EvCancel c n) (s <| s_cancelled ::= union {[c]} |>))
  | AKill g n w => (match w with WSelf => [AKillSelf] | WExt _ => [] end, emit (EvKill g n w) s)
  | AKillSelf => ([], kill_tomb None s)
  | AComplain m => ([], kill_tomb (Some (EMsg m)) s)
  | ASet n i => ([], set_info n i s)
  (* engine.go:775-781 *)
  | ABounces n => (map ABounce (dependents_of s n), s)
  | ABounce d => ([if i_stopped (info_of s d) then AStart d (c_bounceDelay (e_cfg E)) else AStop d], s)
  (* engine.go:337-349 *)
  | AInstall n m =>
    match s_manifolds s !! n with
    | Some _ => ([AAnswer n m (Some (EMsg (MsgAlreadyInstalled n)))], s)
    | None =>
      match check_acyclic E n m s with
      | Some e => ([AAnswer n m (Some (EWrap (MsgCannotInstall n) e))], s <| s_polls ::= S |>)
      | None => ([AStart n 0; AAnswer n m None], record_manifold n m (s <| s_polls ::= S |>))
      end
    end
  | AAnswer n m r => ([], emit (EvInstall n m r) s)
  (* engine.go:581-606 *)
  | AStarted g n w al =>
    match i_worker (info_of s n) with
    | Some _ => ([AComplain (MsgUnexpectedStart n); AKill g n w], s)
    | None => (if i_stopping (info_of s n) then [AKill g n w] else [AStarted2 g n w al], s)
    end
  | AStarted2 g n w al =>
    let s1 := poll E s in (if dying s1 then [AKill g n w] else [ARegister g n w al], s1)
  | ARegister g n w al => ([ABounces n], register g n w al s)
  (* engine.go:617-672 *)
  | AStopped g n raw al =>
    let i := recent_errors (e_cfg E) (info_of s n) raw (s_now s) in
    let e := filtered s n raw in
    ((if i_stopped i then [AComplain (MsgUnexpectedStop n)]
      else if c_isFatal (e_cfg E) e then [AWorst e; AKillSelf] else []) ++
     [ASet n (mkInfo false false None None e al None (i_startCount i) (i_attempts i) (i_recent i));
      AStopped2 n (i_stopping (info_of s n)) (match i_worker (info_of s n) with Some _ => true | None => false end) e],
     emit (EvStopped g n raw e (s_now s)) s)
  | AWorst e => ([], s <| s_worst ::= c_worstError (e_cfg E) e |>)
  (* engine.go:673-722 *)
  | AStopped2 n stopping had e =>
    let s1 := poll E s in
    (if dying s1 then []
     else (if stopping then AStart n (c_bounceDelay (e_cfg E)) else AAfter n e) :: (if had then [ABounces n] else []), s1)
  (* engine.go:684-716 *)
  | AAfter n e =>
    (match e with
     | None => []
     | Some e' =>
       if err_is e' (EConst KStartAborted) then []
       else if err_is e' (EConst KMissing) then []
       else if err_is e' (EConst KBounce) then [AStart n (c_bounceDelay (e_cfg E))]
       else if err_is e' (EConst KUninstall) then [AUninstall n]
       else [AStart n (c_errorDelay (e_cfg E))]
     end, s)
  | AUninstall n => ([], uninstall E n s)
  (* engine.go:206-209 *)
  | AStopAll =>
    (map AStop (iter_order (e_rank E (s_polls s)) (map_to_list (s_current s)).*1),
     s <| s_oneShot := false |> <| s_polls ::= S |>)
  (* engine.go:221-225 *)
  | AEnd => ([], end_iteration E s)
  end.

(** engine.go:204-220: the loop receives a message; what it then has to do. *)
Definition recv (E : env) (s : state) (l : label) : option (list act * state) :=
  match l with
  | LInstall n m => if s_running s then Some ([AInstall n m; AEnd], s) else None
  | LReport =>
    if s_running s then
      let s1 := poll E s in Some ([AEnd], emit (EvReport (live_report E s1)) s1)
    else None
  | LDying => if s_running s && s_oneShot s && dying s then Some ([AStopAll; AEnd], s) else None
  | LStarted g =>
    match s_gors s !! g with
    | Some (mkGor n _ _ _ al (PSendStarted w)) =>
      if s_running s then
        Some ([AStarted g n w al; AEnd], set_pc g (match w with WSelf => PSelf | WExt _ => PWait w end) s)
      else None
    | _ => None
    end
  | LStopped g =>
    match s_gors s !! g with
    | Some (mkGor n _ _ _ al (PSendStopped e)) =>
      if s_running s then Some ([AStopped g n e al; AEnd], set_pc g PGone s) else None
    | _ => None
    end
  | _ => None
  end.

(** Who takes the steps of [Engine.step]: the loop, or other goroutines; the latter may step while the loop is
    busy, except for the clock (a simplification) and for what needs the loop to have returned. The loop is engine.go:201-227. *)
Inductive actor := ByLoop | ByOthers (while_busy : bool).
(** By the loop: engine.go:205-219. *)
Definition actor_of (l : label) : actor :=
  match l with
  | LInstall _ _ | LReport | LDying | LStarted _ | LStopped _ => ByLoop
  | LTick _ | LReportDead | LWait => ByOthers false
  | LKill | LInstallRefused _ _ | LDelayFire _ | LAbort _ | LGet _ _ _ | LStartRet _ _ | LExpire _
  | LStartedDying _ | LExit _ _ | LSelfDying _ => ByOthers true
  end.

(** engine.go:156-188, and where the loop (engine.go:201-227) is. *)
Record fstate := mkFine {
  f_s : state;
  f_todo : list act          (* what the loop has still to do before it waits for a message *)
}.
(** engine.go:132-153. *)
Definition finit : fstate := mkFine init [].

(** The environment of the fine model: Kill is a step of its own, so nothing is killed "just before a poll".
    engine.go:230-232. *)
Definition with_preempt (p : nat -> bool) (E : env) : env :=
  mkEnv (e_cfg E) p (e_rank E) (e_delay E) (e_outf E) (e_reporter E) (e_wreport E).
(** As above (engine.go:230-232). *)
Definition plain (E : env) : env := with_preempt (fun _ => false) E.

(** engine.go:203-225 by the loop; engine.go:230-331, 512-575 by others. *)
Inductive flabel :=
  | FOther (l : label)       (* a step of another goroutine *)
  | FRecv (l : label)        (* the loop receives a message *)
  | FLoop.                   (* the loop takes its next action *)

(** engine.go:203-225 by the loop; engine.go:230-331, 512-575 by others. *)
Definition fstep (E : env) (fs : fstate) (l : flabel) : option fstate :=
  match l, f_todo fs with
  | FOther l, todo =>
    match actor_of l, todo with
    | ByOthers true, _ | ByOthers false, [] =>
      match step (plain E) (f_s fs) l with Some s' => Some (mkFine s' todo) | None => None end
    | _, _ => None
    end
  | FRecv l, [] =>
    match recv (plain E) (f_s fs) l with Some (todo, s') => Some (mkFine s' todo) | None => None end
  | FLoop, a :: todo =>
    let '(push, s') := act_step (plain E) a (f_s fs) in Some (mkFine s' (push ++ todo))
  | _, _ => None
  end.

(** Executions (engine.go:201-331, 512-575). *)
Fixpoint frun (E : env) (fs : fstate) (ls : list flabel) : option fstate :=
  match ls with
  | [] => Some fs
  | l :: ls' => match fstep E fs l with Some fs' => frun E fs' ls' | None => None end
  end.
(** As above (engine.go:201-331, 512-575). *)
Definition freachable (E : env) (fs : fstate) : Prop := exists ls, frun E finit ls = Some fs.
