(** Model of runner.go: [Runner], its run loop, its runWorker goroutines, and its API callers.

    The state is split in two.  [core] is what the run loop, the runWorker goroutines and the tomb own, with
    [cstep]; [state] adds the callers of the API, the goroutines started by workerInfo, and the mutex, with [step].
    Every step of the full system is a step of the core, or none, plus bookkeeping of the callers.

    Steps: a goroutine runs without interruption between two places where another one can act: a channel
    operation, a critical section of [runner.mu], a broadcast, a user function, a look at the tomb.  Fields that
    only the run goroutine touches (runner.go:41, :48, :79) need no steps of their own.

    Not modelled: logging, pprof labels, notifyStarted (tests only), panics of user functions (they crash the
    program), user functions that call back into the runner with the mutex held (Kill, Report), the contents of
    worker reports, and Start funcs that return a nil worker with a nil error. *)
From stdpp Require Import gmap strings list.
From Coq Require Import ZArith.
From RecordUpdate Require Import RecordSet.
From Verif Require Import Err Tomb.
Import RecordSetNotations.

(** runner.go:146-186 [RunnerParams] as given; [None] is a nil func.  Clock and Logger are left out. *)
Record runner_params := mkParams {
  rp_name : string;
  rp_isFatal : option (err -> bool);
  rp_shouldRestart : option (err -> bool);
  rp_more : option (err -> err -> bool);       (* MoreImportant *)
  rp_restartDelay : Z
}.

(** The parameters after NewRunner filled in the defaults. runner.go:206-231. *)
Record rcfg := mkRCfg {
  r_isFatal : err -> bool;
  r_shouldRestart : err -> bool;
  r_more : err -> err -> bool;
  r_delay : Z                                  (* nanoseconds *)
}.

(** runner.go:19-21 [DefaultRestartDelay]: 3 seconds *)
Definition default_restart_delay : Z := 3000000000.

(** runner.go:189-194 [Validate] *)
Definition params_validate (p : runner_params) : option err :=
  if bool_decide (rp_name p = ""%string) then Some (ETyped TNotValid (MsgText "Name is required")) else None.

(** runner.go:206-235 [NewRunner], the parameters *)
Definition new_runner (p : runner_params) : rcfg + err :=
  match params_validate p with
  | Some e => inr e
  | None => inl (mkRCfg
      (default (fun _ => true) (rp_isFatal p))
      (default (fun _ => true) (rp_shouldRestart p))
      (default (fun _ _ => true) (rp_more p))
      (if bool_decide (rp_restartDelay p = 0%Z) then default_restart_delay else rp_restartDelay p))
  end.

(** runner.go:73-103 [workerInfo].  A worker is a pair: the goroutine that started it (for the log only: workers
    returned by different calls of a start func are told apart), and the number the start func gave it. *)
Record winfo := mkWInfo {
  i_worker : option (nat * nat);
  i_start : option nat;                        (* the start func *)
  i_delay : Z;                                 (* restartDelay *)
  i_stopping : bool;
  i_done : nat;                                (* the done channel *)
  i_started : Z
}.
Global Instance eta_winfo : Settable _ := settable! mkWInfo <i_worker; i_start; i_delay; i_stopping; i_done; i_started>.

(** runner.go:105-113 [status] *)
Inductive wstatus := StStopping | StStopped | StStarted.
(** runner.go:105-113 *)
Definition status (i : winfo) : wstatus :=
  match i_stopping i, i_worker i with
  | true, Some _ => StStopping
  | _, None => StStopped
  | _, _ => StStarted
  end.

(** Where a runWorker goroutine is (runner.go:620-665). *)
Inductive wpc :=
  | WBegin (d : Z)              (* :621 just started *)
  | WTimer (ready : Z)          (* :625 in the select *)
  | WStart                      (* :656 the start func is running *)
  | WSendStarted (w : nat)      (* :660 *)
  | WWait (w : nat)             (* :661 *)
  | WSendDone (e : option err)  (* :627, :654, :664 *)
  | WTaken (e : option err)     (* the loop received the doneInfo and has not handled it yet; the goroutine is gone *)
  | WLost                       (* left worker.Wait by runtime.Goexit: the deferred function does nothing (:642) *)
  | WGone.
Record wgor := mkWGor { w_id : string; w_fn : nat; w_ctx : option nat; w_pc : wpc }.
Global Instance eta_wgor : Settable _ := settable! mkWGor <w_id; w_fn; w_ctx; w_pc>.

(** What the run goroutine does next (runner.go:427-460). *)
Inductive lact :=
  | AKillAll                              (* :437, :532 *)
  | AStart (c : nat) (id : string) (f : nat)   (* :442 startWorker *)
  | AReply (c : nat) (r : option err)     (* :442 the send *)
  | AKill (id : string)                   (* :446 *)
  | ASet (g : nat) (w : nat)              (* :450 *)
  | ADone (g : nat)                       (* :456 *)
  | ABcast.                               (* :458 *)
Inductive lpc :=
  | LTop                                  (* :429 at the top of the loop, or in the select *)
  | LDo (a : lact)
  | LBlocked                              (* :566 the send on the done channel blocks, with the mutex held *)
  | LEnded.

(** API calls, their results *)
Inductive call := KStart (id : string) (f : nat) | KStop (id : string) | KWorker (id : string) | KStopRm (id : string).
Inductive result :=
  | RErr (e : option err)
  | RWorker (g w : nat)           (* Worker returned this worker *)
  | RRemoved (e : option err).    (* StopAndRemoveWorker returned the worker's error, runner.go:301 *)
(** What getWorker found (runner.go:350-358): nothing, or the worker and its done channel. *)
Inductive got := GNotFound | GWorker (g w d : nat).
(** One entry of a report (runner.go:677-691); [rr_report]: the nested report. *)
Record rreport := mkRReport { rr_status : wstatus; rr_started : Z; rr_report : option nat }.

(** Things callers do, in the log. runner.go:254-425, 672-696; the log itself has no counterpart. *)
Inductive cevent :=
  | CvCall (c : nat) (k : call)
  | CvLookup (c : nat) (id : string) (r : got)     (* getWorker, with a result, on behalf of c *)
  | CvKill (c : nat) (g w : nat)                   (* StopAndRemoveWorker killed the worker *)
  | CvRet (c : nat) (k : call) (r : result)
  | CvNames (ns : gset string)
  | CvReport (rep : nat -> option nat) (m : gmap string rreport)  (* [rep]: what the workers that are reporters answered, if not empty *)
  | CvWait (e : option err).

(** Observable events. Of runner.go:254-665; the log itself has no counterpart. *)
Inductive event :=
  | EvAnswer (c : nat) (id : string) (f : nat) (r : option err)  (* the loop decided on a StartWorker call *)
  | EvKnown (id : string) (f d : nat)                   (* id was added, with done channel d *)
  | EvSpawn (g : nat) (id : string) (f : nat) (d t : Z) (* a goroutine is to run f after delay d *)
  | EvStartCall (g : nat) (id : string) (f : nat) (t : Z)
  | EvStartRet (g : nat) (id : string) (r : nat + err)  (* also for a start func that called runtime.Goexit *)
  | EvSet (g : nat) (id : string) (w : nat)             (* the loop registered the worker *)
  | EvKill (g : nat) (id : string) (w : nat)            (* the runner called Kill on the worker *)
  | EvEnd (g : nat) (id : string) (e : option err)      (* the worker finished *)
  | EvDone (g : nat) (id : string) (e : option err) (t : Z)  (* the loop handled the end of goroutine g *)
  | EvRemoved (id : string) (d : nat)
  | EvStopReq (c : nat) (id : string)                   (* the loop accepted a StopWorker call *)
  | EvCtx (c : nat)                                     (* the context, or the abort channel, given to call c is done *)
  | EvKilled                                            (* the runner's tomb was killed *)
  | EvStopAll                                           (* isDying was set *)
  | EvDead
  | EvClient (ce : cevent).

(** runner.go:32-70, and the goroutines of runner.go:245, 492-494, 554-556. *)
Record core := mkCore {
  c_tomb : tomb;
  c_dying : bool;                 (* isDying *)
  c_watch : bool;                 (* tombDying != nil *)
  c_final : option err;           (* finalError *)
  c_loop : lpc;
  c_workers : gmap string winfo;
  c_signals : gset nat;           (* done channels with a value in the buffer *)
  c_gors : gmap nat wgor;
  c_next : nat;                   (* next goroutine *)
  c_inst : nat;                   (* next done channel *)
  c_now : Z;
  c_ctx : gset nat;               (* calls whose context (StartWorker) or abort channel (Worker, StopAndRemoveWorker) is done *)
  c_ended : gmap nat (option err);(* finished workers *)
  c_crash : bool;                 (* nil dereference in the loop *)
  c_log : list event              (* newest first *)
}.
Global Instance eta_core : Settable _ := settable! mkCore
  <c_tomb; c_dying; c_watch; c_final; c_loop; c_workers; c_signals; c_gors; c_next; c_inst; c_now; c_ctx; c_ended; c_crash; c_log>.

(** runner.go:236-245; the tomb tracks one goroutine *)
Definition core_init : core :=
  mkCore (tomb_go tomb_new) false true None LTop ∅ ∅ ∅ 0 0 0 ∅ ∅ false [].

(** The log has no counterpart in runner.go. *)
Definition emit (ev : event) (c : core) : core := c <| c_log ::= cons ev |>.
(** Where run (runner.go:427-460) is. *)
Definition set_loop (p : lpc) (c : core) : core := c <| c_loop := p |>.
(** Where runWorker (runner.go:620-665) is. *)
Definition set_pc (g : nat) (p : wpc) (c : core) : core := c <| c_gors ::= alter (fun r => r <| w_pc := p |>) g |>.

(** runner.go:312-315 [Kill] *)
Definition kill_tomb (c : core) : core :=
  (if t_dying (c_tomb c) then c else emit EvKilled c) <| c_tomb ::= fun t => tomb_kill t None |>.

(** runner.go:603-617 [killWorkerLocked] *)
Definition kill_worker (id : string) (c : core) : core :=
  match c_workers c !! id with
  | None => c
  | Some i =>
    (match i_worker i with Some (g, w) => emit (EvKill g id w) c | None => c end)
    <| c_workers ::= <[id := i <| i_worker := None |> <| i_start := None |> <| i_stopping := true |>]> |>
  end.

(** runner.go:584-590 [killAll].  Simplification: one fixed order; the order in which Go ranges over the map only
    shows in the order of the Kill calls. *)
Definition kill_all (c : core) : core :=
  foldr kill_worker c (elements (dom (c_workers c))).

(** runner.go:620: start a goroutine *)
Definition spawn (id : string) (f : nat) (ctx : option nat) (d : Z) (c : core) : core :=
  emit (EvSpawn (c_next c) id f d (c_now c))
    (c <| c_gors ::= <[c_next c := mkWGor id f ctx (WBegin d)]> |> <| c_next ::= S |>).

(** runner.go:464-496 [startWorker] *)
Definition start_worker (P : rcfg) (cl : nat) (id : string) (f : nat) (c : core) : core :=
  if c_dying c then set_loop (LDo (AReply cl None)) (emit (EvAnswer cl id f None) c)
  else match c_workers c !! id with
  | Some _ =>
    let r := Some (ETyped TAlreadyExists (MsgText id)) in
    set_loop (LDo (AReply cl r)) (emit (EvAnswer cl id f r) c)
  | None =>
    set_loop (LDo (AReply cl None)) (spawn id f (Some cl) 0
      (emit (EvKnown id f (c_inst c)) (emit (EvAnswer cl id f None)
        (c <| c_workers ::= <[id := mkWInfo None (Some f) (r_delay P) false (c_inst c) (c_now c)]> |> <| c_inst ::= S |>))))
  end.

(** runner.go:563-568 [removeWorker], and where the loop goes afterwards *)
Definition remove_worker (id : string) (d : nat) (next : lact) (c : core) : core :=
  let c' := emit (EvRemoved id d) (c <| c_workers ::= delete id |>) in
  if bool_decide (d ∈ c_signals c) then set_loop LBlocked c'
  else set_loop (LDo next) (c' <| c_signals ::= union {[d]} |>).

(** runner.go:516-544, runner.go:511, :546: does workerDone remove the worker? *)
Definition removes (P : rcfg) (i : winfo) (e : option err) : bool :=
  match e with
  | None => negb (i_stopping i) || bool_decide (i_start i = None)
  | Some e => r_isFatal P e || negb (r_shouldRestart P e) || bool_decide (i_start i = None)
  end.

(** runner.go:507-558 [workerDone] *)
Definition worker_done (P : rcfg) (g : nat) (id : string) (e : option err) (c0 : core) : core :=
  let c := emit (EvDone g id e (c_now c0)) (set_pc g WGone c0) in
  match c_workers c !! id with
  | None => c <| c_crash := true |>
  | Some i =>
    let restart :=
      match i_start i with
      | None => remove_worker id (i_done i) ABcast c
      | Some f => set_loop (LDo ABcast) (spawn id f None (i_delay i)
                    (c <| c_workers ::= <[id := i <| i_delay := r_delay P |>]> |>))
      end in
    match e with
    | None => if negb (i_stopping i) then remove_worker id (i_done i) ABcast c else restart
    | Some x =>
      if r_isFatal P x then
        let c1 := c <| c_final := (match c_final c with
                                   | None => Some x
                                   | Some y => if r_more P x y then Some x else Some y end) |> in
        if c_dying c then remove_worker id (i_done i) ABcast c1
        else emit EvStopAll (remove_worker id (i_done i) AKillAll (c1 <| c_dying := true |>))
      else if negb (r_shouldRestart P x) then remove_worker id (i_done i) ABcast c
      else restart
    end
  end.

(** runner.go:571-581 [setWorker] *)
Definition set_worker (g : nat) (id : string) (w : nat) (c : core) : core :=
  match c_workers c !! id with
  | None => c <| c_crash := true |>
  | Some i =>
    let c1 := emit (EvSet g id w) (c <| c_workers ::= <[id := i <| i_worker := Some (g, w) |>]> |>) in
    set_loop (LDo ABcast) (if c_dying c || i_stopping i then kill_worker id c1 else c1)
  end.

(** runner.go:430 *)
Definition finished (c : core) : bool := c_dying c && bool_decide (c_workers c = ∅).
(** The loop is in its select. runner.go:433. *)
Definition at_select (c : core) : bool := match c_loop c with LTop => negb (finished c) | _ => false end.

(** The pending action of the loop takes the mutex. runner.go:482, 564, 572, 585, 596. *)
Definition act_locks (P : rcfg) (c : core) (a : lact) : bool :=
  match a with
  | AKillAll | AKill _ | ASet _ _ => true
  | AStart _ id _ => negb (c_dying c) && bool_decide (c_workers c !! id = None)
  | ADone g => match c_gors c !! g with
               | Some (mkWGor id _ _ (WTaken e)) =>
                 match c_workers c !! id with Some i => removes P i e | None => false end
               | _ => false end
  | AReply _ _ | ABcast => false
  end.

Inductive clabel :=
  | KKill                                       (* :312 a client calls Kill *)
  | KTick (d : Z)                               (* the clock advances *)
  | KCtx (c : nat)                              (* the context or abort channel given to call c is done *)
  | KTake (d : nat)                             (* somebody receives from a done channel *)
  | KEmit (ce : cevent)                         (* something callers do *)
  | KDying                                      (* :434 *)
  | KRecvStart (c : nat) (id : string) (f : nat)(* :440 *)
  | KRecvStop (c : nat) (id : string)           (* :444 *)
  | KRecvStarted (g : nat)                      (* :448, :660 *)
  | KRecvDone (g : nat)                         (* :454, :627, :654, :664 *)
  | KAct                                        (* the body of the select case, :458 *)
  | KReturn                                     (* :430 *)
  | KBegin (g : nat)                            (* :621 *)
  | KFire (g : nat)                             (* :629 *)
  | KDelayAbort (g : nat)                       (* :626 *)
  | KStartRet (g : nat) (r : nat + err)         (* :656 *)
  | KGoexit (g : nat)                           (* :653 the start func calls runtime.Goexit *)
  | KEnd (g : nat) (e : option err)             (* the worker finishes *)
  | KExit (g : nat)                             (* :661 worker.Wait returns *)
  | KLost (g : nat).                            (* worker.Wait calls runtime.Goexit *)

(** runner.go:312-315, 427-460, 620-665. *)
Definition cstep (P : rcfg) (c : core) (l : clabel) : option core :=
  match l with
  | KKill => Some (kill_tomb c)
  | KTick d => if (0 <=? d)%Z then Some (c <| c_now ::= Z.add d |>) else None
  | KCtx i => Some (emit (EvCtx i) (c <| c_ctx ::= union {[i]} |>))
  | KTake d => if bool_decide (d ∈ c_signals c) then Some (c <| c_signals ::= (.∖ {[d]}) |>) else None
  | KEmit ce => Some (emit (EvClient ce) c)
  | KDying =>
    if at_select c && c_watch c && t_dying (c_tomb c)
    then Some (emit EvStopAll (set_loop (LDo AKillAll) (c <| c_dying := true |> <| c_watch := false |>)))
    else None
  | KRecvStart i id f => if at_select c then Some (set_loop (LDo (AStart i id f)) c) else None
  | KRecvStop i id => if at_select c then Some (emit (EvStopReq i id) (set_loop (LDo (AKill id)) c)) else None
  | KRecvStarted g =>
    match c_gors c !! g with
    | Some (mkWGor _ _ _ (WSendStarted w)) =>
      if at_select c then Some (set_loop (LDo (ASet g w)) (set_pc g (WWait w) c)) else None
    | _ => None
    end
  | KRecvDone g =>
    match c_gors c !! g with
    | Some (mkWGor _ _ _ (WSendDone e)) =>
      if at_select c then Some (set_loop (LDo (ADone g)) (set_pc g (WTaken e) c)) else None
    | _ => None
    end
  | KAct =>
    match c_loop c with
    | LDo a =>
      match a with
      | AKillAll => Some (set_loop (LDo ABcast) (kill_all c))
      | AStart cl id f => Some (start_worker P cl id f c)
      | AReply _ _ => Some (set_loop (LDo ABcast) c)
      | AKill id => Some (set_loop (LDo ABcast) (kill_worker id c))
      | ASet g w => match c_gors c !! g with Some r => Some (set_worker g (w_id r) w c) | None => None end
      | ADone g => match c_gors c !! g with
                   | Some (mkWGor id _ _ (WTaken e)) => Some (worker_done P g id e c)
                   | _ => None end
      | ABcast => Some (set_loop LTop c)
      end
    | _ => None
    end
  | KReturn =>
    match c_loop c with
    | LTop => if finished c then
        let c' := set_loop LEnded (c <| c_tomb ::= fun t => tomb_done t (c_final c) |>) in
        Some (if t_dead (c_tomb c') then emit EvDead c' else c')
      else None
    | _ => None
    end
  | KBegin g =>
    match c_gors c !! g with
    | Some (mkWGor id f _ (WBegin d)) =>
      if (0 <? d)%Z then Some (set_pc g (WTimer (c_now c + d)) c)
      else Some (emit (EvStartCall g id f (c_now c)) (set_pc g WStart c))
    | _ => None
    end
  | KFire g =>
    match c_gors c !! g with
    | Some (mkWGor id f _ (WTimer ready)) =>
      if (ready <=? c_now c)%Z then Some (emit (EvStartCall g id f (c_now c)) (set_pc g WStart c)) else None
    | _ => None
    end
  | KDelayAbort g =>
    match c_gors c !! g with
    | Some (mkWGor _ _ _ (WTimer _)) => if t_dying (c_tomb c) then Some (set_pc g (WSendDone None) c) else None
    | _ => None
    end
  | KStartRet g r =>
    match c_gors c !! g with
    | Some (mkWGor id _ _ WStart) =>
      Some (emit (EvStartRet g id r) (set_pc g (match r with inl w => WSendStarted w | inr e => WSendDone (Some e) end) c))
    | _ => None
    end
  | KGoexit g =>
    match c_gors c !! g with
    | Some (mkWGor id _ _ WStart) =>
      Some (emit (EvStartRet g id (inr (EMsg MsgGoexit))) (set_pc g (WSendDone (Some (EMsg MsgGoexit))) c))
    | _ => None
    end
  | KEnd g e =>
    match c_gors c !! g with
    | Some (mkWGor id _ _ (WSendStarted _)) | Some (mkWGor id _ _ (WWait _)) =>
      match c_ended c !! g with
      | Some _ => None
      | None => Some (emit (EvEnd g id e) (c <| c_ended ::= <[g := e]> |>))
      end
    | _ => None
    end
  | KExit g =>
    match c_gors c !! g with
    | Some (mkWGor id _ _ (WWait _)) =>
      match c_ended c !! g with Some e => Some (set_pc g (WSendDone e) c) | None => None end
    | _ => None
    end
  | KLost g =>
    match c_gors c !! g with
    | Some (mkWGor id _ _ (WWait _)) => Some (set_pc g WLost c)
    | _ => None
    end
  end.

(** The context given to the start func of goroutine [r] is done (runner.go:492, :554): tomb.Context of the
    StartWorker context for the first start, of the background context for a restart. *)
Definition ctx_done (c : core) (r : wgor) : bool :=
  t_dying (c_tomb c) || match w_ctx r with Some i => bool_decide (i ∈ c_ctx c) | None => false end.

(** ** Callers *)

(** Which of the two users of workerInfo (runner.go:345) it is. *)
Inductive ikind := IWorker | IStopRm.
(** runner.go:291, 326. *)
Definition icall (k : ikind) (id : string) : call := match k with IWorker => KWorker id | IStopRm => KStopRm id end.

Inductive cpc :=
  | CStart (id : string) (f : nat)            (* :260 in the select *)
  | CReply (id : string) (f : nat)            (* :266 *)
  | CStop (id : string)                       (* :278 in the select *)
  | CInfo (k : ikind) (id : string)           (* :346 before Lock *)
  | CCheck (k : ikind) (id : string) (r : got)(* :368 *)
  | CSelect (k : ikind) (id : string)         (* :399 *)
  | CGotNF (k : ikind) (id : string)          (* :406 *)
  | CKill (id : string) (g w d : nat)         (* :296 before Kill *)
  | CWait (id : string) (g d : nat)           (* :296 in Wait *)
  | CDone (id : string) (e : option err) (d : nat)  (* :298 *)
  | CRet.

(** The goroutine of runner.go:382-398 *)
Inductive tpc :=
  | TLocked      (* :385, holds the mutex *)
  | TChecked     (* :391 about to call Cond.Wait, holds the mutex *)
  | TWaiting     (* :391 in the list of the condition variable *)
  | TWoken       (* :391 woken, about to lock *)
  | TExit.
Record waiter := mkWaiter { t_id : string; t_pc : tpc; t_stopped : bool; t_chan : option got }.
Global Instance eta_waiter : Settable _ := settable! mkWaiter <t_id; t_pc; t_stopped; t_chan>.

(** runner.go:32-70, the callers of runner.go:254-425 and the goroutines of runner.go:381-397. *)
Record state := mkState {
  s_core : core;
  s_calls : gmap nat cpc;
  s_waits : gmap nat waiter;      (* by caller *)
  s_mu : option nat               (* the mutex is held by the goroutine of this caller *)
}.
Global Instance eta_state : Settable _ := settable! mkState <s_core; s_calls; s_waits; s_mu>.
(** runner.go:206-248. *)
Definition init : state := mkState core_init ∅ ∅ None.

(** Log only; no counterpart in runner.go. *)
Definition tell (ce : cevent) (s : state) : state := s <| s_core ::= emit (EvClient ce) |>.
(** Where a call of runner.go:254-425 is. *)
Definition set_call (c : nat) (p : cpc) (s : state) : state := s <| s_calls ::= <[c := p]> |>.
(** A call of runner.go:254-425 returns. *)
Definition return_ (c : nat) (k : call) (r : result) (s : state) : state := tell (CvRet c k r) (set_call c CRet s).

(** sync.Cond.Broadcast: everybody in the list wakes up. runner.go:391, 423, 458. *)
Definition wake (t : waiter) : waiter := match t_pc t with TWaiting => t <| t_pc := TWoken |> | _ => t end.
(** As above (runner.go:458). *)
Definition broadcast (s : state) : state := s <| s_waits ::= fmap wake |>.

(** runner.go:677-691: the entry of one id; [rep w] is what worker [w]'s Report method returns now (runner.go:684-688;
    [None]: it has none, or the report is empty) *)
Definition report_of (rep : nat -> option nat) (i : winfo) : rreport :=
  mkRReport (status i) (i_started i) (match i_worker i with Some (_, w) => rep w | None => None end).

(** runner.go:350-358 [getWorker]: [None] if the worker is known but not available *)
Definition get_worker (c : core) (id : string) : option got :=
  match c_workers c !! id with
  | None => Some GNotFound
  | Some i => match i_worker i with Some (g, w) => Some (GWorker g w (i_done i)) | None => None end
  end.

(** runner.go:355 *)
Definition not_found (id : string) : option err := Some (ETyped TNotFound (MsgText id)).
(** runner.go:24, 270, 283, 370, 408, 414. *)
Definition err_dead : option err := Some (EConst KRunnerDead).
(** runner.go:23, 303, 424. *)
Definition err_aborted : option err := Some (EConst KRunnerAborted).

(** workerInfo returns its finding: Worker returns it (runner.go:328), StopAndRemoveWorker goes on (runner.go:293-296) *)
Definition deliver (c : nat) (k : ikind) (id : string) (r : got) (s : state) : state :=
  match r with
  | GNotFound => return_ c (icall k id) (RErr (not_found id)) s
  | GWorker g w d => match k with
                     | IWorker => return_ c (KWorker id) (RWorker g w) s
                     | IStopRm => set_call c (CKill id g w d) s end
  end.

Inductive label :=
  | LCore (l : clabel)                     (* a step of the core that no caller takes part in *)
  | LCall (c : nat) (k : call)
  | LRecvStart (c : nat) | LStartCtx (c : nat) | LCallDead (c : nat)  (* :261; :267; :268, :281 *)
  | LRecvStop (c : nat)                    (* :279 *)
  | LLock (c : nat)                        (* :346-363, or :346-382 *)
  | LCheck (c : nat)                       (* :368 *)
  | LWc (c : nat)                          (* :400 *)
  | LWcCheck (c : nat)                     (* :406 *)
  | LSelDying (c : nat)                    (* :413 *)
  | LSelAbort (c : nat)                    (* :415-424 *)
  | LStopKill (c : nat) | LStopWaited (c : nat)     (* :296 *)
  | LDoneAbort (c : nat) | LDoneRecv (c : nat)      (* :299; :300 *)
  | LWtCheck (c : nat)                     (* :385-388 *)
  | LWtAdd (c : nat)                       (* :391 Cond.Wait joins the list and unlocks *)
  | LWtWake (c : nat)                      (* :391 Cond.Wait locks again, :392 *)
  | LNames | LReport (rep : nat -> option nat) | LWait.   (* :334; :672; :307 *)

(** Core labels that stand on their own. The others need a caller (runner.go:254-305). *)
Definition own (l : clabel) : bool :=
  match l with KTake _ | KEmit _ | KRecvStart _ _ _ | KRecvStop _ _ => false | _ => true end.

(** runner.go:254-460, 620-696. *)
Definition step (P : rcfg) (s : state) (l : label) : option state :=
  let c := s_core s in
  match l with
  | LCore l =>
    if negb (own l) then None else
    match cstep P c l with
    | None => None
    | Some c' =>
      let s' := s <| s_core := c' |> in
      match l, c_loop c with
      | KAct, LDo a =>
        if act_locks P c a && bool_decide (s_mu s <> None) then None else
        match a with
        | AReply i r => match s_calls s !! i with
                        | Some (CReply id f) => Some (return_ i (KStart id f) (RErr r) s')
                        | _ => None end
        | ABcast => Some (broadcast s')
        | _ => Some s'
        end
      | _, _ => Some s'
      end
    end
  | LCall i k =>
    match s_calls s !! i with
    | Some _ => None
    | None => Some (tell (CvCall i k) (set_call i
        (match k with KStart id f => CStart id f | KStop id => CStop id
                    | KWorker id => CInfo IWorker id | KStopRm id => CInfo IStopRm id end) s))
    end
  | LRecvStart i =>
    match s_calls s !! i with
    | Some (CStart id f) =>
      match cstep P c (KRecvStart i id f) with Some c' => Some (set_call i (CReply id f) (s <| s_core := c' |>)) | None => None end
    | _ => None
    end
  | LStartCtx i =>
    match s_calls s !! i with
    | Some (CStart id f) => if bool_decide (i ∈ c_ctx c) then Some (return_ i (KStart id f) (RErr err_dead) s) else None
    | _ => None
    end
  | LCallDead i =>
    if t_dead (c_tomb c) then
      match s_calls s !! i with
      | Some (CStart id f) => Some (return_ i (KStart id f) (RErr err_dead) s)
      | Some (CStop id) => Some (return_ i (KStop id) (RErr err_dead) s)
      | _ => None
      end
    else None
  | LRecvStop i =>
    match s_calls s !! i with
    | Some (CStop id) =>
      match cstep P c (KRecvStop i id) with Some c' => Some (return_ i (KStop id) (RErr None) (s <| s_core := c' |>)) | None => None end
    | _ => None
    end
  | LLock i =>
    match s_calls s !! i, s_mu s with
    | Some (CInfo k id), None =>
      match get_worker c id with
      | Some r => Some (set_call i (CCheck k id r) (tell (CvLookup i id r) s))
      | None => Some (set_call i (CSelect k id)
                  (s <| s_waits ::= <[i := mkWaiter id TLocked false None]> |> <| s_mu := Some i |>))
      end
    | _, _ => None
    end
  | LCheck i =>
    match s_calls s !! i with
    | Some (CCheck k id r) =>
      Some (if t_dying (c_tomb c) then return_ i (icall k id) (RErr err_dead) s else deliver i k id r s)
    | _ => None
    end
  | LWc i =>
    match s_calls s !! i, s_waits s !! i with
    | Some (CSelect k id), Some (mkWaiter _ _ _ (Some r)) =>
      Some (match r with GNotFound => set_call i (CGotNF k id) s | _ => deliver i k id r s end)
    | _, _ => None
    end
  | LWcCheck i =>
    match s_calls s !! i with
    | Some (CGotNF k id) =>
      Some (if t_dying (c_tomb c) then return_ i (icall k id) (RErr err_dead) s else deliver i k id GNotFound s)
    | _ => None
    end
  | LSelDying i =>
    match s_calls s !! i with
    | Some (CSelect k id) => if t_dying (c_tomb c) then Some (return_ i (icall k id) (RErr err_dead) s) else None
    | _ => None
    end
  | LSelAbort i =>
    match s_calls s !! i with
    | Some (CSelect k id) =>
      if negb (bool_decide (i ∈ c_ctx c)) then None else
      Some (return_ i (icall k id) (RErr err_aborted) (broadcast (s <| s_waits ::= alter (fun t => t <| t_stopped := true |>) i |>)))
    | _ => None
    end
  | LStopKill i =>
    match s_calls s !! i with
    | Some (CKill id g w d) => Some (tell (CvKill i g w) (set_call i (CWait id g d) s))
    | _ => None
    end
  | LStopWaited i =>
    match s_calls s !! i with
    | Some (CWait id g d) => match c_ended c !! g with Some e => Some (set_call i (CDone id e d) s) | None => None end
    | _ => None
    end
  | LDoneAbort i =>
    match s_calls s !! i with
    | Some (CDone id e d) => if bool_decide (i ∈ c_ctx c) then Some (return_ i (KStopRm id) (RErr err_aborted) s) else None
    | _ => None
    end
  | LDoneRecv i =>
    match s_calls s !! i with
    | Some (CDone id e d) =>
      match cstep P c (KTake d) with
      | Some c' => Some (return_ i (KStopRm id) (RRemoved e) (s <| s_core := c' |>))
      | None => None
      end
    | _ => None
    end
  | LWtCheck i =>
    match s_waits s !! i with
    | Some (mkWaiter id TLocked st ch) =>
      if st then Some (s <| s_waits ::= <[i := mkWaiter id TExit st ch]> |> <| s_mu := None |>)
      else Some (s <| s_waits ::= <[i := mkWaiter id TChecked st ch]> |>)
    | _ => None
    end
  | LWtAdd i =>
    match s_waits s !! i with
    | Some (mkWaiter id TChecked st ch) => Some (s <| s_waits ::= <[i := mkWaiter id TWaiting st ch]> |> <| s_mu := None |>)
    | _ => None
    end
  | LWtWake i =>
    match s_waits s !! i, s_mu s with
    | Some (mkWaiter id TWoken st ch), None =>
      match get_worker c id with
      | Some r => Some (tell (CvLookup i id r) (s <| s_waits ::= <[i := mkWaiter id TExit st (Some r)]> |>))
      | None => Some (s <| s_waits ::= <[i := mkWaiter id TLocked st ch]> |> <| s_mu := Some i |>)
      end
    | _, _ => None
    end
  | LNames => match s_mu s with None => Some (tell (CvNames (dom (c_workers c))) s) | Some _ => None end
  | LReport rep =>
    match s_mu s with
    | None => Some (tell (CvReport rep (report_of rep <$> c_workers c)) s)
    | Some _ => None
    end
  | LWait => match tomb_wait (c_tomb c) with Some e => Some (tell (CvWait e) s) | None => None end
  end.

(** Executions of runner.go: any interleaving. *)
Fixpoint run (P : rcfg) (s : state) (ls : list label) : option state :=
  match ls with
  | [] => Some s
  | l :: ls' => match step P s l with Some s' => run P s' ls' | None => None end
  end.
(** As above (runner.go). *)
Definition reachable (P : rcfg) (s : state) : Prop := exists ls, run P init ls = Some s.
