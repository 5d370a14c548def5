(** Model of catacomb/catacomb.go: one catacomb, any number of concurrent Invoke and Add calls on it, the listening
    goroutine, the Work goroutine, and two goroutines per bound worker, as a labelled transition system.

    One step is one visible action of one goroutine (a channel operation, a call on the tomb, on the WaitGroup or on a
    worker).  Simplifications: contexts and pprof labels (catacomb.go:122-126, 228-241) are not modelled; the WaitGroup
    increment and the two go statements of [add] (catacomb.go:185-194) are one step; a worker's Kill and Wait neither
    panic nor call runtime.Goexit, and Wait returns the same error every time; Add is not called with nil. *)
From stdpp Require Import gmap strings list.
From RecordUpdate Require Import RecordSet.
From Verif Require Import Err Tomb.
Import RecordSetNotations.

(** worker.go:13-20. A worker is some other worker, or the parent worker whose loop this catacomb runs, with the Kill
    and Wait of catacomb/doc.go:60-67. *)
Inductive wk := WExt (n : nat) | WSelf.
Global Instance wk_eq_dec : EqDecision wk.
Proof. solve_decision. Defined.

(** catacomb.go:36-51 [Plan]; [p_site]: Site is this catacomb (false: nil); [p_work]: Work is not nil. *)
Record plan := mkPlan { p_name : string; p_site : bool; p_work : bool; p_init : list (option wk) }.

(** catacomb.go:66-70: the index of the first nil worker *)
Fixpoint nil_item (ws : list (option wk)) (i : nat) : option nat :=
  match ws with [] => None | None :: _ => Some i | Some _ :: ws' => nil_item ws' (S i) end.
(** catacomb.go:56-72 [Validate] *)
Definition validate (p : plan) : option err :=
  if bool_decide (p_name p = ""%string) then Some (ETyped TNotValid (MsgText "empty Name"))
  else if negb (p_site p) then Some (ETyped TNotValid (MsgText "nil Site"))
  else if negb (p_work p) then Some (ETyped TNotValid (MsgText "nil Work"))
  else match nil_item (p_init p) 0 with
       | Some i => Some (ETyped TNotValid (MsgNilInit i))
       | None => None
       end.

(** What Work did (catacomb.go:318-326): returned, panicked with value [v], or left by runtime.Goexit. *)
Inductive wret := WkReturn (e : option err) | WkPanic (v : nat) | WkGoexit.

(** Who kills a worker, who kills the catacomb. catacomb.go:198; :166 (Add when dying); :143. *)
Inductive killer := ByBind (b : nat) | ByAdd (i : nat) | ByInvoke (i : nat).
(** catacomb.go:252 by a client; :191; :129; catacomb/doc.go:60-63, when the parent is one of its own workers. *)
Inductive source := FromClient | FromWorker (b : nat) | FromWork | FromSelf.

(** What an observer sees. Of catacomb.go:56-294; the log itself has no counterpart. *)
Inductive event :=
  | EvInvoke (i : nat) (p : plan)
  | EvUsed (i : nat)                           (* the CompareAndSwap of call i succeeded *)
  | EvInvoked (i : nat) (r : option err)       (* Invoke returned *)
  | EvBind (b : nat) (w : wk)                  (* add(w) *)
  | EvWork                                     (* the goroutine that calls Work exists *)
  | EvWorkRet (r : wret)
  | EvAddCall (i : nat) (w : wk)
  | EvAddRet (i : nat) (w : wk) (r : option err)
  | EvKill (src : source) (e : option err)     (* a call of Catacomb.Kill, which did not panic *)
  | EvKillPanic (src : source) (e : option err)
  | EvWKill (k : killer) (w : wk)              (* a worker's Kill was called *)
  | EvEnd (n : nat) (e : option err)           (* a worker finished *)
  | EvGone (b : nat)                           (* both goroutines of a binding are gone *)
  | EvDead
  | EvWait (e : option err)
  | EvErrDying (e : option err).

(** An Invoke call: before validation, before the CompareAndSwap, adding the Init workers, starting the listener,
    starting the Work goroutine; stopping the Init workers after a failure (killing the next, waiting for one). *)
Inductive ipc :=
  | IValidate (p : plan) | ICas (p : plan) | IAdd (ws : list (option wk)) | IListen | IGo
  | IStop (ws : list (option wk)) (r : err) | IStopWait (w : wk) (ws : list (option wk)) (r : err) | IReturned.
(** An Add call: in the select ([ch]: the adds channel existed when it was evaluated), about to kill the worker, waiting for it. *)
Inductive apc := ASelect (w : wk) (ch : bool) | AKill (w : wk) | AWait (w : wk) | AReturned.
(** The listening goroutine (catacomb.go:107-117). *)
Inductive lpc := LiNone | LiSelect | LiGot (w : wk) | LiGone.
(** The goroutine of tomb.Go (catacomb.go:127-131): running Work, about to Kill, in wg.Wait (and whether Goexit is under
    way), about to return to the tomb. *)
Inductive kpc := WkNone | WkRun | WkKill (e : option err) | WkWg (exiting : bool) | WkDone | WkOver | WkLost.
(** The waiting goroutine of a binding (catacomb.go:187-193). *)
Inductive vpc := VWait | VKill (e : err) | VClose | VWg | VGone.
(** The stopping goroutine of a binding (catacomb.go:194-202). *)
Inductive spc := SSelect | SKill | SWait | SWg | SGone.
(** catacomb.go:181-203: the worker and the two goroutines of add. *)
Record bind := mkBind { b_worker : wk; b_wait : vpc; b_stop : spc }.
Global Instance eta_bind : Settable _ := settable! mkBind <b_worker; b_wait; b_stop>.

(** catacomb.go:29-34 and the goroutines around it. *)
Record state := mkState {
  x_tomb : tomb;
  x_dirty : bool;
  x_wg : nat;                       (* counter of the WaitGroup *)
  x_wgbad : bool;                   (* the WaitGroup panicked: negative, or incremented from zero after Wait was called *)
  x_crash : bool;                   (* a goroutine panicked *)
  x_invs : gmap nat ipc;
  x_lis : lpc;
  x_work : kpc;
  x_binds : gmap nat bind;
  x_next : nat;
  x_adds : gmap nat apc;
  x_ended : gmap nat (option err);  (* finished workers *)
  x_log : list event                (* newest first *)
}.
Global Instance eta_state : Settable _ := settable! mkState
  <x_tomb; x_dirty; x_wg; x_wgbad; x_crash; x_invs; x_lis; x_work; x_binds; x_next; x_adds; x_ended; x_log>.

(** the zero value. catacomb.go:29-34. *)
Definition init : state := mkState tomb_new false 0 false false ∅ LiNone WkNone ∅ 0 ∅ ∅ [].

(** The log has no counterpart in catacomb.go. *)
Definition emit (ev : event) (s : state) : state := s <| x_log ::= cons ev |>.

(** sync.WaitGroup: Add.
    catacomb.go:106, 186. [x_wgbad] records a misuse (Add concurrent with Wait when the counter is zero), which catacomb.go does not check. *)
Definition wg_add (n : nat) (s : state) : state :=
  let bad := match x_work s with WkNone | WkRun | WkKill _ => false | _ => bool_decide (x_wg s = 0) end in
  s <| x_wg ::= Nat.add n |> <| x_wgbad ::= orb bad |>.
(** sync.WaitGroup: Done. catacomb.go:108, 188, 195. [x_wgbad] records a negative counter, for which Go panics. *)
Definition wg_done (s : state) : state :=
  match x_wg s with 0 => s <| x_wgbad := true |> | S n => s <| x_wg := n |> end.

(** catacomb.go:252-263: the error that Kill passes on *)
Definition translate (me : nat) (e : option err) : option err :=
  match (if bool_decide (e = Some ETombDying) then Some (EMsg MsgBadKillTomb) else e) with
  | None => None
  | Some x => match as_dying x with
              | Some c => if bool_decide (c = me) then Some ETombDying else Some (EMsg MsgBadKillOther)
              | None => Some x
              end
  end.
(** catacomb.go:252-270 [Kill]; the flag: it panicked *)
Definition kill (me : nat) (src : source) (e : option err) (s : state) : state * bool :=
  let t := tomb_kill (x_tomb s) (translate me e) in
  if t_panic t then (emit (EvKillPanic src e) s, true) else (emit (EvKill src e) (s <| x_tomb := t |>), false).
(** ... in a goroutine of the catacomb, where a panic ends the program. catacomb.go:129, 191. *)
Definition kill_or_crash (me : nat) (src : source) (e : option err) (s : state) : state :=
  let '(s', p) := kill me src e s in if p then s' <| x_crash := true |> else s'.

(** catacomb.go:276-283 [ErrDying] *)
Definition err_dying (me : nat) (s : state) : option err :=
  if t_dying (x_tomb s) then Some (ECatacombDying me) else Some (EMsg MsgStillAlive).

(** Worker.Kill. catacomb.go:143, 166, 198. *)
Definition worker_kill (me : nat) (k : killer) (w : wk) (s : state) : state :=
  let s' := emit (EvWKill k w) s in
  match w with
  | WExt _ => s'
  | WSelf => fst (kill me FromSelf None s')
  end.
(** Worker.Wait: blocks, or returns an error. catacomb.go:143, 166, 190, 198. *)
Definition worker_wait (w : wk) (s : state) : option (option err) :=
  match w with WExt n => x_ended s !! n | WSelf => tomb_wait (x_tomb s) end.

(** catacomb.go:181-203 [add] *)
Definition add (w : wk) (s : state) : state :=
  let b := x_next s in
  emit (EvBind b w) (wg_add 2 s <| x_next ::= S |> <| x_binds ::= <[b := mkBind w VWait SSelect]> |>).

(** The value dyingError{catacomb} (an unexported type) is only to be had from a catacomb that is dying: other errors
    do not wrap it. catacomb.go:256-258. *)
Fixpoint mentions (me : nat) (e : err) : bool :=
  match e with ECatacombDying c => bool_decide (c = me) | EWrap _ e' => mentions me e' | _ => false end.
(** catacomb.go:276-293. *)
Definition honest (me : nat) (e : option err) (s : state) : bool :=
  match e with Some x => t_dying (x_tomb s) || negb (mentions me x) | None => true end.

(** The steps of the goroutines of catacomb.go:81-203, of its callers, and of the workers (worker.go:13-20). *)
Inductive label :=
  | LInvoke (i : nat) (p : plan)    (* a client calls Invoke *)
  | LInv (i : nat)                  (* that call proceeds *)
  | LAdd (i : nat) (w : wk)         (* a client calls Add *)
  | LHand (i : nat)                 (* ... and the listener takes the worker *)
  | LAddDying (i : nat)             (* ... the call notices that the catacomb is dying *)
  | LAddKill (i : nat) | LAddWaited (i : nat)
  | LKill (e : option err)          (* a client calls Kill *)
  | LAdded                          (* the listener calls add *)
  | LLisDying                       (* the listener leaves *)
  | LWorkRet (r : wret)             (* Work is over *)
  | LWorkKill                       (* Kill(runSafely(Work)) *)
  | LWgWaited                       (* wg.Wait returned *)
  | LTombDone                       (* the tomb's goroutine ends *)
  | LWaitRet (b : nat)              (* Wait of the bound worker returned *)
  | LWaitKill (b : nat)             (* Kill(err) *)
  | LWaitClose (b : nat)            (* close(workerDone) *)
  | LWaitExit (b : nat)             (* wg.Done *)
  | LStopDying (b : nat) | LStopDone (b : nat) | LStopKill (b : nat) | LStopWaited (b : nat) | LStopExit (b : nat)
  | LEnd (n : nat) (e : option err) (* a worker finishes *)
  | LWait                           (* a client's Wait returns *)
  | LErrDying.                      (* a client calls ErrDying *)

(** Record update for catacomb.go:181-203. *)
Definition put (b : nat) (r : bind) (s : state) : state := s <| x_binds ::= <[b := r]> |>.
(** Record update for catacomb.go:81-134. *)
Definition set_inv (i : nat) (p : ipc) (s : state) : state := s <| x_invs ::= <[i := p]> |>.
(** Record update for catacomb.go:163-176. *)
Definition set_add (i : nat) (p : apc) (s : state) : state := s <| x_adds ::= <[i := p]> |>.

(** catacomb.go:81-146 [Invoke], [stopWorkers] *)
Definition invoke_step (me i : nat) (pc : ipc) (s : state) : option state :=
  match pc with
  | IValidate p =>
    match validate p with
    | Some e => Some (set_inv i (IStop (p_init p) (EWrap MsgTrace e)) s)
    | None => Some (set_inv i (ICas p) s)
    end
  | ICas p =>
    if x_dirty s then Some (set_inv i (IStop (p_init p) (EMsg MsgReused)) s)
    else Some (emit (EvUsed i) (set_inv i (IAdd (p_init p)) s <| x_dirty := true |>))
  | IAdd [] => Some (set_inv i IListen s)
  | IAdd (Some w :: ws) => Some (add w (set_inv i (IAdd ws) s))
  | IAdd (None :: ws) => Some (set_inv i (IAdd ws) s)          (* not reached: the plan is valid *)
  | IListen => Some (wg_add 1 (set_inv i IGo s) <| x_lis := LiSelect |>)
  | IGo =>
    let t := tomb_go (x_tomb s) in
    if t_panic t then Some (s <| x_crash := true |>)
    else Some (emit (EvInvoked i None) (emit EvWork (set_inv i IReturned s <| x_tomb := t |> <| x_work := WkRun |>)))
  | IStop [] r => Some (emit (EvInvoked i (Some r)) (set_inv i IReturned s))
  | IStop (None :: ws) r => Some (set_inv i (IStop ws r) s)
  | IStop (Some w :: ws) r => Some (worker_kill me (ByInvoke i) w (set_inv i (IStopWait w ws r) s))
  | IStopWait w ws r =>
    match worker_wait w s with
    | Some _ => Some (set_inv i (IStop ws r) s)
    | None => None
    end
  | IReturned => None
  end.

(** Both goroutines of a binding are gone. catacomb.go:183-202. *)
Definition gone (b : nat) (s : state) : state :=
  match x_binds s !! b with
  | Some (mkBind _ VGone SGone) => emit (EvGone b) s
  | _ => s
  end.

Definition step1 (me : nat) (s : state) (l : label) : option state :=
  match l with
  | LInvoke i p =>
    match x_invs s !! i with
    | None => Some (emit (EvInvoke i p) (set_inv i (IValidate p) s))
    | Some _ => None
    end
  | LInv i => match x_invs s !! i with Some pc => invoke_step me i pc s | None => None end
  (* catacomb.go:163-176 [Add] *)
  | LAdd i w =>
    match x_adds s !! i with
    | None => Some (emit (EvAddCall i w) (set_add i (ASelect w (x_dirty s)) s))
    | Some _ => None
    end
  | LHand i =>
    match x_adds s !! i, x_lis s with
    | Some (ASelect w true), LiSelect => Some (emit (EvAddRet i w None) (set_add i AReturned s <| x_lis := LiGot w |>))
    | _, _ => None
    end
  | LAddDying i =>
    match x_adds s !! i with
    | Some (ASelect w _) => if t_dying (x_tomb s) then Some (set_add i (AKill w) s) else None
    | _ => None
    end
  | LAddKill i =>
    match x_adds s !! i with
    | Some (AKill w) => Some (worker_kill me (ByAdd i) w (set_add i (AWait w) s))
    | _ => None
    end
  | LAddWaited i =>
    match x_adds s !! i with
    | Some (AWait w) =>
      match worker_wait w s with
      | Some e => Some (emit (EvAddRet i w (match e with Some _ => trace e | None => err_dying me s end)) (set_add i AReturned s))
      | None => None
      end
    | _ => None
    end
  | LKill e => if honest me e s then Some (fst (kill me FromClient e s)) else None
  (* catacomb.go:107-117 *)
  | LAdded => match x_lis s with LiGot w => Some (add w (s <| x_lis := LiSelect |>)) | _ => None end
  | LLisDying =>
    match x_lis s with
    | LiSelect => if t_dying (x_tomb s) then Some (wg_done (s <| x_lis := LiGone |>)) else None
    | _ => None
    end
  (* catacomb.go:127-131, 318-326 *)
  | LWorkRet r =>
    match x_work s with
    | WkRun =>
      if match r with WkReturn e => honest me e s | _ => true end then
        Some (emit (EvWorkRet r) (s <| x_work := match r with
                                                 | WkReturn e => WkKill e
                                                 | WkPanic v => WkKill (Some (EMsg (MsgPanicked v)))
                                                 | WkGoexit => WkWg true
                                                 end |>))
      else None
    | _ => None
    end
  | LWorkKill => match x_work s with WkKill e => Some (kill_or_crash me FromWork e (s <| x_work := WkWg false |>)) | _ => None end
  | LWgWaited =>
    match x_work s with
    | WkWg g => if bool_decide (x_wg s = 0) then Some (s <| x_work := if g then WkLost else WkDone |>) else None
    | _ => None
    end
  | LTombDone =>
    match x_work s with
    | WkDone =>
      let t := tomb_done (x_tomb s) None in
      Some ((if t_dead t then emit EvDead else id) (s <| x_work := WkOver |> <| x_tomb := t |>))
    | _ => None
    end
  (* catacomb.go:187-193 *)
  | LWaitRet b =>
    match x_binds s !! b with
    | Some (mkBind w VWait p) =>
      match worker_wait w s with
      | Some (Some e) => Some (put b (mkBind w (VKill e) p) s)
      | Some None => Some (put b (mkBind w VClose p) s)
      | None => None
      end
    | _ => None
    end
  | LWaitKill b =>
    match x_binds s !! b with
    | Some (mkBind w (VKill e) p) => Some (kill_or_crash me (FromWorker b) (Some e) (put b (mkBind w VClose p) s))
    | _ => None
    end
  | LWaitClose b =>
    match x_binds s !! b with
    | Some (mkBind w VClose p) => Some (put b (mkBind w VWg p) s)
    | _ => None
    end
  | LWaitExit b =>
    match x_binds s !! b with
    | Some (mkBind w VWg p) => Some (gone b (wg_done (put b (mkBind w VGone p) s)))
    | _ => None
    end
  (* catacomb.go:194-202 *)
  | LStopDying b =>
    match x_binds s !! b with
    | Some (mkBind w v SSelect) => if t_dying (x_tomb s) then Some (put b (mkBind w v SKill) s) else None
    | _ => None
    end
  | LStopDone b =>
    match x_binds s !! b with
    | Some (mkBind w ((VWg | VGone) as v) SSelect) => Some (put b (mkBind w v SWg) s)
    | _ => None
    end
  | LStopKill b =>
    match x_binds s !! b with
    | Some (mkBind w v SKill) => Some (worker_kill me (ByBind b) w (put b (mkBind w v SWait) s))
    | _ => None
    end
  | LStopWaited b =>
    match x_binds s !! b with
    | Some (mkBind w v SWait) => match worker_wait w s with Some _ => Some (put b (mkBind w v SWg) s) | None => None end
    | _ => None
    end
  | LStopExit b =>
    match x_binds s !! b with
    | Some (mkBind w v SWg) => Some (gone b (wg_done (put b (mkBind w v SGone) s)))
    | _ => None
    end
  | LEnd n e =>
    match x_ended s !! n with
    | None => if honest me e s then Some (emit (EvEnd n e) (s <| x_ended ::= <[n := e]> |>)) else None
    | Some _ => None
    end
  | LWait => match tomb_wait (x_tomb s) with Some e => Some (emit (EvWait e) s) | None => None end
  | LErrDying => Some (emit (EvErrDying (err_dying me s)) s)
  end.
(** Nothing happens after a crash of the program. *)
Definition step (me : nat) (s : state) (l : label) : option state := if x_crash s then None else step1 me s l.

(** Executions of catacomb.go: any interleaving. *)
Fixpoint run (me : nat) (s : state) (ls : list label) : option state :=
  match ls with
  | [] => Some s
  | l :: ls' => match step me s l with Some s' => run me s' ls' | None => None end
  end.
(** As above (catacomb.go). *)
Definition reachable (me : nat) (s : state) : Prop := exists ls, run me init ls = Some s.
