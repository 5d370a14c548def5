(** Model of worker.go (Stop, Dead) and of workertest/check.go: any number of concurrent calls of these functions on one
    worker, which may do anything, as a labelled transition system.

    Simplifications: the worker's Kill returns immediately and its Wait returns the worker's error each time (worker.go:13-20);
    what CleanKill and DirtyKill log is dropped; c.Errorf and a failing c.Check are both [EvFail]. *)
From stdpp Require Import gmap strings list.
From Coq Require Import ZArith.
From RecordUpdate Require Import RecordSet.
From Verif Require Import Err.
Import RecordSetNotations.
Local Open Scope Z_scope.

(** worker.go:23, :37; check.go:34, :49, :66, :81, :96, :114. The argument of CheckNilOrKill: whether w is nil. *)
Inductive call := CStop | CDead | CCheckAlive | CCheckKilled | CCheckKill | CCleanKill | CDirtyKill | CCheckNilOrKill (isnil : bool).
Global Instance call_eq_dec : EqDecision call.
Proof. solve_decision. Defined.

(** [v_own]: the worker has a method Dead that returns a channel (worker.go:41-45).
    check.go:17-24 [aliveDelay], [killTimeout]. *)
Record setup := mkSetup { v_own : bool; v_aliveDelay : Z; v_killTimeout : Z }.

(** What is observed of worker.go:23-52 and check.go:34-119; the log itself has no counterpart in the code. *)
Inductive event :=
  | EvCall (i : nat) (c : call) (t : Z)           (* call i is made *)
  | EvKill (i : nat) (t : Z)                      (* ... it calls Kill *)
  | EvFail (i : nat)                              (* ... it fails the test *)
  | EvRet (i : nat) (r : option err) (t : Z)      (* ... it returns (nil, if it has no result) *)
  | EvChan (i : nat) (own : bool)                 (* ... Dead returns the worker's own channel, or a new one *)
  | EvClosed (i : nat)                            (* the new channel made by call i is closed *)
  | EvEnd (e : option err).                       (* the worker finished *)

(** Where a call is: worker.go:24, 25; check.go:39, 54; returned. *)
Inductive cpc := PKill | PWait | PSelect (deadline : Z) | PRet.
(** [w_helper !! i]: the goroutine of call [i] that waits for the worker (worker.go:47-50, check.go:36-38, 51-53), and whether
    Wait has returned. *)
Record state := mkState {
  w_now : Z;
  w_ended : option (option err);
  w_calls : gmap nat (call * cpc);
  w_helper : gmap nat bool;
  w_log : list event;
}.
Global Instance eta_state : Settable _ := settable! mkState <w_now; w_ended; w_calls; w_helper; w_log>.
(** Before any call of worker.go:23-52 and check.go:34-119. *)
Definition init : state := mkState 0 None ∅ ∅ [].

Definition emit (ev : event) (s : state) : state := s <| w_log ::= cons ev |>.
Definition goto (i : nat) (c : call) (p : cpc) (s : state) : state := s <| w_calls ::= <[i := (c, p)]> |>.
(** check.go:35-39, 50-54: make the channel, start the goroutine, enter the select *)
Definition select (i : nat) (c : call) (timeout : Z) (s : state) : state :=
  goto i c (PSelect (w_now s + timeout)) (s <| w_helper ::= <[i := false]> |>).
Definition return_ (i : nat) (c : call) (r : option err) (s : state) : state := goto i c PRet (emit (EvRet i r (w_now s)) s).
Definition timed_out : err := EMsg (MsgText "workertest: worker not stopping").
(** check.go:68, 82-83, 97-100: what becomes of the result of CheckKilled *)
Definition checked (i : nat) (c : call) (r : option err) (s : state) : state :=
  match c with
  | CCheckKilled | CCheckKill => return_ i c r s
  | CCleanKill | CCheckNilOrKill _ => return_ i c None (if r then emit (EvFail i) s else s)
  | _ => return_ i c None s
  end.

(** The steps of worker.go:23-52 and check.go:34-119, of the worker (worker.go:13-20) and of the clock. *)
Inductive label :=
  | LCall (i : nat) (c : call)
  | LKill (i : nat)                 (* call i calls Kill *)
  | LWaited (i : nat)               (* Stop: Wait returns *)
  | LHelper (i : nat)               (* the goroutine of call i: Wait returns *)
  | LSelWait (i : nat)              (* the select takes the error *)
  | LSelTimer (i : nat)             (* the select takes the timer *)
  | LEnd (e : option err)           (* the worker finishes *)
  | LTick (d : Z).                  (* time passes *)

Definition step (V : setup) (s : state) (l : label) : option state :=
  match l with
  | LCall i c =>
    match w_calls s !! i with
    | Some _ => None
    | None =>
      let s1 := emit (EvCall i c (w_now s)) s in
      match c with
      | CStop | CCheckKill | CCleanKill | CDirtyKill => Some (goto i c PKill s1)
      (* worker.go:37-52 *)
      | CDead => if v_own V then Some (goto i c PRet (emit (EvChan i true) s1))
                 else Some (goto i c PRet (emit (EvChan i false) (s1 <| w_helper ::= <[i := false]> |>)))
      (* check.go:34-44 *)
      | CCheckAlive => Some (select i c (v_aliveDelay V) s1)
      (* check.go:49-61 *)
      | CCheckKilled => Some (select i c (v_killTimeout V) s1)
      (* check.go:114-119 *)
      | CCheckNilOrKill isnil => if isnil then Some (return_ i c None s1) else Some (goto i c PKill (emit (EvFail i) s1))
      end
    end
  | LKill i =>
    match w_calls s !! i with
    | Some (c, PKill) =>
      let s1 := emit (EvKill i (w_now s)) s in
      (* worker.go:24, check.go:67 *)
      match c with CStop => Some (goto i c PWait s1) | _ => Some (select i c (v_killTimeout V) s1) end
    | _ => None
    end
  | LWaited i =>
    match w_calls s !! i, w_ended s with Some (c, PWait), Some e => Some (return_ i c e s) | _, _ => None end
  | LHelper i =>
    match w_helper s !! i, w_ended s with
    | Some false, Some _ =>
      let s1 := s <| w_helper ::= <[i := true]> |> in
      match w_calls s !! i with Some (CDead, _) => Some (emit (EvClosed i) s1) | _ => Some s1 end
    | _, _ => None
    end
  | LSelWait i =>
    match w_calls s !! i, w_helper s !! i, w_ended s with
    | Some (c, PSelect _), Some true, Some e =>
      match c with
      | CCheckAlive => Some (return_ i c None (emit (EvFail i) s))
      | _ => Some (checked i c e s)
      end
    | _, _, _ => None
    end
  | LSelTimer i =>
    match w_calls s !! i with
    | Some (c, PSelect d) =>
      if d <=? w_now s then
        match c with
        | CCheckAlive => Some (return_ i c None s)
        | _ => Some (checked i c (Some timed_out) (emit (EvFail i) s))
        end
      else None
    | _ => None
    end
  | LEnd e => match w_ended s with None => Some (emit (EvEnd e) (s <| w_ended := Some e |>)) | Some _ => None end
  | LTick d => if 0 <=? d then Some (s <| w_now ::= Z.add d |>) else None
  end.
Fixpoint run (V : setup) (s : state) (ls : list label) : option state :=
  match ls with
  | [] => Some s
  | l :: ls' => match step V s l with Some s' => run V s' ls' | None => None end
  end.
(** Executions: any interleaving of calls of worker.go:23-52 and check.go:34-119. *)
Definition reachable (V : setup) (s : state) : Prop := exists ls, run V init ls = Some s.
