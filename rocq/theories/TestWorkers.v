(** Model of workertest/workers.go and workertest/fake_watcher.go: the workers for tests, used by any number of goroutines, as
    labelled transition systems. A panic of Kill or Ping in a caller leaves the worker as it was (the caller may recover). *)
From stdpp Require Import list.
From Coq Require Import ZArith.
From RecordUpdate Require Import RecordSet.
From Verif Require Import Err Tomb.
Import RecordSetNotations.

(** workers.go:17, 43, 62: the constructor; its argument is [k_err]. *)
Inductive kind := KError | KDead | KForever.
Inductive event := EvKill | EvReallyKill | EvPanic | EvWait (r : option err).
Record worker := mkWorker {
  k_kind : kind;
  k_err : option err;
  k_tomb : tomb;
  k_run : bool;              (* the goroutine of workers.go:19-22, 64-67 runs *)
  k_log : list event;        (* newest first *)
}.
Global Instance eta_worker : Settable _ := settable! mkWorker <k_kind; k_err; k_tomb; k_run; k_log>.

(** workers.go:17-24 [NewErrorWorker], 43-45 [NewDeadWorker], 62-69 [NewForeverWorker] *)
Definition new_worker (k : kind) (e : option err) : worker :=
  match k with
  | KDead => mkWorker k e tomb_new false []
  | _ => mkWorker k e (tomb_go tomb_new) true []
  end.
(** The log has no counterpart in workers.go:17-88. *)
Definition emit (ev : event) (w : worker) : worker := w <| k_log ::= cons ev |>.
(** w.tomb.Kill(w.err). workers.go:33, 87. *)
Definition kill_tomb (w : worker) : worker :=
  let t := tomb_kill (k_tomb w) (k_err w) in
  if t_panic t then emit EvPanic w else w <| k_tomb := t |>.

Inductive label := LKill | LReallyKill | LReturn | LWait.
Definition step (w : worker) (l : label) : option worker :=
  match l with
  (* workers.go:32-34, 52, 78 [Kill] *)
  | LKill => let w1 := emit EvKill w in Some (match k_kind w with KError => kill_tomb w1 | _ => w1 end)
  (* workers.go:86-88 [ReallyKill] *)
  | LReallyKill => match k_kind w with KForever => Some (kill_tomb (emit EvReallyKill w)) | _ => None end
  (* workers.go:20-21, 65-66 *)
  | LReturn => if k_run w && t_dying (k_tomb w) then Some (w <| k_run := false |> <| k_tomb ::= fun t => tomb_done t None |>) else None
  (* workers.go:37-39, 55-57, 81-83 [Wait] returns; None: it blocks *)
  | LWait =>
    match k_kind w with
    | KDead => Some (emit (EvWait (k_err w)) w)
    | _ => match tomb_wait (k_tomb w) with Some r => Some (emit (EvWait r) w) | None => None end
    end
  end.
Fixpoint run (w : worker) (ls : list label) : option worker :=
  match ls with
  | [] => Some w
  | l :: ls' => match step w l with Some w' => run w' ls' | None => None end
  end.
(** Executions of the workers of workers.go:17-88. *)
Definition reachable (k : kind) (e : option err) (w : worker) : Prop := exists ls, run (new_worker k e) ls = Some w.

(** fake_watcher.go:12-15 [NotAWatcher] *)
Record watcher := mkWatcher {
  f_cap : nat;              (* capacity of changes *)
  f_buf : nat;              (* events in changes *)
  f_closed : bool;
  f_worker : worker;
  f_pings : nat;            (* Pings that sent *)
  f_received : nat;         (* events received from Changes *)
  f_ended : nat;            (* receives that found the channel closed *)
  f_panics : nat;           (* Pings and Closes that panicked *)
}.
Global Instance eta_watcher : Settable _ := settable! mkWatcher <f_cap; f_buf; f_closed; f_worker; f_pings; f_received; f_ended; f_panics>.
(** fake_watcher.go:18-30 [NewFakeWatcher]. [None]: it panics; make also panics for a negative len. *)
Definition new_fake_watcher (len preload : Z) : option watcher :=
  if (len <? preload)%Z then None
  else if (len <? 0)%Z then None
  else Some (mkWatcher (Z.to_nat len) (Z.to_nat preload) false (new_worker KError None) 0 0 0 0).
Inductive wlabel := LPing | LReceive | LHandOver | LClose | LStop | LWorker (l : label).
Definition wstep (f : watcher) (l : wlabel) : option watcher :=
  match l with
  (* fake_watcher.go:44-46 [Ping]; None: it blocks *)
  | LPing => if f_closed f then Some (f <| f_panics ::= S |>)
             else if bool_decide (f_buf f < f_cap f) then Some (f <| f_buf ::= S |> <| f_pings ::= S |>) else None
  (* a receive from Changes, fake_watcher.go:32-34 *)
  | LReceive => match f_buf f with
                | S n => Some (f <| f_buf := n |> <| f_received ::= S |>)
                | O => if f_closed f then Some (f <| f_ended ::= S |>) else None
                end
  (* a Ping meets a waiting receiver *)
  | LHandOver => if f_closed f then None
                 else if bool_decide (f_buf f = 0) then Some (f <| f_pings ::= S |> <| f_received ::= S |>) else None
  (* fake_watcher.go:48-50 [Close] *)
  | LClose => if f_closed f then Some (f <| f_panics ::= S |>) else Some (f <| f_closed := true |>)
  (* fake_watcher.go:36-38 [Stop] returns nil *)
  | LStop => Some f
  (* the embedded worker *)
  | LWorker l' => match step (f_worker f) l' with Some w => Some (f <| f_worker := w |>) | None => None end
  end.
Fixpoint wrun (f : watcher) (ls : list wlabel) : option watcher :=
  match ls with
  | [] => Some f
  | l :: ls' => match wstep f l with Some f' => wrun f' ls' | None => None end
  end.
(** Executions of a watcher of fake_watcher.go:12-50. *)
Definition wreachable (len preload : Z) (f : watcher) : Prop := exists f0 ls, new_fake_watcher len preload = Some f0 /\ wrun f0 ls = Some f.
