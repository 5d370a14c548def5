(** Model of gopkg.in/tomb.v2 (version d5d1b5820637 of go.mod), written from knowledge of its source: the
    package is not part of /repo, so this file belongs to the trusted base.
    Used by dependency/engine.go:165, runner.go:33, catacomb/catacomb.go:30, workertest/workers.go:27,73. *)
From stdpp Require Import base decidable.
From RecordUpdate Require Import RecordSet.
From Verif Require Import Err.
Import RecordSetNotations.

(** [t.reason]: [ErrStillAlive] until the first kill. tomb.v2, field [reason]. *)
Inductive reason := StillAlive | Reason (e : option err).

(** tomb.v2, type Tomb; engine.go:165, runner.go:33, catacomb.go:30, workers.go:27, 73. *)
Record tomb := mkTomb {
  t_reason : reason;       (* t.reason; t.dying is closed iff it is not StillAlive *)
  t_alive : nat;           (* t.alive: tracked goroutines *)
  t_dead : bool;           (* t.dead closed *)
  t_panic : bool           (* a Kill or Go call panicked *)
}.
Global Instance eta_tomb : Settable _ := settable! mkTomb <t_reason; t_alive; t_dead; t_panic>.

(** zero value after [init()]. As in engine.go:165, runner.go:33, catacomb.go:30. *)
Definition tomb_new : tomb := mkTomb StillAlive 0 false false.

(** [<-t.Dying()] is ready.
    engine.go:202, 325, 523, 544, 561, 751; runner.go:369, 407, 413, 428, 626; catacomb.go:111, 165, 197, 278. *)
Definition t_dying (t : tomb) : bool :=
  match t_reason t with StillAlive => false | Reason _ => true end.

(** [t.kill(reason)]:
      reason == ErrStillAlive           -> panic
      reason == ErrDying                -> panic if still alive, else ignored
      t.reason == ErrStillAlive         -> t.reason = reason; close(t.dying)
      t.reason == nil                   -> t.reason = reason.
    Called at engine.go:231, 384, 390, 584, 658, 661; runner.go:314; catacomb.go:269; workers.go:33, 87. *)
Definition tomb_kill (t : tomb) (e : option err) : tomb :=
  match e with
  | Some ETombStillAlive => t <| t_panic := true |>
  | Some ETombDying =>
      match t_reason t with
      | StillAlive => t <| t_panic := true |>
      | Reason _ => t
      end
  | _ =>
      match t_reason t with
      | StillAlive => t <| t_reason := Reason e |>
      | Reason None => t <| t_reason := Reason e |>
      | Reason (Some _) => t
      end
  end.

(** [t.Go(f)]: panics when the tomb is dead, otherwise one more goroutine.
    engine.go:150, runner.go:245, catacomb.go:127, workers.go:19, 64. *)
Definition tomb_go (t : tomb) : tomb :=
  if t_dead t then t <| t_panic := true |> else t <| t_alive ::= S |>.

(** [t.run(f)] after [f] returned [e]: alive--; if alive == 0 || e != nil { kill(e); if alive == 0 close(dead) }.
    The end of the goroutines of engine.go:150, runner.go:245, catacomb.go:127, workers.go:19, 64. *)
Definition tomb_done (t : tomb) (e : option err) : tomb :=
  let t1 := t <| t_alive ::= pred |> in
  if bool_decide (t_alive t1 = 0) || bool_decide (e <> None) then
    let t2 := tomb_kill t1 e in
    if t_panic t2 then t2
    else if bool_decide (t_alive t2 = 0) then t2 <| t_dead := true |> else t2
  else t1.

(** [t.Err()]. engine.go:276, catacomb.go:225. *)
Definition tomb_err (t : tomb) : option err :=
  match t_reason t with StillAlive => Some ETombStillAlive | Reason e => e end.

(** [t.Wait()]: blocks ([None]) until dead, then returns the reason.
    engine.go:236, runner.go:308, catacomb.go:219, workers.go:38, 82. *)
Definition tomb_wait (t : tomb) : option (option err) :=
  if t_dead t then Some (tomb_err t) else None.
