(** Model of the contexts a tomb hands out: gopkg.in/tomb.v2 context.go [Context], [addChild] and the part of
    [kill] that cancels them, written from knowledge of its source (the package is not part of /repo, so this file
    belongs to the trusted base).  Used by catacomb/catacomb.go:233-241 [Catacomb.Context], [scopedContext],
    dependency/engine.go:437-440 [scopedContext], runner.go:492 and runner.go:554.
    Contexts are numbers.  A child made by [context.WithCancel] is done iff it was cancelled or its parent is done. *)
From stdpp Require Import gmap list.
From RecordUpdate Require Import RecordSet.
Import RecordSetNotations.

(** What is observed of tomb.v2 context.go; called at engine.go:439, runner.go:492, 554, catacomb.go:234. *)
Inductive cevent :=
  | EvContext (p c : nat)          (* Context(p) returned c *)
  | EvParentDone (p : nat)         (* the context p, not made by the tomb, is done *)
  | EvKilled.                      (* the tomb is dying *)

(** tomb.v2, the fields of Tomb that context.go uses. *)
Record cstate := mkC {
  c_dying : bool;                  (* t.reason != ErrStillAlive *)
  c_child : gmap nat nat;          (* t.child: parent -> child *)
  c_parent : gmap nat nat;         (* child -> the parent it was derived from *)
  c_cancelled : gset nat;          (* children whose cancel func was called *)
  c_over : gset nat;               (* parents that are done *)
  c_next : nat;
  c_log : list cevent              (* newest first *)
}.
Global Instance eta_cstate : Settable _ := settable! mkC <c_dying; c_child; c_parent; c_cancelled; c_over; c_next; c_log>.

(** A new tomb: engine.go:165, runner.go:33, catacomb.go:30. *)
Definition c_init : cstate := mkC false ∅ ∅ ∅ ∅ 0 [].

(** [<-child.Done()] is ready. Go's package context. *)
Definition c_done (s : cstate) (c : nat) : bool :=
  bool_decide (c ∈ c_cancelled s) ||
  match c_parent s !! c with Some p => bool_decide (p ∈ c_over s) | None => false end.

(** context.Background(): never done; a nil parent means it, the tombs of the package not being made by
    tomb.WithContext. engine.go:438, runner.go:554. *)
Definition background : nat := 0.

(** [addChild]: a child of a dying tomb is cancelled at once; otherwise it is remembered, and the children that
    are done are forgotten. tomb.v2 context.go. *)
Definition c_add (p c : nat) (s : cstate) : cstate :=
  if c_dying s then s <| c_cancelled ::= union {[c]} |>
  else let s1 := s <| c_child ::= <[p := c]> |> in
    s1 <| c_child ::= filter (fun pc => c_done s1 (snd pc) = false) |>.

(** [Context]. tomb.v2 context.go; called at engine.go:439, runner.go:492, 554, catacomb.go:234. *)
Definition c_context (parent : option nat) (s : cstate) : cstate :=
  let p := default background parent in
  match c_child s !! p with
  | Some c => s <| c_log ::= cons (EvContext p c) |>
  | None =>
    let c := c_next s in
    let s1 := s <| c_next ::= S |> <| c_parent ::= <[c := p]> |> in
    c_add p c s1 <| c_log ::= cons (EvContext p c) |>
  end.

(** [kill], the first time. tomb.v2 tomb.go; called at engine.go:231, runner.go:314, catacomb.go:269. *)
Definition c_kill (s : cstate) : cstate :=
  if c_dying s then s
  else s <| c_dying := true |> <| c_cancelled ::= union (list_to_set (map_to_list (c_child s)).*2) |>
         <| c_child := ∅ |> <| c_log ::= cons EvKilled |>.

(** The calls of engine.go:439, 231; runner.go:492, 554, 314; catacomb.go:234, 269; and the end of a parent context. *)
Inductive clabel := LContext (parent : option nat) | LKillTomb | LParentDone (p : nat).

(** As above: engine.go:439, 231; runner.go:492, 554, 314; catacomb.go:234, 269. *)
Definition c_step (s : cstate) (l : clabel) : option cstate :=
  match l with
  | LContext parent => Some (c_context parent s)
  | LKillTomb => Some (c_kill s)
  | LParentDone p =>
    if bool_decide (p = background) then None
    else Some (s <| c_over ::= union {[p]} |> <| c_log ::= cons (EvParentDone p) |>)
  end.

(** Executions: any order of these calls (engine.go:439, runner.go:492, catacomb.go:234). *)
Fixpoint c_run (s : cstate) (ls : list clabel) : option cstate :=
  match ls with
  | [] => Some s
  | l :: ls' => match c_step s l with Some s' => c_run s' ls' | None => None end
  end.
(** As above (engine.go:439, runner.go:492, catacomb.go:234). *)
Definition c_reachable (s : cstate) : Prop := exists ls, c_run c_init ls = Some s.
