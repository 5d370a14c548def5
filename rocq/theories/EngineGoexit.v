(** The engine, with Start funcs and workers that leave by runtime.Goexit. A layer over Engine.v.
    runtime.Goexit ends the goroutine that calls it; deferred calls run. In [runWorker] (dependency/engine.go:512-575) the goroutine runs
    the Start func (:530) and the worker's Wait (:565). If one of them calls Goexit, the deferred [snapshot.expire()] (:520) runs, and
    nothing else: neither [started] (:549) nor [stopped] (:569) is sent. *)
From stdpp Require Import gmap strings list.
From RecordUpdate Require Import RecordSet.
From Verif Require Import Err Tomb Validate Snapshot Engine.
Import RecordSetNotations.

(** The attempts whose goroutine is gone like that, and what their getters said afterwards. engine.go:512-575. *)
Record gstate := mkGState { y_s : state; y_lost : gset nat; y_gets : list (nat * option err) }.
#[global] Instance eta_gstate : Settable _ := settable! mkGState <y_s; y_lost; y_gets>.
(** engine.go:132-153. *)
Definition ginit : gstate := mkGState init ∅ [].

(** The goroutine that takes part in a step, or whose getter is used. *)
Definition gor_of (l : label) : option nat :=
  match l with
  | LDelayFire g | LAbort g | LGet g _ _ | LStartRet g _ | LExpire g | LStarted g | LStartedDying g | LExit g _ | LSelfDying g | LStopped g => Some g
  | _ => None
  end.
Inductive glabel :=
  | GEng (l : label)
  | GExit (g : nat)                               (* :530 or :565, Goexit *)
  | GGet (g : nat) (n : string) (out : option nat).   (* the getter of such an attempt is used *)
(** The goroutine of engine.go:512-575 is gone. *)
Definition gone (y : gstate) (l : label) : bool := match gor_of l with Some g => bool_decide (g ∈ y_lost y) | None => false end.
(** engine.go:512-575: :530, :565 Goexit; :520 the deferred expire; snapshot.go:42 for the getter. *)
Definition gstep (E : env) (y : gstate) (l : glabel) : option gstate :=
  match l with
  | GEng l => if gone y l then None else match step E (y_s y) l with Some s' => Some (y <| y_s := s' |>) | None => None end
  | GExit g =>
    if bool_decide (g ∈ y_lost y) then None else
    match s_gors (y_s y) !! g with
    | Some (mkGor _ _ _ _ _ PStart) | Some (mkGor _ _ _ _ _ (PWait _)) => Some (y <| y_lost ::= union {[g]} |>)
    | _ => None
    end
  | GGet g n out =>
    if bool_decide (g ∈ y_lost y) then
      match s_gors (y_s y) !! g with
      | Some r => let '(e, _, _) := snapshot_get (e_outf E) (g_snap r) true (g_access r) n out in Some (y <| y_gets ::= cons (g, e) |>)
      | None => None
      end
    else None
  end.
(** Executions (engine.go:512-575). *)
Fixpoint grun (E : env) (y : gstate) (ls : list glabel) : option gstate :=
  match ls with [] => Some y | l :: ls' => match gstep E y l with Some y' => grun E y' ls' | None => None end end.
(** As above (engine.go:512-575). *)
Definition greachable (E : env) (y : gstate) : Prop := exists ls, grun E ginit ls = Some y.
