(** Vocabulary for property C55. *)
From stdpp Require Import base decidable.
From Verif Require Import Err TestWorkers.

(** The errors that tomb.Kill does not accept. *)
Definition forbidden (e : option err) : Prop := e = Some ETombDying \/ e = Some ETombStillAlive.
Global Instance forbidden_dec e : Decision (forbidden e).
Proof. unfold forbidden. apply _. Defined.
(** The call that ends a worker. *)
Definition killer (k : kind) : event := match k with KForever => EvReallyKill | _ => EvKill end.
(** How many calls of Ping and Close come after the first Close. *)
Fixpoint late_calls (closed : bool) (ls : list wlabel) : nat :=
  match ls with
  | [] => 0
  | LClose :: ls => (if closed then 1 else 0) + late_calls true ls
  | LPing :: ls => (if closed then 1 else 0) + late_calls closed ls
  | _ :: ls => late_calls closed ls
  end.
