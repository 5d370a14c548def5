(** Vocabulary for C86: how often Start funcs are called. *)
From stdpp Require Import gmap strings list.
From Coq Require Import ZArith.
From Verif Require Import Err Snapshot.
From Verif Require Engine Runner.

(** How many Start calls for a name a stretch of the engine's history contains; start funcs for an id, of the runner's. *)
Fixpoint engine_starts (log : list Engine.event) (n : string) : nat :=
  match log with
  | [] => 0
  | Engine.EvStartCall _ n' _ _ :: log' => (if bool_decide (n' = n) then 1 else 0) + engine_starts log' n
  | _ :: log' => engine_starts log' n
  end.
Fixpoint runner_starts (log : list Runner.event) (id : string) : nat :=
  match log with
  | [] => 0
  | Runner.EvStartCall _ id' _ _ :: log' => (if bool_decide (id' = id) then 1 else 0) + runner_starts log' id
  | _ :: log' => runner_starts log' id
  end.
