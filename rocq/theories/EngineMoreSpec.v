(** Vocabulary for C71 (the record of what an attempt asked of its getter). *)
From stdpp Require Import gmap strings list.
From Verif Require Import Err Snapshot Engine EngineSpec.

(** The calls made on the getter of attempt [g], oldest first, with their arguments and results. *)
Fixpoint accesses (log : list event) (g : nat) : list access :=
  match log with
  | [] => []
  | EvGet g' name out e _ :: log' =>
    accesses log' g ++ (if bool_decide (g' = g) then [mkAccess name out e] else [])
  | _ :: log' => accesses log' g
  end.

(** The attempt of manifold [n] that the loop heard of last, since [n] was installed: it was told that the worker
    started and accepted it, or was told that the attempt is over. *)
Fixpoint last_logged (log : list event) (n : string) : option nat :=
  match log with
  | [] => None
  | EvInstalled n' _ :: log' => if bool_decide (n' = n) then None else last_logged log' n
  | EvRegister g n' _ _ :: log' => if bool_decide (n' = n) then Some g else last_logged log' n
  | EvStopped g n' _ _ _ :: log' => if bool_decide (n' = n) then Some g else last_logged log' n
  | _ :: log' => last_logged log' n
  end.

(** The Start func number [f] returns the engine itself, as util.go:87-89 does. *)
Definition self_start (log : list event) (f : nat) : Prop :=
  forall g n t r, EvStartCall g n f t ∈ log -> EvStartRet g n r ∈ log -> r = inl WSelf.
(** The Output func number [o] only ever comes with the Start func number [f], as in the result of SelfManifold. *)
Definition goes_with (log : list event) (o f : nat) : Prop :=
  forall n m, EvInstalled n m ∈ log -> m_output m = Some o -> m_start m = f.
