(** Vocabulary for C83, the engine: methods called from code of the user that the engine runs. *)
From stdpp Require Import gmap strings list.
From Verif Require Import Err Tomb Validate Snapshot Engine EngineSpec EngineCalls.

(** The loop runs code of the user: IsFatal and WorstError (engine.go:659-660), manifolds' Filter (:653), Kill of workers
    (:588, :742), Report of workers (:313). Until that call returns, the loop (engine.go:196-228) does nothing: it takes nothing
    from its channels, so that it neither starts to stop all workers (:205), nor answers Report (:210) or Install (:213), nor handles
    started (:216) and stopped (:218) attempts. Simplification: the loop stands between two iterations, not inside the
    handler (handlers can be taken as atomic: C73). *)
Definition of_loop (l : clabel) : bool :=
  match l with CEng LDying | CEng (LStarted _) | CEng (LStopped _) | CServe _ false => true | _ => false end.
Definition loop_waits (ls : list clabel) : Prop := forall l, l ∈ ls -> of_loop l = false.
(** Things that only the loop does. *)
Definition by_loop (ev : event) : bool :=
  match ev with
  | EvInstalled _ _ | EvAttempt _ _ _ _ _ | EvRegister _ _ _ _ | EvMetric _ | EvCancel _ _ | EvStopped _ _ _ _ _ | EvUninstall _ | EvDead | EvReport _ => true
  | _ => false
  end.
