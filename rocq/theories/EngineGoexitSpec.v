(** Vocabulary for C84. *)
From stdpp Require Import gmap strings list.
From Verif Require Import Err Snapshot Engine EngineSpec EngineProgressSpec EngineGoexit.

(** The log of the engine. *)
Definition glog (y : gstate) : list event := s_log (y_s y).
(** The goroutine of attempt [g], for name [n], has left by Goexit: inside the Start func, or inside the Wait of worker [w]. *)
Definition lost_in_start (y : gstate) (g : nat) (n : string) : Prop :=
  g ∈ y_lost y /\ (exists f t, EvStartCall g n f t ∈ glog y) /\ forall r, EvStartRet g n r ∉ glog y.
Definition lost_in_wait (y : gstate) (g : nat) (n : string) (w : worker) : Prop := g ∈ y_lost y /\ EvStartRet g n (inl w) ∈ glog y.
(** The steps of the engine in a schedule. *)
Fixpoint engine_steps (ls : list glabel) : list label :=
  match ls with [] => [] | GEng l :: ls' => l :: engine_steps ls' | _ :: ls' => engine_steps ls' end.
