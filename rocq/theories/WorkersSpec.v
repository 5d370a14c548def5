(** Vocabulary for properties C54 and C65: what the log of Workers.v says. The log is a list of events, newest first. *)
From stdpp Require Import gmap strings list.
From Coq Require Import ZArith.
From Verif Require Import Err Workers.
Local Open Scope Z_scope.

Definition called (log : list event) (i : nat) (c : call) (t : Z) : Prop := EvCall i c t ∈ log.
(** The worker has finished. *)
Definition ended (log : list event) : Prop := exists e, EvEnd e ∈ log.
Definition failed (log : list event) (i : nat) : Prop := EvFail i ∈ log.
(** Functions that kill the worker first. *)
Definition kills (c : call) : Prop := match c with CStop | CCheckKill | CCleanKill | CDirtyKill | CCheckNilOrKill false => True | _ => False end.

(** What call [i] of [c] made at time [t0] promises when it returns [r] at time [t]; [log] is the log before. *)
Definition promise (V : setup) (i : nat) (c : call) (t0 : Z) (log : list event) (r : option err) (t : Z) : Prop :=
  match c with
  | CStop => EvEnd r ∈ log
  | CDead => False
  | CCheckAlive => r = None /\ (failed log i /\ ended log \/ ~ failed log i /\ t0 + v_aliveDelay V <= t)
  | CCheckKilled => EvEnd r ∈ log /\ ~ failed log i \/ r = Some timed_out /\ failed log i /\ t0 + v_killTimeout V <= t
  | CCheckKill => EvEnd r ∈ log /\ ~ failed log i \/ r = Some timed_out /\ failed log i /\ exists t1, EvKill i t1 ∈ log /\ t1 + v_killTimeout V <= t
  | CCleanKill => r = None /\ (EvEnd None ∈ log /\ ~ failed log i \/
                               failed log i /\ ((exists e, EvEnd (Some e) ∈ log) \/ exists t1, EvKill i t1 ∈ log /\ t1 + v_killTimeout V <= t))
  | CDirtyKill => r = None /\ (ended log /\ ~ failed log i \/ failed log i /\ exists t1, EvKill i t1 ∈ log /\ t1 + v_killTimeout V <= t)
  | CCheckNilOrKill true => r = None /\ ~ failed log i
  | CCheckNilOrKill false => r = None /\ failed log i /\ (ended log \/ exists t1, EvKill i t1 ∈ log /\ t1 + v_killTimeout V <= t)
  end.

(** Steps that the code takes by itself. *)
Definition internal (l : label) : Prop := match l with LKill _ | LWaited _ | LHelper _ | LSelWait _ | LSelTimer _ => True | _ => False end.
Definition at_rest (V : setup) (s : state) : Prop := forall l, internal l -> step V s l = None.
