(** Vocabulary for C76: happens-before and data races, as the Go memory model defines them. *)
From stdpp Require Import gmap strings list relations.
From Verif Require Import Race.

(** The goroutines that take part in an event. *)
Definition part (t : nat) (e : nat * act) : Prop := e.1 = t \/ e.2 = AMeet t.

(** Event [i] is synchronised before event [j], or comes before it in one goroutine. *)
Definition edge (tr : trace) (i j : nat) : Prop :=
  i < j /\ exists e e', tr !! i = Some e /\ tr !! j = Some e' /\
    ((exists t, part t e /\ part t e') \/                            (* one goroutine *)
     (exists t, e.2 = AGo t /\ part t e') \/                         (* go statement *)
     (exists m, e.2 = AUnlock m /\ e'.2 = ALock m) \/                (* mutex *)
     (exists c, e.2 = AClose c /\ e'.2 = AClosed c)).                (* closed channel *)
Definition hb (tr : trace) : nat -> nat -> Prop := tc (edge tr).

(** Two accesses to [l], at least one of them a write. *)
Definition conflict (l : loc) (a b : act) : Prop :=
  (a = AWr l /\ (b = AWr l \/ b = ARd l)) \/ (a = ARd l /\ b = AWr l).
(** No data race on the variables in [V]: accesses that conflict are ordered. *)
Definition race_free_on (V : loc -> Prop) (tr : trace) : Prop :=
  forall l i j t a u b, V l -> tr !! i = Some (t, a) -> tr !! j = Some (u, b) -> conflict l a b -> i <> j -> hb tr i j \/ hb tr j i.
Definition race_free (tr : trace) : Prop := race_free_on (fun _ => True) tr.
