(** Vocabulary for C80: which steps of a catacomb are bound to happen. *)
From stdpp Require Import list.
From Verif Require Import Err Catacomb CatacombSpec CatacombProgressSpec.

(** Its own goroutines go on; Work returns when the catacomb is dying; a worker on which Kill was called finishes. *)
Definition due (s : state) (l : label) : Prop :=
  match l with
  | LEnd k _ => exists who, EvWKill who (WExt k) ∈ x_log s
  | LWorkRet _ => is_dying (x_log s)
  | _ => internal l = true
  end.
(** Invoke or Add is called. *)
Definition new_work (l : label) : bool := match l with LInvoke _ _ | LAdd _ _ => true | _ => false end.
