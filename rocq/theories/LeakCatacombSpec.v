(** Vocabulary for C88, the catacomb: a worker was bound (two goroutines were created for it), both goroutines are gone. *)
From Verif Require Import Catacomb.

Definition c_bound (ev : event) : bool := match ev with EvBind _ _ => true | _ => false end.
Definition c_gone (ev : event) : bool := match ev with EvGone _ => true | _ => false end.
