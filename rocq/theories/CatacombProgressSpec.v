(** Vocabulary for the progress properties of the Catacomb (C44, C48, C49, C51-C53). *)
From stdpp Require Import gmap strings list.
From Verif Require Import Err Catacomb.

(** New requests of clients. *)
Definition request (l : label) : bool := match l with LInvoke _ _ | LAdd _ _ | LKill _ | LWait | LErrDying => true | _ => false end.
(** A worker finishes, Work is over: left to the workers and to Work. *)
Definition foreign (l : label) : bool := match l with LEnd _ _ | LWorkRet _ => true | _ => false end.
(** Everything else is done by the catacomb's own goroutines and by calls of Invoke and Add that are under way. *)
Definition internal (l : label) : bool := negb (request l) && negb (foreign l).
(** None of them can take a step. *)
Definition at_rest (me : nat) (s : state) : Prop := forall l, internal l = true -> step me s l = None.

(** The labels that belong to binding [b]. *)
Definition of_binding (b : nat) (l : label) : bool :=
  match l with
  | LWaitRet b' | LWaitKill b' | LWaitClose b' | LWaitExit b' | LStopDying b' | LStopDone b' | LStopKill b' | LStopWaited b' | LStopExit b' => bool_decide (b' = b)
  | _ => false
  end.

(** The goroutines that have called (or for which was called) Add on the WaitGroup and not yet Done: the listening one
    (catacomb.go:106-117), and of each binding the waiting and the stopping one (catacomb.go:187-202). *)
Definition waiting_bind (r : bind) : bool := match b_wait r with VGone => false | _ => true end.
Definition stopping_bind (r : bind) : bool := match b_stop r with SGone => false | _ => true end.
Definition goroutines (s : state) : nat :=
  (match x_lis s with LiSelect | LiGot _ => 1 | _ => 0 end) +
  size (filter (fun p => waiting_bind p.2 = true) (x_binds s)) + size (filter (fun p => stopping_bind p.2 = true) (x_binds s)).
