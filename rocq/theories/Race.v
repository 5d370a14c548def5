(** Memory accesses of goroutines, and the happens-before order of the Go memory model (go.dev/ref/mem). A small
    language for what goroutines do to shared memory; RaceProgs.v writes runner.go, engine.go, snapshot.go and
    catacomb.go in it. The language has no values: every branch of the code is a choice, every loop may end at any
    time. That only adds executions. *)
From stdpp Require Import gmap strings list.
From RecordUpdate Require Import RecordSet.
Import RecordSetNotations.

(** A variable: the name of a field, and the number of the object (0 for the runner, engine or catacomb itself).
    All entries of one map, and one field of all elements of a map, count as one variable: that only adds races.
    E.g. runner.go:32-70, engine.go:156-188. *)
Definition loc : Type := string * nat.

(** Statements; which statement of runner.go, engine.go, snapshot.go and catacomb.go is which command: RaceProgs.v. *)
Inductive cmd :=
  | Rd (l : loc) | Wr (l : loc)
  | Lock (m : nat) | Unlock (m : nat)       (* sync.Mutex: any goroutine may unlock it *)
  | Close (c : nat) | Closed (c : nat)      (* close a channel; receive from a closed channel *)
  | Open (c : nat)                          (* the default branch of such a receive: not closed yet. Orders nothing *)
  | Send (c : nat) | Recv (c : nat)         (* on a channel without a buffer *)
  | Go (p : list cmd)                       (* go statement *)
  | Choose (ps : list (list cmd))           (* one of these *)
  | Many (p : list cmd)                     (* any number of times *)
  | New (f : nat -> list cmd).              (* allocate an object *)

(** What is seen of an execution: who did what, oldest first.
    The actions of go.dev/ref/mem; no counterpart in /repo, e.g. a lock at runner.go:335. *)
Inductive act :=
  | ARd (l : loc) | AWr (l : loc) | ALock (m : nat) | AUnlock (m : nat) | AClose (c : nat) | AClosed (c : nat)
  | AMeet (u : nat)                         (* a send on a channel without a buffer, received by u *)
  | AGo (u : nat).                          (* goroutine u was started *)
(** As above (e.g. runner.go:335). *)
Definition trace : Type := list (nat * act).

(** The goroutines that run runner.go, engine.go, snapshot.go or catacomb.go. *)
Record mstate := mkM {
  m_thr : gmap nat (list cmd);              (* goroutines *)
  m_held : gset nat;                        (* locked mutexes *)
  m_closed : gset nat;                      (* closed channels *)
  m_fresh : nat;
  m_tr : trace
}.
#[global] Instance eta_mstate : Settable _ := settable! mkM <m_thr; m_held; m_closed; m_fresh; m_tr>.

(** As above (of runner.go, engine.go, snapshot.go or catacomb.go). *)
Definition put (t : nat) (p : list cmd) (s : mstate) : mstate := s <| m_thr ::= <[t := p]> |>.
(** As above (of runner.go, engine.go, snapshot.go or catacomb.go). *)
Definition ev (t : nat) (a : act) (s : mstate) : mstate := s <| m_tr ::= fun tr => tr ++ [(t, a)] |>.

(** One step of goroutine [t]. [n]: which branch of a choice, whether to go round a loop again, or who receives.
    Go's statements, as used in runner.go, engine.go, snapshot.go and catacomb.go. *)
Definition mstep (s : mstate) (t n : nat) : option mstate :=
  match m_thr s !! t with
  | None | Some [] => None
  | Some (c :: k) =>
    match c with
    | Rd l => Some (ev t (ARd l) (put t k s))
    | Wr l => Some (ev t (AWr l) (put t k s))
    | Lock m => if bool_decide (m ∈ m_held s) then None else Some (ev t (ALock m) (put t k (s <| m_held ::= union {[m]} |>)))
    | Unlock m => if bool_decide (m ∈ m_held s) then Some (ev t (AUnlock m) (put t k (s <| m_held ::= (.∖ {[m]}) |>))) else None
    | Close c => Some (ev t (AClose c) (put t k (s <| m_closed ::= union {[c]} |>)))
    | Closed c => if bool_decide (c ∈ m_closed s) then Some (ev t (AClosed c) (put t k s)) else None
    | Open c => if bool_decide (c ∈ m_closed s) then None else Some (put t k s)
    | Send c =>
      match m_thr s !! n with
      | Some (Recv c' :: k') => if bool_decide (c = c') && negb (bool_decide (n = t)) then Some (ev t (AMeet n) (put n k' (put t k s))) else None
      | _ => None
      end
    | Recv _ => None
    | Go p => Some (ev t (AGo (m_fresh s)) (put (m_fresh s) p (put t k (s <| m_fresh ::= S |>))))
    | Choose ps => match ps !! n with Some p => Some (put t (p ++ k) s) | None => None end
    | Many p => Some (put t (if bool_decide (n = 0) then k else p ++ Many p :: k) s)
    | New f => Some (put t (f (m_fresh s) ++ k) (s <| m_fresh ::= S |>))
    end
  end.
(** Executions (of runner.go, engine.go, snapshot.go or catacomb.go). *)
Fixpoint mrun (s : mstate) (ls : list (nat * nat)) : option mstate :=
  match ls with [] => Some s | (t, n) :: ls' => match mstep s t n with Some s' => mrun s' ls' | None => None end end.

(** A program: the variables that the constructor initialises, and what its goroutine (0) does next.
    E.g. runner.go:206-248, engine.go:132-153. *)
Record prog := mkProg { p_ini : list loc; p_main : list cmd }.
(** runner.go:206-248, engine.go:132-153, catacomb.go:81. *)
Definition minit (P : prog) : mstate := mkM {[0 := p_main P]} ∅ ∅ 1 (map (fun l => (0, AWr l)) (p_ini P)).
(** Executions (of runner.go, engine.go, snapshot.go or catacomb.go). *)
Definition mreachable (P : prog) (s : mstate) : Prop := exists ls, mrun (minit P) ls = Some s.
