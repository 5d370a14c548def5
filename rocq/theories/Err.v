(** Error values of the Go code, and [errors.Is] / [errors.As].

    A Go [error] is [option err]: [None] is nil.
    Opaque errors made by users (workers, Start funcs, filters) are [EUser n]; two of them are the same error
    value iff they have the same number.  Simplification: custom [Is]/[As] methods and multi-errors
    ([Unwrap() []error]) of user error types are not modelled; neither are message texts. *)
From stdpp Require Import base decidable countable list strings.

(** Constants: dependency/interface.go:128-145 ([ErrBounce], [ErrMissing], [ErrUninstall]),
    dependency/engine.go:505-507 ([errAborted]), runner.go:23-24 ([ErrAborted], [ErrDead]). *)
Inductive const_err :=
  | KMissing | KBounce | KUninstall | KStartAborted
  | KRunnerAborted | KRunnerDead.

(** juju/errors typed errors used by the code: [errors.NotFoundf] (runner.go:355),
    [errors.AlreadyExistsf] (runner.go:471), [errors.NotValidf] (runner.go:191, catacomb.go:58-68, engine.go:116-122). *)
Inductive err_type := TNotFound | TAlreadyExists | TNotValid.

(** Messages of errors created inside the package. *)
Inductive msg :=
  | MsgUnknownManifold (n : string)       (* engine.go:384 *)
  | MsgSecondWorker (n : string)          (* engine.go:390 *)
  | MsgUnexpectedStart (n : string)       (* engine.go:584 *)
  | MsgUnexpectedStop (n : string)        (* engine.go:658 *)
  | MsgAlreadyInstalled (n : string)      (* engine.go:338 *)
  | MsgCannotInstall (n : string)         (* engine.go:341 *)
  | MsgShuttingDown                       (* engine.go:326 *)
  | MsgCycle (n : string)                 (* util.go:65 *)
  | MsgExpired                            (* snapshot.go:46 *)
  | MsgNotDeclared (n : string)           (* snapshot.go:67 *)
  | MsgNotRunning (n : string)            (* snapshot.go:69 *)
  | MsgNotExposed (n : string)            (* snapshot.go:77 *)
  | MsgGoexit                             (* runner.go:654 *)
  | MsgBadKillTomb                        (* catacomb.go:254 *)
  | MsgBadKillOther                       (* catacomb.go:259 *)
  | MsgStillAlive                         (* catacomb.go:281 *)
  | MsgPanicked (n : nat)                 (* catacomb.go:321, the argument identifies the panic value *)
  | MsgReused                             (* catacomb.go:93 *)
  | MsgNilInit (i : nat)                  (* catacomb.go:68 *)
  | MsgTrace                              (* errors.Trace *)
  | MsgNote (n : nat)                     (* any annotation made by a user *)
  | MsgText (s : string).                 (* fixed text, see the place of use *)

Inductive err :=
  | EUser (n : nat)
  | EConst (c : const_err)
  | ETombDying                            (* tomb.ErrDying *)
  | ETombStillAlive                       (* tomb.ErrStillAlive *)
  | ECatacombDying (c : nat)              (* catacomb.go:286-288, dyingError of the catacomb c *)
  | ETyped (t : err_type) (m : msg)
  | EMsg (m : msg)                        (* errors.New / errors.Errorf *)
  | EWrap (m : msg) (e : err).            (* errors.Trace / errors.Annotatef: Unwrap gives e *)

Global Instance const_err_eq_dec : EqDecision const_err.
Proof. solve_decision. Defined.
Global Instance err_type_eq_dec : EqDecision err_type.
Proof. solve_decision. Defined.
Global Instance msg_eq_dec : EqDecision msg.
Proof. solve_decision. Defined.
Global Instance err_eq_dec : EqDecision err.
Proof. solve_decision. Defined.

(** [errors.Is(e, target)]: walk the Unwrap chain.
    Go's standard library; called at engine.go:536, 623, 630, 685-696 and runner.go:401. *)
Fixpoint err_is (e target : err) : bool :=
  bool_decide (e = target) ||
  match e with
  | EWrap _ e' => err_is e' target
  | _ => false
  end.

(** [errors.Is] on a possibly nil error and a constant. engine.go:536, 623, 630, 685-696. *)
Definition is_const (e : option err) (c : const_err) : bool :=
  match e with
  | None => false
  | Some e => err_is e (EConst c)
  end.

(** [errors.Is(e, errors.NotFound)] and friends. runner.go:401. *)
Fixpoint is_type (e : err) (t : err_type) : bool :=
  match e with
  | ETyped t' _ => bool_decide (t' = t)
  | EWrap _ e' => is_type e' t
  | _ => false
  end.

(** [errors.As(e, &dyingError)]: the first catacomb dyingError on the chain (catacomb.go:256-257). *)
Fixpoint as_dying (e : err) : option nat :=
  match e with
  | ECatacombDying c => Some c
  | EWrap _ e' => as_dying e'
  | _ => None
  end.

(** [errors.Trace]: nil stays nil. util.go:25, 57; catacomb.go:89, 167. *)
Definition trace (e : option err) : option err := EWrap MsgTrace <$> e.
