(** Model of dependency/util.go:81-106 [SelfManifold]: the manifold that exposes the engine itself.  Its Start
    func returns the engine; in the engine model Start funcs are numbers and what they return is up to the
    environment, so "start func [f] is SelfManifold's" is stated as an assumption on the Start results
    ([self_start] in EngineMoreSpec.v).  Its Output func is modelled here. *)
From stdpp Require Import strings.
From Verif Require Import Err Snapshot Engine.
Local Open Scope string_scope.

(** The kinds of out pointers: *Installer, *Reporter, anything else. util.go:95-96. *)
Definition out_installer : nat := 0.
(** util.go:97-98. *)
Definition out_reporter : nat := 1.

(** util.go:90-104.  On success the engine is stored through the pointer (not modelled: the only value ever stored is
    the engine). *)
Definition self_output (w : worker) (t : nat) : option err :=
  match w with
  | WExt _ => Some (EMsg (MsgText "unexpected input worker"))
  | WSelf =>
    if bool_decide (t = out_installer) then None
    else if bool_decide (t = out_reporter) then None
    else Some (EMsg (MsgText "out should be a *Installer or a *Reporter"))
  end.

(** util.go:85-106, with the numbers of its Start and Output funcs *)
Definition self_manifold (f o : nat) : manifold := mkManifold [] f None (Some o).
