(** Model of dependency/snapshot.go (the Getter handed to Start funcs) and of the manifold type of
    dependency/interface.go. *)
From stdpp Require Import gmap strings list.
From RecordUpdate Require Import RecordSet.
From Verif Require Import Err.
Import RecordSetNotations.

(** A non-nil worker.Worker: the engine itself (see util.go:85 SelfManifold), or any other worker, identified
    by a number.  nil is [None : option worker]. *)
Inductive worker := WSelf | WExt (n : nat).
Global Instance worker_eq_dec : EqDecision worker.
Proof. solve_decision. Defined.

(** interface.go:17-81 [Manifold].  Start and Output funcs are identified by numbers: what they do is up to
    the environment ([outf] below; labels of the engine model).  Filters are arbitrary pure functions. *)
Record manifold := mkManifold {
  m_inputs : list string;
  m_start : nat;
  m_filter : option (option err -> option err);
  m_output : option nat
}.

(** The zero Manifold, read by Go when a name is missing from the map.
    The zero Manifold, read when a name is missing from the map, engine.go:491. *)
Definition manifold0 : manifold := mkManifold [] 0 None None.

(** snapshot.go:82-93 [resourceAccess]; [out] is the kind of out pointer passed, [None] for a nil out. *)
Record access := mkAccess { a_name : string; a_as : option nat; a_err : option err }.

(** snapshot.go:17-39 [snapshot], the parts fixed when it is taken. *)
Record snap := mkSnap {
  sn_workers : gmap string (option worker);   (* a declared input whose worker is nil maps to [Some None] *)
  sn_outputs : gmap string (option nat)
}.

(** Behaviour of Output funcs: func id, input worker, kind of out pointer -> error. interface.go:114-117 [OutputFunc]. *)
Definition outputs := nat -> worker -> nat -> option err.

(** snapshot.go:64-80 [rawAccess].  The second component is the Output call made, if any. *)
Definition raw_access (outf : outputs) (sn : snap) (name : string) (out : option nat)
  : option err * option (nat * worker * nat) :=
  match sn_workers sn !! name with
  | None => (Some (EWrap (MsgNotDeclared name) (EConst KMissing)), None)
  | Some None => (Some (EWrap (MsgNotRunning name) (EConst KMissing)), None)
  | Some (Some input) =>
    match out with
    | None => (None, None)
    | Some t =>
      match default None (sn_outputs sn !! name) with
      | None => (Some (EWrap (MsgNotExposed name) (EConst KMissing)), None)
      | Some f => (outf f input t, Some (f, input, t))
      end
    end
  end.

(** snapshot.go:42-56 [Get]: result, Output call, and the new access log. *)
Definition snapshot_get (outf : outputs) (sn : snap) (expired : bool) (alog : list access)
    (name : string) (out : option nat)
  : option err * option (nat * worker * nat) * list access :=
  if expired then (Some (EMsg MsgExpired), None, alog)
  else
    let '(e, call) := raw_access outf sn name out in
    (e, call, alog ++ [mkAccess name out e]).
