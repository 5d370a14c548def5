(** Vocabulary for C79: wrapped errors. *)
From stdpp Require Import base list.
From Verif Require Import Err.

(** [x] is [e], or the error that [e] wraps, or the error that that one wraps, and so on. *)
Inductive chain : err -> err -> Prop :=
  | chain_here e : chain e e
  | chain_wrap m e x : chain e x -> chain (EWrap m e) x.

(** What the engine makes of the error with which a manifold's worker ended (interface.go:118-145). *)
Inductive verdict := Leave | RestartSoon | Remove | RestartLater.
(** [errors.Is] finds one of the constants, or none. *)
Definition engine_verdict (e : option err) (v : verdict) : Prop :=
  match e with
  | None => v = Leave
  | Some x =>
    (chain x (EConst KMissing) /\ v = Leave) \/
    (chain x (EConst KStartAborted) /\ v = Leave) \/
    (chain x (EConst KBounce) /\ v = RestartSoon) \/
    (chain x (EConst KUninstall) /\ v = Remove) \/
    ((forall c, c ∈ [KMissing; KStartAborted; KBounce; KUninstall] -> ~ chain x (EConst c)) /\ v = RestartLater)
  end.

(** [e] annotated and traced any number of times. *)
Fixpoint wrapped (ms : list msg) (e : err) : err :=
  match ms with [] => e | m :: ms' => EWrap m (wrapped ms' e) end.
