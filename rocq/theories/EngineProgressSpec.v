(** Vocabulary for C15 and C24: which steps the engine and its goroutines take by themselves. *)
From stdpp Require Import gmap strings list.
From Verif Require Import Err Engine EngineSpec.

(** Steps that are not calls by clients, nor the passing of time. *)
Definition internal (l : label) : bool :=
  match l with
  | LDying | LDelayFire _ | LAbort _ | LStartRet _ _ | LExpire _ | LStarted _ | LStartedDying _ | LExit _ _
  | LSelfDying _ | LStopped _ => true
  | _ => false
  end.

(** How many steps of a schedule are internal. *)
Fixpoint internal_steps (ls : list label) : nat :=
  match ls with
  | [] => 0
  | l :: ls' => (if internal l then 1 else 0) + internal_steps ls'
  end.

(** Steps that are bound to happen when they are possible: everything internal, except that a worker that was
    not killed need not stop. *)
Definition owed (log : list event) (l : label) : Prop :=
  internal l = true /\
  match l with
  | LExit g _ => exists n w, EvKill g n w ∈ log
  | _ => True
  end.

(** A schedule obeys [P] if every label is allowed by the log at that time. *)
Fixpoint obeys (E : env) (P : list event -> label -> Prop) (s : state) (ls : list label) : Prop :=
  match ls with
  | [] => True
  | l :: ls' => P (s_log s) l /\ match step E s l with Some s' => obeys E P s' ls' | None => True end
  end.

(** The name of attempt [g]. *)
Definition attempt_name (log : list event) (g : nat) : option string := (fun x => x.1.1) <$> attempt_of log g.

(** C24's assumption on the world: nothing is installed any more, no worker exits unless it was killed, and a
    Start func that fails does so with an error that (after the manifold's Filter) means nil or ErrMissing. *)
Definition calm (log : list event) (l : label) : Prop :=
  match l with
  | LInstall _ _ => False
  | LExit g _ => exists n w, EvKill g n w ∈ log
  | LStartRet g (inr e) => forall n, attempt_name log g = Some n ->
      terminal (after_filter log n (Some (if err_is e (EConst KStartAborted) then EConst KStartAborted else e))) = true
  | _ => True
  end.
