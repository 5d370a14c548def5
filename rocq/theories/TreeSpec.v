(** Vocabulary for C78: workers made of workers. *)
From stdpp Require Import gmap strings list relations.
From Verif Require Import Err Tomb Tree.
From Verif Require Snapshot Engine EngineSpec EngineProgressSpec Runner RunnerSpec RunnerProgressSpec
  Catacomb CatacombSpec CatacombProgressSpec.

(** Its Wait returns. *)
Definition dead (nd : node) : Prop := is_Some (nwait nd).

(** It was told to stop, or has decided to. (A runner that stops because of a fatal error first waits for the clock if one of
    its goroutines is in a restart delay: C34.) *)
Definition dying (nd : node) : Prop :=
  match nd with
  | NEngine _ s => EngineSpec.is_dying (Engine.s_log s)
  | NRunner _ s => Runner.EvKilled ∈ RunnerSpec.rlog s \/ (RunnerSpec.stopping_all (RunnerSpec.rlog s) /\ ~ RunnerProgressSpec.waits_for_clock s)
  | NCatacomb _ s => CatacombSpec.is_dying (Catacomb.x_log s)
  | NPlain k _ => k = true
  end.

(** [nd] is responsible for its worker number [k]: a Start func returned it to the engine or runner; the catacomb bound it,
    accepted it in Add, or accepted it in Invoke. *)
Definition owns (nd : node) (k : nat) : Prop :=
  match nd with
  | NEngine _ s => exists n w, Engine.EvStartRet k n (inl (Snapshot.WExt w)) ∈ Engine.s_log s
  | NRunner _ s => exists id w, Runner.EvStartRet k id (inl w) ∈ RunnerSpec.rlog s
  | NCatacomb _ s =>
    (exists b, Catacomb.EvBind b (Catacomb.WExt k) ∈ Catacomb.x_log s) \/
    (exists i, Catacomb.EvAddRet i (Catacomb.WExt k) None ∈ Catacomb.x_log s) \/
    (exists i p, Catacomb.EvInvoke i p ∈ Catacomb.x_log s /\ Catacomb.EvInvoked i None ∈ Catacomb.x_log s /\
                 Some (Catacomb.WExt k) ∈ Catacomb.p_init p)
  | NPlain _ _ => False
  end.

(** [c] is one of the workers that [n] is responsible for; ... or that these are responsible for, and so on. *)
Definition child (F : forest) (n c : nat) : Prop :=
  exists nd k, f_nodes F !! n = Some nd /\ owns nd k /\ f_link F !! (n, k) = Some c.
Definition descendant (F : forest) : nat -> nat -> Prop := tc (child F).

(** No worker contains itself. *)
Definition acyclic (F : forest) : Prop := exists rank : nat -> nat, forall n k c, f_link F !! (n, k) = Some c -> rank c < rank n.

(** The program crashed: somebody gave the catacomb or the runner one of the tomb's internal errors (C47, C74). *)
Definition crashed (nd : node) : bool :=
  match nd with
  | NRunner _ s => t_panic (Runner.c_tomb (Runner.s_core s))
  | NCatacomb _ s => Catacomb.x_crash s
  | _ => false
  end.
(** A catacomb was given the worker around it as a worker (C61). *)
Definition binds_itself (nd : node) : Prop :=
  match nd with NCatacomb _ s => exists b, Catacomb.EvBind b Catacomb.WSelf ∈ Catacomb.x_log s | _ => False end.

(** Steps that are bound to happen when they are possible. Engine and runner: as in C15 and C34. Catacomb: its own
    goroutines go on; Work returns when the catacomb is dying; a worker on which Kill was called finishes. A plain worker
    finishes when it was killed. Left out: calls by clients, the passing of time, workers that finish without having been told to. *)
Definition bound_to_happen (nd : node) (l : nlabel) : Prop :=
  match nd, l with
  | NEngine _ s, LEngine l => EngineProgressSpec.owed (Engine.s_log s) l
  | NRunner _ s, LRunner l => RunnerProgressSpec.owed (RunnerSpec.rlog s) l
  | NCatacomb _ s, LCatacomb l =>
    match l with
    | Catacomb.LEnd k _ => exists who, Catacomb.EvWKill who (Catacomb.WExt k) ∈ Catacomb.x_log s
    | Catacomb.LWorkRet _ => CatacombSpec.is_dying (Catacomb.x_log s)
    | _ => CatacombProgressSpec.internal l = true
    end
  | NPlain k _, LPlain _ => k = true
  | _, _ => False
  end.
(** [n] itself, its workers, their workers, and so on. *)
Definition below (F : forest) : nat -> nat -> Prop := rtc (fun n c => exists k, f_link F !! (n, k) = Some c).
(** Nothing that is bound to happen in [n] or in one of these is possible any more. *)
Definition at_rest (F : forest) (n : nat) : Prop :=
  forall m nd l cs, below F n m -> f_nodes F !! m = Some nd -> bound_to_happen nd l -> fstep F (FStep m l cs) = None.
(** None of these crashed the program; none is a catacomb that was given itself. *)
Definition sound (F : forest) (n : nat) : Prop :=
  forall m nd, below F n m -> f_nodes F !! m = Some nd -> crashed nd = false /\ ~ binds_itself nd.

(** Somebody called Kill on it (or the engine, the catacomb, has decided to stop). *)
Definition killed (nd : node) : Prop :=
  match nd with
  | NEngine _ s => EngineSpec.is_dying (Engine.s_log s)
  | NRunner _ s => Runner.EvKilled ∈ RunnerSpec.rlog s
  | NCatacomb _ s => CatacombSpec.is_dying (Catacomb.x_log s)
  | NPlain k _ => k = true
  end.
(** What user code returns is harmless: plain workers and Work return nil, a Start func that is under way fails with an
    ordinary error (and does not call runtime.Goexit). *)
Definition harmless (l : nlabel) : Prop :=
  match l with
  | LEngine (Engine.LStartRet _ r) => exists n, r = inr (EUser n)
  | LRunner (Runner.LCore (Runner.KStartRet _ r)) => exists n, r = inr (EUser n)
  | LRunner (Runner.LCore (Runner.KGoexit _)) => False
  | LCatacomb (Catacomb.LWorkRet r) => r = Catacomb.WkReturn None
  | LPlain e => e = None
  | _ => True
  end.
(** [l] is a harmless step, bound to happen, of [n] or of a worker below it. *)
Definition winding_down (F : forest) (n : nat) (l : flabel) : Prop :=
  exists m nd x, l = FStep m x [] /\ below F n m /\ f_nodes F !! m = Some nd /\ bound_to_happen nd x /\ harmless x.
(** [ls] leads from [F] to [F'], and consists of such steps. *)
Fixpoint winds_down (F : forest) (n : nat) (ls : list flabel) (F' : forest) : Prop :=
  match ls with
  | [] => F' = F
  | l :: ls' => winding_down F n l /\ (exists F1, fstep F l = Some F1 /\ winds_down F1 n ls' F')
  end.
