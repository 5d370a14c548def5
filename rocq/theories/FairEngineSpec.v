(** Vocabulary for C80: an engine that has converged. *)
From stdpp Require Import gmap strings list.
From Verif Require Import Err Snapshot Engine EngineSpec.

(** Every installed manifold is where it belongs: its newest attempt [g] was made for what is installed now and with exactly
    the workers of its inputs that are registered now, it was not asked to stop, and either its worker is registered, or it
    ended, with nil, with ErrMissing (or with the engine's private errAborted, see C09), and nothing is under way. *)
Definition converged (log : list event) : Prop :=
  forall n m, installed log n = Some m ->
  exists g sn post, last_attempt log n = Some (g, sn, post) /\ installed post n = Some m /\ ~ asked_to_stop log g /\
    (forall x, x ∈ m_inputs m -> sn_workers sn !! x = Some (snd <$> registered log x)) /\
    ((exists w, registered log n = Some (g, w) /\ ~ worker_exited log g) \/
     (in_progress log n = None /\ exists raw e, last_end log n = Some (g, raw, e) /\ (e = None \/ is_const e KMissing = true \/ is_const e KStartAborted = true))).
