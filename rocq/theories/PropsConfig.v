(** Property C56: validation. Statements only: every theorem is closed by a lemma proved elsewhere.
    Vocabulary: Config.v, Runner.v, Catacomb.v (the models of Validate and the constructors), ConfigSpec.v (the rules, in field order). *)
From stdpp Require Import strings list.
From Coq Require Import ZArith Reals Lra Lia.
From Flocq Require Import Core BinarySingleNaN.
From Verif Require Import Err Backoff Engine Config ConfigSpec ConfigProofs Runner Catacomb.

(** C56: EngineConfig.Validate reports the first rule that is broken, for every float BackoffFactor, *)
Theorem C56_engine c : first_broken (engine_rules c) (validate_engine c).
Proof. exact (engine_validate c). Qed.
Print Assumptions C56_engine.

(** C56: and NewEngine returns it, annotated, or an engine with exactly the supplied configuration. *)
Theorem C56_new_engine c : (exists e, first_broken (engine_rules c) (Some e) /\ new_engine c = inl (EWrap (MsgText "invalid config") e)) \/
  (first_broken (engine_rules c) None /\ exists isFatal worst, ec_isFatal c = Some isFatal /\ ec_worstError c = Some worst /\
    new_engine c = inr (mkConfig isFatal worst (ec_filter c) (ec_errorDelay c) (ec_bounceDelay c) (ec_resetTime c), mkBackoff (ec_factor c) (ec_maxDelay c))).
Proof. exact (engine_new c). Qed.
Print Assumptions C56_new_engine.

(** C56: Plan.Validate reports the first rule that is broken; each nil Init worker breaks one. *)
Theorem C56_plan p : first_broken (plan_rules p) (validate p).
Proof. exact (plan_validate p). Qed.
Print Assumptions C56_plan.

(** C56: RunnerParams.Validate demands a name. *)
Theorem C56_runner p : first_broken (runner_rules p) (params_validate p).
Proof. exact (runner_validate p). Qed.
Print Assumptions C56_runner.

(** C56: NewRunner fails only for a missing name, and otherwise uses the supplied functions and delay, with defaults: everything is
    fatal, everything is restarted, the newer error is more important, three seconds. *)
Theorem C56_new_runner p : (rp_name p = ""%string /\ new_runner p = inr (ETyped TNotValid (MsgText "Name is required"))) \/
  (rp_name p <> ""%string /\ exists c, new_runner p = inl c /\
    (forall f, rp_isFatal p = Some f -> r_isFatal c = f) /\ (rp_isFatal p = None -> forall e, r_isFatal c e = true) /\
    (forall f, rp_shouldRestart p = Some f -> r_shouldRestart c = f) /\ (rp_shouldRestart p = None -> forall e, r_shouldRestart c e = true) /\
    (forall f, rp_more p = Some f -> r_more c = f) /\ (rp_more p = None -> forall e1 e2, r_more c e1 e2 = true) /\
    (rp_restartDelay p <> 0%Z -> r_delay c = rp_restartDelay p) /\ (rp_restartDelay p = 0%Z -> r_delay c = 3000000000%Z)).
Proof. exact (runner_new p). Qed.
Print Assumptions C56_new_runner.

(** C56: (what [first_broken] says: nothing is broken) *)
Theorem C56_accepts l : first_broken l None <-> Forall (fun r => ~ r.1) l.
Proof. exact (broken_none l). Qed.
Print Assumptions C56_accepts.

(** C56: (or this is the first one) *)
Theorem C56_rejects l e : first_broken l (Some e) <-> exists l1 P l2, l = l1 ++ (P, e) :: l2 /\ P /\ Forall (fun r => ~ r.1) l1.
Proof. exact (broken_some l e). Qed.
Print Assumptions C56_rejects.

Definition cx (f : f64) (d : Z) : engine_config := mkEngineConfig (Some (fun _ => true)) (Some (fun e _ => e)) None d 0 f 0 0 true true true.
Example C56_example : validate_engine (cx (of_int 2) 5) = None /\ validate_engine (cx (of_int 0) 5) = None /\ validate_engine (cx (B754_infinity false) 5) = None /\
  validate_engine (cx (of_int (-3)) 5) = Some (EMsg (MsgText "BackoffFactor must be >= 1")) /\
  validate_engine (cx (B754_infinity true) 5) = Some (EMsg (MsgText "BackoffFactor must be >= 1")) /\
  validate_engine (cx c09 (-5)) = Some (EMsg (MsgText "ErrorDelay is negative")) /\
  validate_engine (cx c09 5) = Some (EMsg (MsgText "BackoffFactor must be >= 1")).
Proof. repeat split; vm_compute; reflexivity. Qed.
(** The documented rule "BackoffFactor must be at least 1" is not enforced for NaN. *)
Theorem C56_nan_accepted_refuted : exists c, ec_factor c = B754_nan /\ validate_engine c = None.
Proof. exists (cx B754_nan 5). split; [reflexivity|]. vm_compute. reflexivity. Qed.
Print Assumptions C56_nan_accepted_refuted.
