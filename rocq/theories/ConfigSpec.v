(** Vocabulary for property C56. *)
From stdpp Require Import strings list.
From Coq Require Import ZArith Reals.
From Flocq Require Import Core BinarySingleNaN.
From Verif Require Import Err Backoff Config Runner Catacomb.

(** A list of rules: what is not allowed, and the error. *)
Definition rules := list (Prop * err).
(** The error of the first rule that is broken, if any. *)
Inductive first_broken : rules -> option err -> Prop :=
  | fb_none : first_broken [] None
  | fb_this (P : Prop) e l : P -> first_broken ((P, e) :: l) (Some e)
  | fb_next (P : Prop) e l r : ~ P -> first_broken l r -> first_broken ((P, e) :: l) r.

(** engine.go:39-90, the documentation of EngineConfig and the messages of Validate. A NaN is not below one. *)
Definition below_one (f : f64) : Prop := (is_finite f = true /\ B2R f <> 0 /\ B2R f < 1)%R \/ f = B754_infinity true.
Definition engine_rules (c : engine_config) : rules :=
  [(ec_isFatal c = None, EMsg (MsgText "IsFatal not specified"));
   (ec_worstError c = None, EMsg (MsgText "WorstError not specified"));
   ((ec_errorDelay c < 0)%Z, EMsg (MsgText "ErrorDelay is negative"));
   ((ec_bounceDelay c < 0)%Z, EMsg (MsgText "BounceDelay is negative"));
   (below_one (ec_factor c), EMsg (MsgText "BackoffFactor must be >= 1"));
   ((ec_resetTime c < 0)%Z, EMsg (MsgText "BackoffResetTime is negative"));
   ((ec_maxDelay c < 0)%Z, EMsg (MsgText "MaxDelay is negative"));
   (ec_clock c = false, ETyped TNotValid (MsgText "missing Clock"));
   (ec_metrics c = false, ETyped TNotValid (MsgText "missing Metrics"));
   (ec_logger c = false, ETyped TNotValid (MsgText "missing Logger"))].

(** catacomb.go:33-72; one rule for every Init worker. *)
Definition plan_rules (p : plan) : rules :=
  [(p_name p = ""%string, ETyped TNotValid (MsgText "empty Name"));
   (p_site p = false, ETyped TNotValid (MsgText "nil Site"));
   (p_work p = false, ETyped TNotValid (MsgText "nil Work"))] ++
  imap (fun i w => (w = None, ETyped TNotValid (MsgNilInit i))) (p_init p).

(** runner.go:148-194 *)
Definition runner_rules (p : runner_params) : rules := [(rp_name p = ""%string, ETyped TNotValid (MsgText "Name is required"))].
