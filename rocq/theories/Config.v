(** Model of dependency/engine.go:39-153: EngineConfig, its Validate, and NewEngine.
    (RunnerParams: Runner.v; Plan: Catacomb.v.) *)
From stdpp Require Import strings.
From Coq Require Import ZArith.
From Flocq Require Import BinarySingleNaN.
From Verif Require Import Err Backoff Engine.

(** engine.go:39-90 [EngineConfig]. [None] and [false] are nil. *)
Record engine_config := mkEngineConfig {
  ec_isFatal : option (option err -> bool);
  ec_worstError : option (option err -> option err -> option err);
  ec_filter : option (option err -> option err);
  ec_errorDelay : Z;
  ec_bounceDelay : Z;
  ec_factor : f64;
  ec_resetTime : Z;
  ec_maxDelay : Z;
  ec_clock : bool;
  ec_metrics : bool;
  ec_logger : bool;
}.

(** engine.go:93-125 [Validate] *)
Definition validate_engine (c : engine_config) : option err :=
  match ec_isFatal c with None => Some (EMsg (MsgText "IsFatal not specified")) | Some _ =>
  match ec_worstError c with None => Some (EMsg (MsgText "WorstError not specified")) | Some _ =>
  if (ec_errorDelay c <? 0)%Z then Some (EMsg (MsgText "ErrorDelay is negative"))
  else if (ec_bounceDelay c <? 0)%Z then Some (EMsg (MsgText "BounceDelay is negative"))
  else if negb (Beqb (ec_factor c) (of_int 0)) && Bltb (ec_factor c) (of_int 1) then Some (EMsg (MsgText "BackoffFactor must be >= 1"))
  else if (ec_resetTime c <? 0)%Z then Some (EMsg (MsgText "BackoffResetTime is negative"))
  else if (ec_maxDelay c <? 0)%Z then Some (EMsg (MsgText "MaxDelay is negative"))
  else if negb (ec_clock c) then Some (ETyped TNotValid (MsgText "missing Clock"))
  else if negb (ec_metrics c) then Some (ETyped TNotValid (MsgText "missing Metrics"))
  else if negb (ec_logger c) then Some (ETyped TNotValid (MsgText "missing Logger"))
  else None
  end end.

(** engine.go:132-153 [NewEngine]: an error, or the configuration the loop works with (Engine.v, Backoff.v). The defaults for
    missing functions are never used, see C56_engine. *)
Definition new_engine (c : engine_config) : err + (config * backoff_config) :=
  match validate_engine c with
  | Some e => inl (EWrap (MsgText "invalid config") e)
  | None => inr (mkConfig (default (fun _ => false) (ec_isFatal c)) (default (fun _ _ => None) (ec_worstError c)) (ec_filter c)
                   (ec_errorDelay c) (ec_bounceDelay c) (ec_resetTime c), mkBackoff (ec_factor c) (ec_maxDelay c))
  end.
