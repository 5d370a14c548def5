(** The restart delay of the dependency engine: dependency/engine.go:413-430, in IEEE binary64 arithmetic.

    Floats are Flocq's [binary_float 53 1024] (one NaN), every operation rounds to nearest even, as Go's do.
    This is the part of [requestStart] that Engine.v leaves abstract as [e_delay]. *)
From Coq Require Import ZArith Bool.
From Flocq Require Import Core BinarySingleNaN.
Open Scope Z_scope.

(** float64: engine.go:65 and the arithmetic of engine.go:415-429. *)
Definition f64 := binary_float 53 1024.
#[global] Instance prec53 : Prec_gt_0 53 := eq_refl.
#[global] Instance lt1024 : Prec_lt_emax 53 1024 := eq_refl.

(** float64(z) of an int64 [z]. *)
Definition of_int (z : Z) : f64 := binary_normalize 53 1024 prec53 lt1024 mode_NE z 0 false.
(** The untyped constants 0.2 and 0.9 of engine.go:428, as float64: the correctly rounded quotients. *)
Definition c02 : f64 := Bdiv mode_NE (of_int 2) (of_int 10).
(** The constant 0.9 of engine.go:428. *)
Definition c09 : f64 := Bdiv mode_NE (of_int 9) (of_int 10).

(** time.Duration is an int64 (engine.go:415-429): its bounds. *)
Definition max_int64 : Z := 2 ^ 63 - 1.
(** As above, engine.go:415-429. *)
Definition min_int64 : Z := - 2 ^ 63.
(** As above, engine.go:424, 429: does a float fit? *)
Definition in_int64 (z : Z) : bool := (min_int64 <=? z) && (z <=? max_int64).
(** int64 arithmetic wraps around. Go's int64, engine.go:429 (inside Round). *)
Definition wrap64 (z : Z) : Z := (z + 2 ^ 63) mod 2 ^ 64 - 2 ^ 63.

(** What Go leaves open, and the environment:
    - [o_pow]: math.Pow (Go's standard library, not modelled);
    - [o_over]: the result of converting a float that does not fit (or a NaN) to int64, which the Go specification
      leaves to the implementation;
    - [o_rand g]: the value of rand.Float64() used by attempt [g];
    - [o_fused]: whether x*y+z is compiled to a fused multiply-add (Go allows it). engine.go:420, 424, 428, 429. *)
Record oracle := mkOracle {
  o_pow : f64 -> f64 -> f64;
  o_over : f64 -> Z;
  o_rand : nat -> f64;
  o_fused : bool;
}.

(** int64(x): truncation towards zero. engine.go:424, 429. *)
Definition to_int (o : oracle) (x : f64) : Z :=
  if is_finite x && in_int64 (Btrunc x) then Btrunc x else o_over o x.

(** time.Duration.Round (Go's standard library) for a positive [m]; [Z.rem] is Go's %. Called at engine.go:429. *)
Definition round_to (m d : Z) : Z :=
  let r := Z.rem d m in
  if d <? 0 then
    let r' := - r in
    if r' + r' <? m then d + r'
    else let d1 := wrap64 (d - m + r') in if d1 <? d then d1 else min_int64
  else
    if r + r <? m then d - r
    else let d1 := wrap64 (d + m - r) in if d1 >? d then d1 else max_int64.
(** time.Millisecond, engine.go:429. *)
Definition millisecond : Z := 1000000.

(** engine.go:66,79 [BackoffFactor] and [MaxDelay]. *)
Record backoff_config := mkBackoff { b_factor : f64; b_max : Z }.

(** engine.go:415-426: the delay before it is fuzzed. [recent] is info.recentErrors. *)
Definition grown (o : oracle) (c : backoff_config) (delay : Z) (recent : nat) : Z :=
  if Bltb (of_int 0) (b_factor c) then
    let maxDelay := of_int (b_max c) in
    let floatDelay := Bmult mode_NE (of_int delay) (o_pow o (b_factor c) (of_int (Z.of_nat recent - 1))) in
    if (0 <? b_max c) && Bltb maxDelay floatDelay then b_max c else to_int o floatDelay
  else delay.
(** engine.go:428 *)
Definition fuzz (o : oracle) (g : nat) : f64 :=
  if o_fused o then Bfma mode_NE (o_rand o g) c02 c09 else Bplus mode_NE (Bmult mode_NE (o_rand o g) c02) c09.
(** engine.go:429 *)
Definition fuzzed (o : oracle) (g : nat) (delay : Z) : Z :=
  round_to millisecond (to_int o (Bmult mode_NE (of_int delay) (fuzz o g))).
(** engine.go:413-430 *)
Definition backoff_delay (o : oracle) (c : backoff_config) (g : nat) (delay : Z) (recent : nat) : Z :=
  if 0 <? delay then fuzzed o g (grown o c delay recent) else delay.
