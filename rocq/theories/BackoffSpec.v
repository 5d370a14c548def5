(** Vocabulary for property C22: what is assumed of the environment, in real numbers. *)
From Coq Require Import ZArith Reals.
From Flocq Require Import Core BinarySingleNaN.
From Verif Require Import Backoff.

(** rand.Float64 returns a float in [0, 1). *)
Definition rand_ok (r : f64) : Prop := is_finite r = true /\ (0 <= B2R r < 1)%R.

Definition is_plus_inf (x : f64) : Prop := x = B754_infinity false.

(** math.Pow(f, n) is not a NaN and not negative: so it is for every f > 0 (Go's documentation of math.Pow). *)
Definition pow_sane (pow : f64 -> f64 -> f64) (f : f64) : Prop :=
  forall n, (-1 <= n)%Z -> is_plus_inf (pow f (of_int n)) \/ is_finite (pow f (of_int n)) = true /\ (0 <= B2R (pow f (of_int n)))%R.

(** math.Pow(f, n) is the power up to a relative error [delta], or overflows to +Inf when the power is that large. *)
Definition pow_accurate (delta : R) (pow : f64 -> f64 -> f64) (f : f64) : Prop :=
  forall n : nat, (Z.of_nat n < 2 ^ 53)%Z ->
    let p := pow f (of_int (Z.of_nat n)) in
    is_finite p = true /\ ((1 - delta) * B2R f ^ n <= B2R p <= (1 + delta) * B2R f ^ n)%R \/
    is_plus_inf p /\ (bpow radix2 1023 <= B2R f ^ n)%R.

(** The largest MaxDelay considered: about 253 years. *)
Definition huge : Z := 8000000000000000000.
(** A relative error that covers the roundings. *)
Definition tiny : R := / 1000000000000000.
