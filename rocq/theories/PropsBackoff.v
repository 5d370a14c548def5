(** Property C22: the restart delay. Statements only: every theorem is closed by a lemma proved elsewhere.
    Vocabulary: Backoff.v ([backoff_delay] is engine.go:413-430), BackoffSpec.v (assumptions on math.Pow and rand.Float64;
    [huge] is 8*10^18 ns, [tiny] is 10^-15). Integers are nanoseconds. *)
From Coq Require Import ZArith Reals Lra Lia.
From Flocq Require Import Core BinarySingleNaN.
From stdpp Require Import strings list.
From Verif Require Import Backoff BackoffSpec BackoffProofs BackoffMore Engine EngineSpec EngineExample.
Open Scope R_scope.

(** C22: with BackoffFactor and MaxDelay set (MaxDelay up to 253 years) the delay is not negative and not above MaxDelay plus 10%,
    plus half a millisecond (rounding to ms), up to a relative error of 10^-15 of the float arithmetic. *)
Theorem C22_bounds o c g d r : rand_ok (o_rand o g) -> pow_sane (o_pow o) (b_factor c) ->
  Bltb (of_int 0) (b_factor c) = true -> (0 < b_max c <= huge)%Z -> (0 < d < 2 ^ 63)%Z ->
  (0 <= backoff_delay o c g d r)%Z /\ IZR (backoff_delay o c g d r) <= IZR (b_max c) * (11 / 10) * (1 + tiny) + 500000.
Proof. exact (delay_bounds o c g d r). Qed.
Print Assumptions C22_bounds.

(** C22: for a MaxDelay of at most 10^14 ns (27 hours) there is no such error. *)
Theorem C22_bounds_exact o c g d r : rand_ok (o_rand o g) -> pow_sane (o_pow o) (b_factor c) ->
  Bltb (of_int 0) (b_factor c) = true -> (0 < b_max c <= 10 ^ 14)%Z -> (0 < d < 2 ^ 63)%Z ->
  (0 <= 10 * backoff_delay o c g d r <= 11 * b_max c + 5000000)%Z.
Proof. exact (delay_bounds_exact o c g d r). Qed.
Print Assumptions C22_bounds_exact.

(** C22: the delay is the smaller one of MaxDelay and base * factor^(errors-1), plus or minus 10%, half a millisecond, the error of
    math.Pow and rounding. *)
Theorem C22_value delta o c g d r : 0 <= delta < 1 -> is_finite (b_factor c) = true -> 1 <= B2R (b_factor c) -> pow_accurate delta (o_pow o) (b_factor c) ->
  rand_ok (o_rand o g) -> (0 < b_max c <= huge)%Z -> (0 < d < 2 ^ 63)%Z -> (1 <= r)%nat -> (Z.of_nat r <= 2 ^ 53)%Z ->
  let ideal := Rmin (IZR (b_max c)) (IZR d * B2R (b_factor c) ^ (r - 1)) in
  ideal * (9 / 10) * (1 - delta) * (1 - 3 * tiny) - 500003 <= IZR (backoff_delay o c g d r) <= ideal * (11 / 10) * (1 + delta) * (1 + 3 * tiny) + 500000.
Proof. exact (delay_value delta o c g d r). Qed.
Print Assumptions C22_value.

(** C22: the delay does not shrink when the number of errors grows (and the random number stays the same), *)
Theorem C22_grows delta o c g d r1 r2 : 0 <= delta < 1 -> is_finite (b_factor c) = true -> 1 + delta <= B2R (b_factor c) * (1 - delta) -> pow_accurate delta (o_pow o) (b_factor c) ->
  rand_ok (o_rand o g) -> (0 < b_max c <= 2 ^ 53)%Z -> (0 < d < 2 ^ 63)%Z -> (1 <= r1 <= r2)%nat -> (Z.of_nat r2 <= 2 ^ 53)%Z ->
  (backoff_delay o c g d r1 <= backoff_delay o c g d r2)%Z.
Proof. exact (delay_mono delta o c g d r1 r2). Qed.
Print Assumptions C22_grows.

(** C22: and is MaxDelay, plus or minus 10%, once base * factor^(errors-1) exceeds it. *)
Theorem C22_capped delta o c g d r : 0 <= delta < 1 -> is_finite (b_factor c) = true -> 1 <= B2R (b_factor c) -> pow_accurate delta (o_pow o) (b_factor c) ->
  rand_ok (o_rand o g) -> (0 < b_max c <= huge)%Z -> (0 < d < 2 ^ 63)%Z -> (1 <= r)%nat -> (Z.of_nat r <= 2 ^ 53)%Z ->
  IZR (b_max c) * (1 + tiny) <= IZR d * B2R (b_factor c) ^ (r - 1) * (1 - delta) ->
  IZR (b_max c) * (9 / 10) * (1 - tiny) - 500001 <= IZR (backoff_delay o c g d r) <= IZR (b_max c) * (11 / 10) * (1 + tiny) + 500000.
Proof. exact (delay_capped delta o c g d r). Qed.
Print Assumptions C22_capped.

(** C22: without a factor (also if it is a NaN, which Validate accepts) the delay is the base delay plus or minus 10%. *)
Theorem C22_no_backoff o c g d r : rand_ok (o_rand o g) -> Bltb (of_int 0) (b_factor c) = false -> (0 < d <= huge)%Z ->
  (0 <= backoff_delay o c g d r)%Z /\
  IZR d * (9 / 10) * (1 - tiny) - 500001 <= IZR (backoff_delay o c g d r) <= IZR d * (11 / 10) * (1 + tiny) + 500000.
Proof. exact (delay_plain o c g d r). Qed.
Print Assumptions C22_no_backoff.

(** The assumptions are met by the powers of two: the delays are 3, 6, 10 and 10 seconds. *)
Definition bx : backoff_config := mkBackoff (of_int 2) (10 ^ 10).
Example C22_example : pow_sane (o_pow ox) (b_factor bx) /\ pow_accurate 0 (o_pow ox) (b_factor bx) /\ rand_ok (o_rand ox 0) /\
  Bltb (of_int 0) (b_factor bx) = true /\ (0 < b_max bx <= 2 ^ 53)%Z /\ is_finite (b_factor bx) = true /\ 1 + 0 <= B2R (b_factor bx) * (1 - 0) /\
  backoff_delay ox bx 0 (3 * 10 ^ 9) 1 = (3 * 10 ^ 9)%Z /\ backoff_delay ox bx 0 (3 * 10 ^ 9) 2 = (6 * 10 ^ 9)%Z /\
  backoff_delay ox bx 0 (3 * 10 ^ 9) 3 = (10 ^ 10)%Z /\ backoff_delay ox bx 0 (3 * 10 ^ 9) 1000 = (10 ^ 10)%Z.
Proof.
  split; [apply pow2_sane|]. split; [exact pow2_accurate|]. split; [exact half_ok|]. split; [vm_compute; reflexivity|]. split; [cbn; lia|].
  split; [reflexivity|]. split; [|repeat split; vm_compute; reflexivity]. assert (E : B2R (b_factor bx) = 2) by (apply of_int_exact; lia). rewrite E. lra.
Qed.
Example C22_example_capped : IZR (b_max bx) * (1 + tiny) <= IZR (3 * 10 ^ 9) * B2R (b_factor bx) ^ (3 - 1) * (1 - 0).
Proof.
  assert (E : B2R (b_factor bx) = 2) by (apply of_int_exact; lia). rewrite E. change (b_max bx) with 10000000000%Z. change (3 * 10 ^ 9)%Z with 3000000000%Z. unfold tiny. simpl. lra.
Qed.
Example C22_example_nan : Bltb (of_int 0) B754_nan = false /\ backoff_delay ox (mkBackoff B754_nan (10 ^ 10)) 0 (3 * 10 ^ 9) 30 = (3 * 10 ^ 9)%Z.
Proof. split; vm_compute; reflexivity. Qed.

(** Outside of these assumptions: a MaxDelay of MaxInt64, and no MaxDelay at all (which Validate accepts), give a negative delay on
    amd64. *)
Theorem C22_max_int64_refuted : exists o c, pow_sane (o_pow o) (b_factor c) /\ rand_ok (o_rand o 0) /\ b_max c = max_int64 /\
  (backoff_delay o c 0 (3 * 10 ^ 9) 60 < 0)%Z.
Proof. exists ox_most, (mkBackoff (of_int 2) max_int64). split; [apply pow2_sane|]. split; [exact most_ok|]. split; vm_compute; reflexivity. Qed.
Print Assumptions C22_max_int64_refuted.
Theorem C22_no_max_refuted : exists o c, pow_sane (o_pow o) (b_factor c) /\ rand_ok (o_rand o 0) /\ b_max c = 0%Z /\
  (backoff_delay o c 0 (3 * 10 ^ 9) 40 < 0)%Z.
Proof. exists ox, (mkBackoff (of_int 2) 0). split; [apply pow2_sane|]. split; [exact half_ok|]. split; vm_compute; reflexivity. Qed.
Print Assumptions C22_no_max_refuted.
(** A bounce before the first error divides the delay by the factor (recentErrors-1 is -1). *)
Theorem C22_bounce_divides_refuted : exists o c, pow_sane (o_pow o) (b_factor c) /\ rand_ok (o_rand o 0) /\ (0 < b_max c <= huge)%Z /\
  backoff_delay o c 0 (3 * 10 ^ 9) 0 = (15 * 10 ^ 8)%Z /\ backoff_delay o c 0 (3 * 10 ^ 9) 1 = (3 * 10 ^ 9)%Z.
Proof. exists ox, bx. split; [apply pow2_sane|]. split; [exact half_ok|]. split; [unfold huge; cbn; lia|]. split; vm_compute; reflexivity. Qed.
Print Assumptions C22_bounce_divides_refuted.

Close Scope R_scope.
(** C22: in every execution of the engine, with these delays. *)
Theorem C22_engine E o c s g n sn t d : reachable E s -> EvAttempt g n sn t d ∈ s_log s ->
  (forall g d r, e_delay E g d r = backoff_delay o c g d r) -> (forall g, rand_ok (o_rand o g)) -> pow_sane (o_pow o) (b_factor c) ->
  Bltb (of_int 0) (b_factor c) = true -> (0 < b_max c <= huge)%Z ->
  (0 <= c_errorDelay (e_cfg E) < 2 ^ 63)%Z -> (0 <= c_bounceDelay (e_cfg E) < 2 ^ 63)%Z ->
  (0 <= d)%Z /\ (IZR d <= IZR (b_max c) * (11 / 10) * (1 + tiny) + 500000)%R.
Proof. exact (engine_backoff E o c s g n sn t d). Qed.
Print Assumptions C22_engine.

Definition ex_env_backoff : env := mkEnv (mkConfig (c_isFatal ex_cfg) (c_worstError ex_cfg) (c_filter ex_cfg) (3 * 10 ^ 9)%Z (10 ^ 9)%Z (10 ^ 10)%Z)
  (fun _ => false) (fun _ n => String.length n) (fun g d r => backoff_delay ox bx g d r) (fun _ _ _ => None) (fun _ => false) (fun _ _ => 0).
(** "db" failed for the second time: the delay is 6 seconds. *)
Definition ls_backoff : list label := ls_fail ++ [LTick (4 * 10 ^ 9)%Z] ++ up 2 12 ++ down 2 (Some (Err.EUser 1)).
Example C22_engine_example : let s := ex_state ex_env_backoff ls_backoff in reachable ex_env_backoff s /\
  (exists sn t, EvAttempt 3 "db"%string sn t (6 * 10 ^ 9)%Z ∈ s_log s) /\ (forall g d r, e_delay ex_env_backoff g d r = backoff_delay ox bx g d r) /\ (forall g, rand_ok (o_rand ox g)).
Proof.
  intros s. split; [exists ls_backoff; vm_compute; reflexivity|]. split; [|split; [reflexivity|intros g; exact half_ok]].
  assert (H : exists sn t, head (s_log s) = Some (EvAttempt 3 "db"%string sn t (6 * 10 ^ 9)%Z)) by (do 2 eexists; vm_compute; reflexivity).
  destruct H as (sn & t & H). exists sn, t. destruct (s_log s); [discriminate|]. injection H as ->. left.
Qed.
