(** C86 with the delays the engine computes when no BackoffFactor is set (engine.go:413-430, Backoff.v): the base delay plus or minus
    10%, rounded to milliseconds. ErrorDelay and BounceDelay of 2 ms or more then keep Start calls at least half of the smaller one apart. *)
From Coq Require Import ZArith Reals Lra Lia.
From Flocq Require Import Core BinarySingleNaN.
From stdpp Require Import strings list.
From Verif Require Import Err Backoff BackoffSpec BackoffMore Engine EngineSpec EngineExample PaceSpec.
From Verif Require PacePlain PropsPaceEngine.

Theorem C86_engine_plain : forall E o c s l2 mid l0 n a b, reachable E s -> s_log s = l2 ++ mid ++ l0 -> (forall m, EvInstalled n m ∉ mid) ->
  (forall g d r, e_delay E g d r = backoff_delay o c g d r) -> (forall g, rand_ok (o_rand o g)) -> Bltb (of_int 0) (b_factor c) = false ->
  (2 * 10 ^ 6 <= c_errorDelay (e_cfg E) <= huge)%Z -> (2 * 10 ^ 6 <= c_bounceDelay (e_cfg E) <= huge)%Z ->
  (forall g f t, EvStartCall g n f t ∈ mid -> (a <= t <= b)%Z) ->
  (0 < engine_starts mid n)%nat -> ((Z.of_nat (engine_starts mid n) - 1) * Z.min (c_errorDelay (e_cfg E)) (c_bounceDelay (e_cfg E)) <= 2 * (b - a))%Z.
Proof. exact PacePlain.plain_rate. Qed.
Print Assumptions C86_engine_plain.

(** ErrorDelay 3 s, BounceDelay 1 s, no factor. "db" is started at 0 and, after failing, at 4 s. *)
Definition no_factor : backoff_config := mkBackoff (of_int 0) (10 ^ 10).
Definition ex_env_plain : env := mkEnv (mkConfig (c_isFatal ex_cfg) (c_worstError ex_cfg) (c_filter ex_cfg) (3 * 10 ^ 9)%Z (10 ^ 9)%Z (10 ^ 10)%Z)
  (fun _ => false) (fun _ n => String.length n) (fun g d r => backoff_delay ox no_factor g d r) (fun _ _ _ => None) (fun _ => false) (fun _ _ => 0%nat).
Definition ls_plain : list label := ls_fail ++ [LTick (4 * 10 ^ 9)%Z; LDelayFire 2].
Definition plain_mid : list event := take (length (s_log (ex_state ex_env_plain ls_plain)) - 3) (s_log (ex_state ex_env_plain ls_plain)).
Example C86_engine_plain_example : let s := ex_state ex_env_plain ls_plain in reachable ex_env_plain s /\
  s_log s = [] ++ plain_mid ++ drop (length (s_log s) - 3) (s_log s) /\ (forall m, EvInstalled "db" m ∉ plain_mid) /\
  (forall g d r, e_delay ex_env_plain g d r = backoff_delay ox no_factor g d r) /\ (forall g, rand_ok (o_rand ox g)) /\ Bltb (of_int 0) (b_factor no_factor) = false /\
  (2 * 10 ^ 6 <= c_errorDelay (e_cfg ex_env_plain) <= huge)%Z /\ (2 * 10 ^ 6 <= c_bounceDelay (e_cfg ex_env_plain) <= huge)%Z /\
  (forall g f t, EvStartCall g "db" f t ∈ plain_mid -> (0 <= t <= 4 * 10 ^ 9)%Z) /\ engine_starts plain_mid "db" = 2%nat.
Proof.
  intros s. split; [apply ex_reach; ex_go|]. split; [apply PropsPaceEngine.whole|]. split; [apply PropsPaceEngine.not_installed; ex_go|]. split; [reflexivity|].
  split; [intros g; exact half_ok|]. split; [ex_go|]. split; [split; vm_compute; discriminate|]. split; [split; vm_compute; discriminate|]. split; [apply PropsPaceEngine.calls_in; ex_go|ex_go].
Qed.
