(** The pace of restarts with the delays the engine computes without a BackoffFactor (C86). *)
From Coq Require Import ZArith Reals Lra Lia.
From Flocq Require Import Core BinarySingleNaN.
From stdpp Require Import list.
From Verif Require Import Err Backoff BackoffSpec BackoffProofs Engine EngineSpec PaceSpec PaceEngine.

Lemma half_delay o c g d r : rand_ok (o_rand o g) -> Bltb (of_int 0) (b_factor c) = false -> (2 * 10 ^ 6 <= d <= huge)%Z -> (d <= 2 * backoff_delay o c g d r)%Z.
Proof.
  intros Hr Hf Hd. assert (0 < d <= huge)%Z as Hd' by lia. destruct (delay_plain o c g d r Hr Hf Hd') as (_ & H & _).
  apply le_IZR. rewrite mult_IZR. assert (IZR (2 * 10 ^ 6) <= IZR d)%R as Hx by (apply IZR_le; lia).
  change (2 * 10 ^ 6)%Z with 2000000%Z in Hx. unfold tiny in *. lra.
Qed.
Lemma plain_rate E o c s l2 mid l0 n a b : reachable E s -> s_log s = l2 ++ mid ++ l0 -> (forall m, EvInstalled n m ∉ mid) ->
  (forall g d r, e_delay E g d r = backoff_delay o c g d r) -> (forall g, rand_ok (o_rand o g)) -> Bltb (of_int 0) (b_factor c) = false ->
  (2 * 10 ^ 6 <= c_errorDelay (e_cfg E) <= huge)%Z -> (2 * 10 ^ 6 <= c_bounceDelay (e_cfg E) <= huge)%Z ->
  (forall g f t, EvStartCall g n f t ∈ mid -> (a <= t <= b)%Z) ->
  (0 < engine_starts mid n)%nat -> ((Z.of_nat (engine_starts mid n) - 1) * Z.min (c_errorDelay (e_cfg E)) (c_bounceDelay (e_cfg E)) <= 2 * (b - a))%Z.
Proof.
  intros Hr Heq Hni HE Hrand Hf He Hb Hab Hn. set (D := Z.min _ _). set (delta := ((D + 1) / 2)%Z).
  assert (D <= 2 * delta <= D + 1)%Z as HD by (subst delta; pose proof (Z.div_mod (D + 1) 2); pose proof (Z.mod_pos_bound (D + 1) 2); lia).
  assert ((Z.of_nat (engine_starts mid n) - 1) * delta <= b - a)%Z as H; [|nia].
  apply (engine_rate E s l2 mid l0 n delta a b Hr Heq Hni); [|done|done]. intros g base k Hbase.
  assert (2 * 10 ^ 6 <= base <= huge)%Z as Hrange by (destruct Hbase; subst; done). unfold attempt_delay. destruct (Z.ltb_spec 0 base) as [Hpos|Hneg]; [|lia]. rewrite HE.
  pose proof (half_delay o c g base k (Hrand g) Hf Hrange). assert (D <= base)%Z by (destruct Hbase; subst; lia). lia.
Qed.
