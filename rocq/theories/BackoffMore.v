(** An oracle that meets the assumptions of BackoffSpec.v, and the delay as part of the engine. *)
From Coq Require Import ZArith Reals Lra Lia Bool.
From Flocq Require Import Core BinarySingleNaN.
From stdpp Require Import list.
From Verif Require Import Backoff BackoffSpec BackoffProofs Engine EngineSpec EngineObs.

(** math.Pow(2, y) for whole y. *)
Definition pow2 (f y : f64) : f64 := Bldexp mode_NE Bone (Btrunc y).
(** Conversion of a float that does not fit, as amd64 does it. *)
Definition amd64 (x : f64) : Z := min_int64.
(** rand.Float64 returned a half, or 0.96875. *)
Definition half : f64 := Bdiv mode_NE (of_int 1) (of_int 2).
Definition most : f64 := Bdiv mode_NE (of_int 31) (of_int 32).
Definition ox : oracle := mkOracle pow2 amd64 (fun _ => half) false.
Definition ox_most : oracle := mkOracle pow2 amd64 (fun _ => most) false.

Lemma half_ok : rand_ok half.
Proof. split; [reflexivity|]. vm_compute. lra. Qed.
Lemma most_ok : rand_ok most.
Proof. split; [reflexivity|]. vm_compute. lra. Qed.

Open Scope R_scope.
Lemma ldexp_one e : let x := Bldexp mode_NE Bone e in
  (is_finite x = true /\ B2R x = round radix2 (SpecFloat.fexp 53 1024) ZnearestE (bpow radix2 e)) \/ (is_plus_inf x /\ bpow radix2 1024 <= round radix2 (SpecFloat.fexp 53 1024) ZnearestE (bpow radix2 e)).
Proof.
  intros x. pose proof (Bldexp_correct 53 1024 prec53 lt1024 mode_NE Bone e) as H. fold x in H. rewrite Bone_correct, Rmult_1_l in H. simpl round_mode in H.
  assert (0 <= round radix2 (SpecFloat.fexp 53 1024) ZnearestE (bpow radix2 e)) as H0. { apply RN_nonneg, bpow_ge_0. }
  rewrite Rabs_pos_eq in H by exact H0.
  destruct (Rlt_bool_spec (round radix2 (SpecFloat.fexp 53 1024) ZnearestE (bpow radix2 e)) (bpow radix2 1024)) as [Hl|Hl].
  - left. destruct H as (E & F & _). split; [|exact E]. rewrite F. reflexivity.
  - right. split; [|exact Hl]. apply inf_of_SF. rewrite H. reflexivity.
Qed.
Lemma pow2_sane f : pow_sane pow2 f.
Proof.
  intros n _. unfold pow2. destruct (ldexp_one (Btrunc (of_int n))) as [[F E]|[I _]]; [right|now left]. split; [exact F|]. rewrite E. apply RN_nonneg, bpow_ge_0.
Qed.
Lemma two_pow n : 2 ^ n = bpow radix2 (Z.of_nat n).
Proof. change 2 with (bpow radix2 1). induction n as [|n IH]; [reflexivity|]. rewrite Nat2Z.inj_succ, <- Z.add_1_l, bpow_plus, <- IH. reflexivity. Qed.
Lemma pow2_accurate : pow_accurate 0 pow2 (of_int 2).
Proof.
  intros n Hn p. assert (B2R (of_int 2) = 2) as E2 by (apply of_int_exact; lia). rewrite E2, two_pow.
  assert (Btrunc (of_int (Z.of_nat n)) = Z.of_nat n) as Et.
  { rewrite trunc_spec; rewrite of_int_exact by lia; [apply Zfloor_IZR|]. apply (IZR_le 0). lia. }
  assert (round radix2 (SpecFloat.fexp 53 1024) ZnearestE (bpow radix2 (Z.of_nat n)) = bpow radix2 (Z.of_nat n)) as Er.
  { apply round_generic; [typeclasses eauto|]. apply generic_format_bpow. unfold SpecFloat.fexp, SpecFloat.emin. lia. }
  subst p. unfold pow2. rewrite Et. destruct (ldexp_one (Z.of_nat n)) as [[F E]|[I HB]]; [left|right].
  - split; [exact F|]. rewrite E, Er. lra.
  - split; [exact I|]. rewrite Er in HB. eapply Rle_trans; [|exact HB]. apply bpow_le. lia.
Qed.
Close Scope R_scope.

(** ** The engine *)
(** Which base delays there are. *)
Lemma base_cases cfg post n base : launch_why cfg post n base -> base = 0%Z \/ base = c_bounceDelay cfg \/ base = c_errorDelay cfg.
Proof.
  intros [(-> & _)|[(-> & _)|(g & raw & e & t & l & _ & [(_ & ->)|(_ & H)])]]; auto. revert H. unfold restart_delay. repeat (case_match; try discriminate); intros [= <-]; auto.
Qed.
Lemma engine_backoff E o c s g n sn t d : reachable E s -> EvAttempt g n sn t d ∈ s_log s ->
  (forall g d r, e_delay E g d r = backoff_delay o c g d r) -> (forall g, rand_ok (o_rand o g)) -> pow_sane (o_pow o) (b_factor c) ->
  Bltb (of_int 0) (b_factor c) = true -> (0 < b_max c <= huge)%Z ->
  (0 <= c_errorDelay (e_cfg E) < 2 ^ 63)%Z -> (0 <= c_bounceDelay (e_cfg E) < 2 ^ 63)%Z ->
  (0 <= d)%Z /\ (IZR d <= IZR (b_max c) * (11 / 10) * (1 + tiny) + 500000)%R.
Proof.
  intros Hr Hin HE Hrand Hp Hf Hm He Hb. apply elem_of_list_split in Hin as (pre & post & Hl).
  destruct (attempt_why E s pre g n sn t d post Hr Hl) as (_ & _ & base & -> & Hw). apply base_cases in Hw.
  unfold attempt_delay. destruct (Z.ltb_spec 0 base) as [H|H].
  - rewrite HE. apply delay_bounds; auto. lia.
  - assert (base = 0%Z) as -> by lia. split; [lia|]. assert (1 <= IZR (b_max c))%R by (apply (IZR_le 1); lia). unfold tiny. lra.
Qed.
