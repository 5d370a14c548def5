(** Proofs about the restart delay. *)
From Coq Require Import ZArith Reals Lra Lia Bool.
From Flocq Require Import Core BinarySingleNaN Relative.
From Verif Require Import Backoff BackoffSpec.
Open Scope R_scope.

Notation RN x := (round radix2 (SpecFloat.fexp 53 1024) ZnearestE x).
Definition u : R := / 9007199254740992.
Definition umin : R := bpow radix2 (-1022).

#[local] Instance vexp : Valid_exp (SpecFloat.fexp 53 1024) := fexp_correct 53 1024 prec53.
#[local] Instance vrnd : Valid_rnd ZnearestE := valid_rnd_N _.

Lemma u_pos : 0 < u < / 1000000000000000.
Proof. unfold u. lra. Qed.
Lemma umin_small : 0 < umin < / 1000000000000000000000.
Proof.
  split; [apply bpow_gt_0|]. unfold umin. apply Rlt_le_trans with (bpow radix2 (-80)); [apply bpow_lt; lia|].
  simpl. lra.
Qed.
Lemma RN_rel x : umin <= x -> (1 - u) * x <= RN x <= (1 + u) * x.
Proof.
  intros H. pose proof umin_small. pose proof (relative_error_N_FLT radix2 (3 - 1024 - 53) 53 eq_refl (fun x => negb (Z.even x)) x) as Hr.
  rewrite Rabs_pos_eq in Hr by lra. specialize (Hr H).
  change (FLT_exp (3 - 1024 - 53) 53) with (SpecFloat.fexp 53 1024) in Hr. change (Znearest _) with ZnearestE in Hr.
  change (bpow radix2 (- (53) + 1)) with (/ 4503599627370496) in Hr. apply Rabs_le_inv in Hr. unfold u. lra.
Qed.
Lemma RN_mono x y : x <= y -> RN x <= RN y.
Proof. apply round_le; typeclasses eauto. Qed.
Lemma RN_0 : RN 0 = 0.
Proof. apply round_0; typeclasses eauto. Qed.
Lemma RN_nonneg x : 0 <= x -> 0 <= RN x.
Proof. intros H. rewrite <- RN_0. now apply RN_mono. Qed.
Lemma two63 : bpow radix2 63 = 9223372036854775808.
Proof. reflexivity. Qed.
Lemma below_max x : 0 <= x <= bpow radix2 1000 -> Rlt_bool (Rabs (RN x)) (bpow radix2 1024) = true.
Proof.
  intros H. apply Rlt_bool_true. rewrite Rabs_pos_eq by now apply RN_nonneg.
  apply Rle_lt_trans with (RN (bpow radix2 1000)); [now apply RN_mono|].
  rewrite round_generic; [apply bpow_lt; lia|typeclasses eauto|]. apply generic_format_bpow. vm_compute. discriminate.
Qed.
Lemma big_1000 x : x <= bpow radix2 63 * bpow radix2 63 -> x <= bpow radix2 1000.
Proof. intros H. eapply Rle_trans; [exact H|]. rewrite <- bpow_plus. apply bpow_le. lia. Qed.

Lemma of_int_spec z : (0 <= z < 2 ^ 63)%Z -> is_finite (of_int z) = true /\ B2R (of_int z) = RN (IZR z) /\ Bsign (of_int z) = false.
Proof.
  intros Hz. pose proof (binary_normalize_correct 53 1024 prec53 lt1024 mode_NE z 0 false) as H. cbv zeta in H.
  assert (@F2R radix2 {| Fnum := z; Fexp := 0 |} = IZR z) as E. { unfold F2R. simpl. lra. }
  rewrite E in H. simpl round_mode in H. assert (0 <= IZR z) by (apply (IZR_le 0); lia).
  rewrite below_max in H.
  - unfold of_int; destruct H as (-> & -> & ->). split; [reflexivity|]. split; [reflexivity|]. destruct (Rcompare_spec (IZR z) 0); auto. lra.
  - split; [lra|]. apply big_1000. rewrite two63. apply Rle_trans with (IZR (2 ^ 63)); [apply IZR_le; lia|]. simpl. lra.
Qed.
Lemma of_int_rel z : (0 <= z < 2 ^ 63)%Z -> (1 - u) * IZR z <= B2R (of_int z) <= (1 + u) * IZR z.
Proof.
  intros Hz. destruct (of_int_spec z Hz) as (_ & -> & _). destruct (Z.eq_dec z 0) as [->|Hn].
  - rewrite RN_0. lra.
  - apply RN_rel. pose proof umin_small. assert (1 <= IZR z) by (apply (IZR_le 1); lia). lra.
Qed.
Lemma of_int_mono a b : (0 <= a <= b)%Z -> (b < 2 ^ 63)%Z -> B2R (of_int a) <= B2R (of_int b).
Proof.
  intros Ha Hb. destruct (of_int_spec a) as (_ & -> & _); [lia|]. destruct (of_int_spec b) as (_ & -> & _); [lia|].
  apply RN_mono, IZR_le. lia.
Qed.
Lemma of_int_max z : (0 <= z < 2 ^ 63)%Z -> 0 <= B2R (of_int z) <= bpow radix2 63.
Proof.
  intros Hz. destruct (of_int_spec z Hz) as (_ & -> & _). assert (0 <= IZR z) by (apply (IZR_le 0); lia). split; [now apply RN_nonneg|].
  apply Rle_trans with (RN (bpow radix2 63)).
  - apply RN_mono. rewrite two63. apply (IZR_le z). lia.
  - rewrite round_generic; [lra|typeclasses eauto|]. apply generic_format_bpow. vm_compute. discriminate.
Qed.

Lemma mul_spec (x y : f64) : is_finite x = true -> is_finite y = true -> 0 <= B2R x * B2R y <= bpow radix2 1000 ->
  is_finite (Bmult mode_NE x y) = true /\ B2R (Bmult mode_NE x y) = RN (B2R x * B2R y).
Proof.
  intros Hx Hy H. pose proof (Bmult_correct 53 1024 prec53 lt1024 mode_NE x y) as Hm. simpl round_mode in Hm.
  rewrite below_max in Hm by exact H. destruct Hm as (-> & -> & _). now rewrite Hx, Hy.
Qed.

(** ** The fuzz *)
Lemma const_spec a : (0 < a < 10)%Z -> let c := Bdiv mode_NE (of_int a) (of_int 10) in
  is_finite c = true /\ B2R c = RN (IZR a / 10).
Proof.
  intros Ha c. assert (forall z, (0 < z <= 10)%Z -> B2R (of_int z) = IZR z) as Hi.
  { intros z Hz. destruct (of_int_spec z) as (_ & -> & _); [lia|]. apply round_generic; [typeclasses eauto|].
    replace (IZR z) with (@F2R radix2 {| Fnum := z; Fexp := 0 |}) by (unfold F2R; simpl; lra).
    apply generic_format_F2R. intros Hz0. unfold cexp. 
    assert (mag radix2 (@F2R radix2 {| Fnum := z; Fexp := 0 |}) <= 4)%Z as Hm.
    { apply mag_le_bpow; [now apply F2R_neq_0|]. unfold F2R. simpl. rewrite Rmult_1_r, Rabs_pos_eq; [|apply (IZR_le 0); lia]. apply (IZR_lt z 16). lia. }
    unfold SpecFloat.fexp, SpecFloat.emin. cbn [Fexp]. lia. }
  pose proof (Bdiv_correct 53 1024 prec53 lt1024 mode_NE (of_int a) (of_int 10)) as H. rewrite !Hi in H by lia. simpl round_mode in H.
  assert (0 < IZR a < 10) by (split; apply IZR_lt; lia). rewrite below_max in H.
  - destruct H as (H1 & H2 & _); [lra|]. fold c in H1, H2. split; [|exact H1]. rewrite H2. apply of_int_spec. lia.
  - split; [apply Rmult_le_pos; lra|]. apply big_1000. rewrite two63. lra.
Qed.
Lemma RN_idem x : RN (RN x) = RN x.
Proof. apply round_generic; [typeclasses eauto|]. apply generic_format_round; typeclasses eauto. Qed.
Lemma c02_spec : is_finite c02 = true /\ RN (B2R c02) = B2R c02 /\ (1 - u) * (2 / 10) <= B2R c02 <= (1 + u) * (2 / 10).
Proof. destruct (const_spec 2) as (H & E); [lia|]. fold c02 in *. rewrite E, RN_idem. pose proof umin_small. repeat split; auto; apply RN_rel; lra. Qed.
Lemma c09_spec : is_finite c09 = true /\ RN (B2R c09) = B2R c09 /\ (1 - u) * (9 / 10) <= B2R c09 <= (1 + u) * (9 / 10).
Proof. destruct (const_spec 9) as (H & E); [lia|]. fold c09 in *. rewrite E, RN_idem. pose proof umin_small. repeat split; auto; apply RN_rel; lra. Qed.

Lemma fuzz_spec o g : rand_ok (o_rand o g) -> is_finite (fuzz o g) = true /\ (1 - u) * (9 / 10) <= B2R (fuzz o g) <= (1 + 3 * u) * (11 / 10).
Proof.
  intros (Hf & Hr). destruct c02_spec as (F2 & N2 & B2). destruct c09_spec as (F9 & N9 & B9). pose proof u_pos. pose proof umin_small.
  assert (0 <= B2R (o_rand o g) * B2R c02 <= B2R c02) as Hp by (split; nra).
  assert (forall x, B2R c09 <= x <= B2R c09 + B2R c02 -> B2R c09 <= RN x <= (1 + 3 * u) * (11 / 10)) as Hsum.
  { intros x Hx. split. - rewrite <- N9. now apply RN_mono. - destruct (RN_rel x) as [_ H']; [lra|]. eapply Rle_trans; [exact H'|]. nra. }
  unfold fuzz. destruct (o_fused o).
  - pose proof (Bfma_correct 53 1024 prec53 lt1024 mode_NE (o_rand o g) c02 c09 Hf F2 F9) as H'. cbv zeta in H'. simpl round_mode in H'.
    rewrite below_max in H'. 2: { split; [lra|]. apply big_1000. rewrite two63. lra. }
    destruct H' as (E & -> & _). split; [reflexivity|]. rewrite E. destruct (Hsum (B2R (o_rand o g) * B2R c02 + B2R c09)); lra.
  - destruct (mul_spec (o_rand o g) c02 Hf F2) as (Fm & Em). { split; [lra|]. apply big_1000. rewrite two63. lra. }
    assert (0 <= B2R (Bmult mode_NE (o_rand o g) c02) <= B2R c02) as Hq.
    { rewrite Em. split; [apply RN_nonneg; lra|]. rewrite <- N2 at 2. now apply RN_mono. }
    pose proof (Bplus_correct 53 1024 prec53 lt1024 mode_NE _ c09 Fm F9) as H'. simpl round_mode in H'.
    rewrite below_max in H'. 2: { split; [lra|]. apply big_1000. rewrite two63. lra. }
    destruct H' as (E & -> & _). split; [reflexivity|]. rewrite E.
    destruct (Hsum (B2R (Bmult mode_NE (o_rand o g) c02) + B2R c09)); lra.
Qed.

(** ** Conversion to an integer, rounding to milliseconds *)
Lemma trunc_spec (x : f64) : 0 <= B2R x -> Btrunc x = Zfloor (B2R x).
Proof.
  intros H. apply eq_IZR. rewrite (Btrunc_correct 53 1024 lt1024). rewrite round_FIX_IZR. now rewrite Ztrunc_floor.
Qed.
Lemma to_int_spec o (x : f64) : is_finite x = true -> 0 <= B2R x < bpow radix2 63 -> to_int o x = Zfloor (B2R x).
Proof.
  intros Hf [H1 H2]. unfold to_int. rewrite Hf, (trunc_spec x H1). simpl.
  assert (0 <= Zfloor (B2R x))%Z by (apply Zfloor_lub; exact H1).
  assert (Zfloor (B2R x) < 2 ^ 63)%Z. { apply lt_IZR. eapply Rle_lt_trans; [apply Zfloor_lb|]. exact H2. }
  unfold in_int64, min_int64, max_int64. rewrite (proj2 (Z.leb_le _ _)) by lia. rewrite (proj2 (Z.leb_le _ _)) by lia. reflexivity.
Qed.
Lemma floor_bounds x : IZR (Zfloor x) <= x < IZR (Zfloor x) + 1.
Proof. split; [apply Zfloor_lb|apply Zfloor_ub]. Qed.

Open Scope Z_scope.
Lemma wrap64_id z : - 2 ^ 63 <= z < 2 ^ 63 -> wrap64 z = z.
Proof. intros H. unfold wrap64. rewrite Z.mod_small; lia. Qed.
Lemma round_ms_spec z : 0 <= z < 2 ^ 63 - 1000000 ->
  round_to millisecond z = ((z + 500000) / 1000000) * 1000000.
Proof.
  intros H. unfold round_to, millisecond. rewrite (proj2 (Z.ltb_ge _ _)) by lia.
  rewrite Z.rem_mod_nonneg by lia. pose proof (Z.mod_pos_bound z 1000000 eq_refl). pose proof (Z.div_mod z 1000000 ltac:(lia)).
  set (q := z / 1000000) in *. set (r := z mod 1000000) in *.
  destruct (Z.ltb_spec (r + r) 1000000).
  - assert ((z + 500000) / 1000000 = q) as ->; [|lia]. symmetry. apply (Z.div_unique _ _ _ (r + 500000)); lia.
  - assert ((z + 500000) / 1000000 = q + 1) as ->. { symmetry. apply (Z.div_unique _ _ _ (r - 500000)); lia. }
    rewrite wrap64_id by lia. rewrite (proj2 (Z.gtb_lt _ _)) by lia. lia.
Qed.
Lemma round_ms_bounds z : 0 <= z < 2 ^ 63 - 1000000 -> 0 <= round_to millisecond z /\ z - 500000 < round_to millisecond z <= z + 500000.
Proof.
  intros H. rewrite round_ms_spec by exact H. pose proof (Z.div_mod (z + 500000) 1000000 ltac:(lia)). pose proof (Z.mod_pos_bound (z + 500000) 1000000 eq_refl).
  pose proof (Z.div_pos (z + 500000) 1000000). lia.
Qed.
Lemma round_ms_mono a b : 0 <= a <= b -> b < 2 ^ 63 - 1000000 -> round_to millisecond a <= round_to millisecond b.
Proof. intros Ha Hb. rewrite !round_ms_spec by lia. apply Z.mul_le_mono_nonneg_r; [lia|]. apply Z.div_le_mono; lia. Qed.
Close Scope Z_scope.

(** ** The fuzzed delay *)
Lemma fuzzed_raw o g d : rand_ok (o_rand o g) -> (0 <= d <= huge)%Z ->
  let x := RN (B2R (of_int d) * B2R (fuzz o g)) in
  fuzzed o g d = round_to millisecond (Zfloor x) /\ (1 - 3 * u) * (9 / 10) * IZR d <= x <= (1 + 6 * u) * (11 / 10) * IZR d /\
  (0 <= Zfloor x < 2 ^ 63 - 1000000)%Z.
Proof.
  intros Hr Hd x. unfold huge in Hd. destruct (fuzz_spec o g Hr) as (Ff & Bf). destruct (of_int_spec d ltac:(lia)) as (Fd & Ed & _). pose proof (of_int_rel d ltac:(lia)) as Bd.
  pose proof (of_int_max d ltac:(lia)) as Md. pose proof u_pos. pose proof umin_small.
  assert (0 <= IZR d <= 8000000000000000000) as Hd' by (split; apply IZR_le; lia).
  destruct (mul_spec (of_int d) (fuzz o g) Fd Ff) as (Fm & Em).
  { split; [apply Rmult_le_pos; lra|]. apply big_1000. rewrite two63 in *. nra. }
  assert ((1 - 3 * u) * (9 / 10) * IZR d <= x <= (1 + 6 * u) * (11 / 10) * IZR d) as Hx.
  { subst x. destruct (Z.eq_dec d 0) as [->|Hn].
    - rewrite Ed, RN_0, Rmult_0_l, RN_0. lra.
    - assert (1 <= IZR d) by (apply (IZR_le 1); lia).
      assert ((1 - u) * IZR d * ((1 - u) * (9 / 10)) <= B2R (of_int d) * B2R (fuzz o g) <= (1 + u) * IZR d * ((1 + 3 * u) * (11 / 10))) as Hp.
      { split; apply Rmult_le_compat; nra. }
      assert (1 - 2 * u <= (1 - u) * (1 - u)) as Q1 by nra. assert (1 - 3 * u <= (1 - u) * ((1 - u) * (1 - u))) as Q2 by nra.
      assert ((1 + u) * ((1 + u) * (1 + 3 * u)) <= 1 + 6 * u) as Q3 by nra.
      destruct (RN_rel (B2R (of_int d) * B2R (fuzz o g))) as [L U].
      { eapply Rle_trans; [|apply Hp]. replace ((1 - u) * IZR d * ((1 - u) * (9 / 10))) with ((1 - u) * (1 - u) * (9 / 10) * IZR d) by ring. nra. }
      split.
      + eapply Rle_trans; [|exact L]. eapply Rle_trans; [|apply Rmult_le_compat_l; [|apply Hp]]; [|lra].
        replace ((1 - u) * ((1 - u) * IZR d * ((1 - u) * (9 / 10)))) with ((1 - u) * ((1 - u) * (1 - u)) * (9 / 10 * IZR d)) by ring.
        rewrite (Rmult_assoc (1 - 3 * u)). apply Rmult_le_compat_r; lra.
      + eapply Rle_trans; [exact U|]. eapply Rle_trans; [apply Rmult_le_compat_l; [|apply Hp]|]; [lra|].
        replace ((1 + u) * ((1 + u) * IZR d * ((1 + 3 * u) * (11 / 10)))) with ((1 + u) * ((1 + u) * (1 + 3 * u)) * (11 / 10 * IZR d)) by ring.
        rewrite (Rmult_assoc (1 + 6 * u)). apply Rmult_le_compat_r; lra. }
  assert (0 <= x) by nra. assert (x < 9223372036853775808 - 1) by nra.
  unfold fuzzed. rewrite to_int_spec; [|exact Fm|rewrite Em, two63; fold x; lra]. rewrite Em. fold x. repeat split; try apply Hx.
  - apply Zfloor_lub. assumption.
  - apply lt_IZR. eapply Rle_lt_trans; [apply Zfloor_lb|]. change (2 ^ 63 - 1000000)%Z with 9223372036853775808%Z. lra.
Qed.
Lemma fuzzed_bounds o g d : rand_ok (o_rand o g) -> (0 <= d <= huge)%Z ->
  (0 <= fuzzed o g d)%Z /\ IZR d * (9 / 10) * (1 - tiny) - 500001 <= IZR (fuzzed o g d) <= IZR d * (11 / 10) * (1 + tiny) + 500000.
Proof.
  intros Hr Hd. destruct (fuzzed_raw o g d Hr Hd) as (-> & Hx & Hz). set (x := RN _) in *.
  destruct (round_ms_bounds _ Hz) as (H0 & H1 & H2). split; [exact H0|]. apply IZR_lt in H1. apply IZR_le in H2. rewrite minus_IZR in H1. rewrite plus_IZR in H2.
  destruct (floor_bounds x). unfold tiny. unfold huge in Hd. assert (0 <= IZR d) by (apply IZR_le; lia). unfold u in Hx. lra.
Qed.
Lemma fuzzed_mono o g a b : rand_ok (o_rand o g) -> (0 <= a <= b)%Z -> (b <= huge)%Z -> (fuzzed o g a <= fuzzed o g b)%Z.
Proof.
  intros Hr Ha Hb. destruct (fuzzed_raw o g a Hr) as (-> & _ & Za); [lia|]. destruct (fuzzed_raw o g b Hr) as (-> & _ & Zb); [lia|].
  apply round_ms_mono; [|lia]. split; [lia|]. apply Zfloor_le, RN_mono. unfold huge in Hb. apply Rmult_le_compat_r.
  - destruct (fuzz_spec o g Hr) as (_ & H & _). pose proof u_pos. lra.
  - apply of_int_mono; lia.
Qed.

(** ** The delay before the fuzz *)
Lemma of_int_pos d : (0 < d < 2 ^ 63)%Z -> is_finite (of_int d) = true /\ Bsign (of_int d) = false /\ 0 < B2R (of_int d).
Proof.
  intros Hd. destruct (of_int_spec d ltac:(lia)) as (F & E & S). split; [exact F|]. split; [exact S|]. pose proof (of_int_rel d ltac:(lia)). pose proof u_pos.
  assert (1 <= IZR d) by (apply (IZR_le 1); lia). nra.
Qed.
Lemma inf_of_SF (x : f64) : B2SF x = SpecFloat.S754_infinity false -> x = B754_infinity false.
Proof. destruct x; simpl; intros [=]; now subst. Qed.
Definition sane (p : f64) : Prop := is_plus_inf p \/ is_finite p = true /\ 0 <= B2R p.
Lemma product d (p : f64) : (0 < d < 2 ^ 63)%Z -> sane p ->
  let x := Bmult mode_NE (of_int d) p in
  (is_plus_inf x /\ (is_plus_inf p \/ bpow radix2 1024 <= RN (B2R (of_int d) * B2R p))) \/
  (is_finite p = true /\ is_finite x = true /\ 0 <= B2R p /\ B2R x = RN (B2R (of_int d) * B2R p)).
Proof.
  intros Hd Hp x. destruct (of_int_pos d Hd) as (F & S & P). destruct Hp as [Hp|[Hf H0]].
  - left. split; [|now left]. subst x. unfold is_plus_inf in *. rewrite Hp. destruct (of_int d) as [b|b| |b m e Hb]; simpl in *; try discriminate; try lra. now rewrite S.
  - pose proof (Bmult_correct 53 1024 prec53 lt1024 mode_NE (of_int d) p) as Hm. simpl round_mode in Hm. fold x in Hm.
    destruct (Rlt_bool_spec (Rabs (RN (B2R (of_int d) * B2R p))) (bpow radix2 1024)) as [Hl|Hl].
    + right. destruct Hm as (-> & -> & _). rewrite F, Hf. auto.
    + left. assert (0 <= B2R (of_int d) * B2R p) by (apply Rmult_le_pos; lra). rewrite Rabs_pos_eq in Hl by now apply RN_nonneg. split; [|now right]. apply inf_of_SF. rewrite Hm, S.
      assert (Bsign p = false) as ->; [|reflexivity]. destruct p as [b|b| |b m e Hb]; simpl in *; try discriminate.
      * exfalso. rewrite Rmult_0_r, RN_0 in Hl. pose proof (bpow_gt_0 radix2 1024). lra.
      * destruct b; [|reflexivity]. exfalso. unfold F2R in H0. simpl in H0. pose proof (bpow_gt_0 radix2 e). assert (IZR (Z.neg m) < 0) by (apply (IZR_lt _ 0); lia). nra.
Qed.
Lemma ltb_inf (x : f64) : is_finite x = true -> Bltb x (B754_infinity false) = true.
Proof. destruct x as [b|b| |b m e Hb]; try discriminate; destruct b; reflexivity. Qed.

(** The cases of [grown]: the cap, or the product. *)
Lemma grown_cases o c d r : Bltb (of_int 0) (b_factor c) = true -> (0 < b_max c <= huge)%Z -> (0 < d < 2 ^ 63)%Z ->
  let p := o_pow o (b_factor c) (of_int (Z.of_nat r - 1)) in sane p ->
  let y := RN (B2R (of_int d) * B2R p) in
  (grown o c d r = b_max c /\ (is_plus_inf p \/ B2R (of_int (b_max c)) < y)) \/
  (is_finite p = true /\ grown o c d r = Zfloor y /\ 0 <= y <= B2R (of_int (b_max c))).
Proof.
  intros Hf Hm Hd p Hp y. unfold huge in Hm. unfold grown. rewrite Hf. fold p. rewrite (proj2 (Z.ltb_lt _ _)) by lia. cbn [andb].
  destruct (of_int_spec (b_max c) ltac:(lia)) as (Fm & _ & _).
  destruct (product d p Hd Hp) as [[Hx Hw]|(Hp' & Fx & P0 & Ex)].
  - rewrite Hx, ltb_inf by exact Fm. left. split; [reflexivity|]. destruct Hw as [Hw|Hw]; [now left|right]. fold y in Hw.
    apply Rle_lt_trans with (bpow radix2 63); [apply of_int_max; lia|]. eapply Rlt_le_trans; [|exact Hw]. apply bpow_lt. lia.
  - rewrite (Bltb_correct 53 1024) by assumption. rewrite Ex. fold y. destruct (of_int_pos d Hd) as (_ & _ & P).
    assert (0 <= y) as Hy. { apply RN_nonneg. apply Rmult_le_pos; lra. }
    destruct (Rlt_bool_spec (B2R (of_int (b_max c))) y) as [H|H]; [left; auto|right]. split; [exact Hp'|]. split; [|lra].
    rewrite to_int_spec; [now rewrite Ex|exact Fx|]. rewrite Ex. fold y. split; [exact Hy|]. eapply Rle_lt_trans; [exact H|].
    destruct (of_int_rel (b_max c) ltac:(lia)) as [_ U]. eapply Rle_lt_trans; [exact U|]. rewrite two63. pose proof u_pos.
    assert (1 <= IZR (b_max c) <= 8000000000000000000) by (split; apply IZR_le; lia). nra.
Qed.
Lemma int_above a b : (0 <= a)%Z -> (0 < b <= huge)%Z -> IZR a <= B2R (of_int b) -> IZR a <= IZR b * (1 + u).
Proof. intros Ha Hb H. unfold huge in Hb. destruct (of_int_rel b ltac:(lia)) as [_ U]. lra. Qed.

Lemma pow_sane_at pow f n : pow_sane pow f -> (-1 <= n)%Z -> sane (pow f (of_int n)).
Proof. intros H Hn. exact (H n Hn). Qed.

(** The cap may be exceeded by the rounding of MaxDelay to a float: not at all when it is below 2^53. *)
Lemma grown_bounds o c d r : Bltb (of_int 0) (b_factor c) = true -> (0 < b_max c <= huge)%Z -> (0 < d < 2 ^ 63)%Z -> pow_sane (o_pow o) (b_factor c) ->
  (0 <= grown o c d r)%Z /\ IZR (grown o c d r) <= B2R (of_int (b_max c)) \/ grown o c d r = b_max c.
Proof.
  intros Hf Hm Hd Hp. destruct (grown_cases o c d r Hf Hm Hd) as [[H _]|(_ & -> & H0 & H1)]; auto.
  - apply pow_sane_at; [exact Hp|lia].
  - left. split; [apply Zfloor_lub; exact H0|]. eapply Rle_trans; [apply Zfloor_lb|exact H1].
Qed.
(** A float that is at most [RN z] is at most [RN z]: and the whole part of it, fuzzed, stays within the bounds of [z]. *)
Lemma of_int_exact z : (0 <= z <= 2 ^ 53)%Z -> B2R (of_int z) = IZR z.
Proof.
  intros Hz. destruct (of_int_spec z ltac:(lia)) as (_ & -> & _). destruct (Z.eq_dec z (2 ^ 53)) as [->|Hn].
  - apply round_generic; [typeclasses eauto|]. change (IZR (2 ^ 53)) with (bpow radix2 53). apply generic_format_bpow. vm_compute. discriminate.
  - apply round_generic; [typeclasses eauto|].
    replace (IZR z) with (@F2R radix2 {| Fnum := z; Fexp := 0 |}) by (unfold F2R; simpl; lra).
    apply generic_format_F2R. intros Hz0. unfold cexp.
    assert (mag radix2 (@F2R radix2 {| Fnum := z; Fexp := 0 |}) <= 53)%Z as Hm.
    { apply mag_le_bpow; [now apply F2R_neq_0|]. unfold F2R. simpl. rewrite Rmult_1_r, Rabs_pos_eq; [|apply (IZR_le 0); lia]. apply (IZR_lt z (2 ^ 53)). lia. }
    unfold SpecFloat.fexp, SpecFloat.emin. cbn [Fexp]. lia.
Qed.
Lemma huge_exact : B2R (of_int huge) = IZR huge.
Proof.
  destruct (of_int_spec huge) as (_ & -> & _); [unfold huge; lia|]. apply round_generic; [typeclasses eauto|].
  replace (IZR huge) with (@F2R radix2 {| Fnum := 3814697265625; Fexp := 21 |}).
  2: { unfold F2R. simpl. rewrite <- mult_IZR. reflexivity. }
  apply generic_format_F2R. intros _. unfold cexp.
  assert (mag radix2 (@F2R radix2 {| Fnum := 3814697265625; Fexp := 21 |}) <= 63)%Z as Hm.
  { apply mag_le_bpow; [now apply F2R_neq_0|]. unfold F2R. simpl. rewrite Rabs_pos_eq; lra. }
  unfold SpecFloat.fexp, SpecFloat.emin. cbn [Fexp]. lia.
Qed.
Lemma grown_range o c d r : Bltb (of_int 0) (b_factor c) = true -> (0 < b_max c <= huge)%Z -> (0 < d < 2 ^ 63)%Z -> pow_sane (o_pow o) (b_factor c) ->
  (0 <= grown o c d r <= huge)%Z /\ IZR (grown o c d r) <= IZR (b_max c) * (1 + u) /\ ((b_max c <= 2 ^ 53)%Z -> (grown o c d r <= b_max c)%Z).
Proof.
  intros Hf Hm Hd Hp. pose proof u_pos. unfold huge in Hm. destruct (grown_bounds o c d r Hf Hm Hd Hp) as [[H0 H1]|H1].
  - split; [split; [exact H0|]|split].
    + apply le_IZR. eapply Rle_trans; [exact H1|]. rewrite <- huge_exact. unfold huge. apply of_int_mono; lia.
    + apply int_above; auto.
    + intros Hs. apply le_IZR. rewrite <- (of_int_exact (b_max c)) by lia. exact H1.
  - rewrite H1. assert (1 <= IZR (b_max c)) by (apply IZR_le; lia). unfold huge. repeat split; try lia. nra.
Qed.

(** C22: bounds. *)
Lemma delay_bounds o c g d r : rand_ok (o_rand o g) -> pow_sane (o_pow o) (b_factor c) ->
  Bltb (of_int 0) (b_factor c) = true -> (0 < b_max c <= huge)%Z -> (0 < d < 2 ^ 63)%Z ->
  (0 <= backoff_delay o c g d r)%Z /\ IZR (backoff_delay o c g d r) <= IZR (b_max c) * (11 / 10) * (1 + tiny) + 500000.
Proof.
  intros Hr Hp Hf Hm Hd. unfold backoff_delay. rewrite (proj2 (Z.ltb_lt _ _)) by lia.
  destruct (grown_range o c d r Hf Hm Hd Hp) as (Hg & Hu & _). destruct (fuzzed_raw o g _ Hr Hg) as (-> & Hx & Hz). set (x := RN _) in *.
  destruct (round_ms_bounds _ Hz) as (H0 & _ & H2). split; [exact H0|]. apply IZR_le in H2. rewrite plus_IZR in H2.
  destruct (floor_bounds x) as [Hfl _]. assert (1 <= IZR (b_max c)) by (apply IZR_le; lia).
  assert ((1 + 6 * u) * (11 / 10) * IZR (grown o c d r) <= (1 + 6 * u) * (11 / 10) * (IZR (b_max c) * (1 + u))) by (apply Rmult_le_compat_l; [unfold u|]; lra).
  assert ((1 + 6 * u) * (1 + u) <= 1 + tiny) as Q by (unfold u, tiny; lra).
  assert ((1 + 6 * u) * (11 / 10) * (IZR (b_max c) * (1 + u)) <= IZR (b_max c) * (11 / 10) * (1 + tiny)).
  { replace ((1 + 6 * u) * (11 / 10) * (IZR (b_max c) * (1 + u))) with (IZR (b_max c) * (11 / 10) * ((1 + 6 * u) * (1 + u))) by ring. apply Rmult_le_compat_l; lra. }
  lra.
Qed.
(** For a MaxDelay up to 10^14 ns (27 hours) the bound is exact. *)
Lemma delay_bounds_exact o c g d r : rand_ok (o_rand o g) -> pow_sane (o_pow o) (b_factor c) ->
  Bltb (of_int 0) (b_factor c) = true -> (0 < b_max c <= 10 ^ 14)%Z -> (0 < d < 2 ^ 63)%Z ->
  (0 <= 10 * backoff_delay o c g d r <= 11 * b_max c + 5000000)%Z.
Proof.
  intros Hr Hp Hf Hm Hd. unfold backoff_delay. rewrite (proj2 (Z.ltb_lt _ _)) by lia.
  destruct (grown_range o c d r Hf ltac:(unfold huge; lia) Hd Hp) as (Hg & _ & Hu). specialize (Hu ltac:(lia)). destruct (fuzzed_raw o g _ Hr Hg) as (-> & Hx & Hz). set (x := RN _) in *.
  destruct (round_ms_bounds _ Hz) as (H0 & _ & H2). split; [lia|].
  assert (10 * Zfloor x <= 11 * b_max c)%Z; [|lia].
  assert (10 * IZR (Zfloor x) < IZR (11 * b_max c + 1)) as Q.
  { rewrite plus_IZR, mult_IZR. apply IZR_le in Hu. destruct (floor_bounds x) as [Hfl _]. assert (IZR (b_max c) <= 100000000000000) by (apply (IZR_le _ 100000000000000); lia).
    assert (0 <= IZR (grown o c d r)) by (apply IZR_le; lia). unfold u in Hx. lra. }
  rewrite <- mult_IZR in Q. apply lt_IZR in Q. lia.
Qed.
(** Without backoff: the factor is zero, or a NaN. *)
Lemma delay_plain o c g d r : rand_ok (o_rand o g) -> Bltb (of_int 0) (b_factor c) = false -> (0 < d <= huge)%Z ->
  (0 <= backoff_delay o c g d r)%Z /\
  IZR d * (9 / 10) * (1 - tiny) - 500001 <= IZR (backoff_delay o c g d r) <= IZR d * (11 / 10) * (1 + tiny) + 500000.
Proof.
  intros Hr Hf Hd. unfold backoff_delay, grown. rewrite (proj2 (Z.ltb_lt _ _)) by lia. rewrite Hf. apply fuzzed_bounds; [exact Hr|lia].
Qed.

(** ** Growth *)
Lemma accurate_sane delta pow f n : 0 <= delta < 1 -> pow_accurate delta pow f -> 0 <= B2R f -> (Z.of_nat n < 2 ^ 53)%Z -> sane (pow f (of_int (Z.of_nat n))).
Proof.
  intros Hd Ha Hf Hn. destruct (Ha n Hn) as [[H1 H2]|[H _]]; [right|now left]. split; [exact H1|].
  pose proof (pow_le _ n Hf). nra.
Qed.
Definition count_ok (r : nat) : Prop := (1 <= r)%nat /\ (Z.of_nat r <= 2 ^ 53)%Z.
Lemma exponent r : count_ok r -> (Z.of_nat r - 1 = Z.of_nat (r - 1))%Z /\ (Z.of_nat (r - 1) < 2 ^ 53)%Z.
Proof. intros [H1 H2]. lia. Qed.
Lemma factor_pos (f : f64) : is_finite f = true -> 0 < B2R f -> Bltb (of_int 0) f = true.
Proof. intros Hf H. rewrite (Bltb_correct 53 1024); [|reflexivity|exact Hf]. change (B2R (of_int 0)) with 0%R. now apply Rlt_bool_true. Qed.

(** C22: up to rounding, the delay before the fuzz is the smaller one of MaxDelay and delay * factor^(errors-1). *)
Lemma grown_value delta o c d r : 0 <= delta < 1 -> is_finite (b_factor c) = true -> 1 <= B2R (b_factor c) -> pow_accurate delta (o_pow o) (b_factor c) ->
  (0 < b_max c <= huge)%Z -> (0 < d < 2 ^ 63)%Z -> count_ok r ->
  let ideal := Rmin (IZR (b_max c)) (IZR d * B2R (b_factor c) ^ (r - 1)) in
  ideal * (1 - delta) * (1 - tiny) - 1 <= IZR (grown o c d r) <= ideal * (1 + delta) * (1 + tiny).
Proof.
  intros Hdl Ff Hf Ha Hm Hd Hr ideal. destruct (exponent r Hr) as [En Hn]. pose proof u_pos as Hu.
  destruct (grown_cases o c d r) as [[E Hw]|(Fp & E & Hy)]; auto.
  - apply factor_pos; [exact Ff|lra].
  - rewrite En. apply (accurate_sane delta); auto. lra.
  - rewrite En in Hw. rewrite E. unfold huge in Hm. assert (1 <= IZR (b_max c)) as Hm1 by (apply IZR_le; lia).
    assert (1 <= IZR d) as Hd1 by (apply (IZR_le 1); lia).
    pose proof (pow_R1_Rle (B2R (b_factor c)) (r - 1) Hf) as Hp1. set (P := B2R (b_factor c) ^ (r - 1)) in *.
    assert (ideal <= IZR (b_max c)) as Hi by apply Rmin_l. assert (0 < ideal) as Hi0. { unfold ideal. apply Rmin_glb_lt; nra. }
    assert (0 < (1 - delta) * (1 - tiny) <= 1) as Q1 by (unfold tiny; nra). split; [nra|].
    (* the cap was reached, so the ideal value is not much below it *)
    assert (IZR (b_max c) <= IZR d * P * (1 + delta) * (1 + tiny)) as Hb.
    { pose proof (of_int_rel (b_max c) ltac:(lia)) as [Lm _]. pose proof (of_int_rel d ltac:(lia)) as [Ld Ud].
      destruct (Ha (r - 1)%nat Hn) as [[F [L U]]|[I HP]]; [fold P in L, U|fold P in HP].
      - destruct Hw as [Hw|Hw]. { unfold is_plus_inf in Hw. rewrite Hw in F. discriminate. }
        set (p := B2R (o_pow o (b_factor c) (of_int (Z.of_nat (r - 1))))) in *.
        assert (0 <= p) by nra.
        assert (B2R (of_int d) * p <= (1 + u) * IZR d * ((1 + delta) * P)) as Hprod by (apply Rmult_le_compat; nra).
        assert (RN (B2R (of_int d) * p) <= (1 + u) * ((1 + u) * IZR d * ((1 + delta) * P))) as Hrn.
        { eapply Rle_trans; [apply RN_mono; exact Hprod|]. apply RN_rel. pose proof umin_small. assert (1 <= (1 + u) * IZR d * ((1 + delta) * P)); [|lra].
          rewrite <- (Rmult_1_r 1). apply Rmult_le_compat; try lra; rewrite <- (Rmult_1_r 1); apply Rmult_le_compat; lra. }
        assert ((1 - u) * IZR (b_max c) <= (1 + u) * ((1 + u) * IZR d * ((1 + delta) * P))) as Hz by lra.
        assert ((1 + u) * (1 + u) <= (1 - u) * (1 + tiny)) as Q by (unfold u, tiny; lra).
        assert (0 <= IZR d * P * (1 + delta)) as Hpos by (repeat apply Rmult_le_pos; lra).
        apply Rmult_le_reg_l with (1 - u); [lra|]. eapply Rle_trans; [exact Hz|].
        replace ((1 + u) * ((1 + u) * IZR d * ((1 + delta) * P))) with ((1 + u) * (1 + u) * (IZR d * P * (1 + delta))) by ring.
        replace ((1 - u) * (IZR d * P * (1 + delta) * (1 + tiny))) with ((1 - u) * (1 + tiny) * (IZR d * P * (1 + delta))) by ring.
        now apply Rmult_le_compat_r.
      - assert (bpow radix2 63 <= P) as HP'. { eapply Rle_trans; [|exact HP]. apply bpow_le. lia. }
        rewrite two63 in HP'. assert (IZR (b_max c) <= 8000000000000000000) by (apply IZR_le; lia).
        assert (IZR (b_max c) <= IZR d * P) by nra. assert (1 <= (1 + delta) * (1 + tiny)) by (unfold tiny; nra).
        rewrite (Rmult_assoc (IZR d * P)). assert (0 <= IZR d * P) by nra. nra. }
    unfold ideal, Rmin. destruct (Rle_dec (IZR (b_max c)) (IZR d * P)); [|exact Hb].
    assert (1 <= (1 + delta) * (1 + tiny)) by (unfold tiny; nra). rewrite Rmult_assoc. nra.
  - rewrite En in Fp, Hy, E. unfold huge in Hm. assert (1 <= IZR (b_max c)) as Hm1 by (apply IZR_le; lia).
    assert (1 <= IZR d) as Hd1 by (apply (IZR_le 1); lia). rewrite E.
    pose proof (pow_R1_Rle (B2R (b_factor c)) (r - 1) Hf) as Hp1. set (P := B2R (b_factor c) ^ (r - 1)) in *.
    pose proof (of_int_rel (b_max c) ltac:(lia)) as [_ Um]. pose proof (of_int_rel d ltac:(lia)) as [Ld Ud].
    destruct (Ha (r - 1)%nat Hn) as [[F [L U]]|[I HP]]; [fold P in L, U|fold P in HP].
    2: { unfold is_plus_inf in I. rewrite I in Fp. discriminate. }
    set (p := B2R (o_pow o (b_factor c) (of_int (Z.of_nat (r - 1))))) in *. assert (0 <= p) as Hp0 by nra. set (y := RN (B2R (of_int d) * p)) in *.
    destruct (floor_bounds y) as [F1 F2]. assert (0 <= IZR d * P) as HdP by nra.
    assert (ideal <= IZR d * P) as Hi by apply Rmin_r. assert (0 < ideal) as Hi0. { unfold ideal. apply Rmin_glb_lt; nra. }
    assert (B2R (of_int d) * p <= (1 + u) * IZR d * ((1 + delta) * P)) as Hprod by (apply Rmult_le_compat; nra).
    assert (y <= (1 + u) * ((1 + u) * IZR d * ((1 + delta) * P))) as Hup.
    { eapply Rle_trans; [apply RN_mono; exact Hprod|]. apply RN_rel. pose proof umin_small. assert (1 <= (1 + u) * IZR d * ((1 + delta) * P)); [|lra].
      rewrite <- (Rmult_1_r 1). apply Rmult_le_compat; try lra; rewrite <- (Rmult_1_r 1); apply Rmult_le_compat; lra. }
    split.
    + (* from below *)
      assert ((1 - u) * IZR d * ((1 - delta) * P) <= B2R (of_int d) * p) as Hlow.
      { apply Rmult_le_compat; try nra. }
      assert (ideal * (1 - delta) * (1 - tiny) <= IZR d * P * ((1 - delta) * (1 - tiny))) as Hid.
      { rewrite Rmult_assoc. apply Rmult_le_compat_r; [unfold tiny; nra|exact Hi]. }
      destruct (Rle_dec umin ((1 - u) * IZR d * ((1 - delta) * P))) as [Hbig|Hsmall].
      * assert ((1 - u) * ((1 - u) * IZR d * ((1 - delta) * P)) <= y) as Hyl. { eapply Rle_trans; [apply RN_rel; exact Hbig|]. now apply RN_mono. }
        assert (1 - tiny <= (1 - u) * (1 - u)) as Q by (unfold u, tiny; lra).
        assert (IZR d * P * ((1 - delta) * (1 - tiny)) <= (1 - u) * ((1 - u) * IZR d * ((1 - delta) * P))).
        { replace ((1 - u) * ((1 - u) * IZR d * ((1 - delta) * P))) with (IZR d * P * (1 - delta) * ((1 - u) * (1 - u))) by ring.
          rewrite <- Rmult_assoc. apply Rmult_le_compat_l; [|exact Q]. apply Rmult_le_pos; lra. }
        lra.
      * pose proof umin_small as Hum. assert (IZR d * P * ((1 - delta) * (1 - tiny)) <= 1).
        { assert (IZR d * P * (1 - delta) <= 2 * umin).
          { apply Rnot_le_lt in Hsmall. replace ((1 - u) * IZR d * ((1 - delta) * P)) with ((1 - u) * (IZR d * P * (1 - delta))) in Hsmall by ring. assert (0 <= IZR d * P * (1 - delta)) by (apply Rmult_le_pos; lra). nra. }
          assert (0 <= IZR d * P * (1 - delta)) by (apply Rmult_le_pos; lra). rewrite <- Rmult_assoc. unfold tiny. nra. }
        assert (0 <= IZR (Zfloor y)) by (apply (IZR_le 0), Zfloor_lub, Hy). lra.
    + unfold ideal, Rmin. destruct (Rle_dec (IZR (b_max c)) (IZR d * P)) as [Hle|Hgt].
      * assert (1 + u <= (1 + delta) * (1 + tiny)) by (unfold u, tiny; nra). rewrite Rmult_assoc. nra.
      * assert ((1 + u) * (1 + u) <= 1 + tiny) as Q by (unfold u, tiny; lra).
        eapply Rle_trans; [exact F1|]. eapply Rle_trans; [exact Hup|].
        replace ((1 + u) * ((1 + u) * IZR d * ((1 + delta) * P))) with (IZR d * P * (1 + delta) * ((1 + u) * (1 + u))) by ring.
        apply Rmult_le_compat_l; [|exact Q]. apply Rmult_le_pos; lra.
Qed.

(** C22: the same for the final delay. *)
Lemma delay_value delta o c g d r : 0 <= delta < 1 -> is_finite (b_factor c) = true -> 1 <= B2R (b_factor c) -> pow_accurate delta (o_pow o) (b_factor c) ->
  rand_ok (o_rand o g) -> (0 < b_max c <= huge)%Z -> (0 < d < 2 ^ 63)%Z -> (1 <= r)%nat -> (Z.of_nat r <= 2 ^ 53)%Z ->
  let ideal := Rmin (IZR (b_max c)) (IZR d * B2R (b_factor c) ^ (r - 1)) in
  ideal * (9 / 10) * (1 - delta) * (1 - 3 * tiny) - 500003 <= IZR (backoff_delay o c g d r) <= ideal * (11 / 10) * (1 + delta) * (1 + 3 * tiny) + 500000.
Proof.
  intros Hdl Ff Hf Ha Hr Hm Hd Hr1 Hr2 ideal.
  assert (Hg : (0 <= grown o c d r <= huge)%Z).
  { destruct (exponent r (conj Hr1 Hr2)) as [En Hn]. destruct (grown_cases o c d r) as [[E Hw]|(Fp & E & Hy)]; auto.
    - apply factor_pos; [exact Ff|lra].
    - rewrite En. apply (accurate_sane delta); auto. lra.
    - rewrite E. lia.
    - rewrite E. split; [apply Zfloor_lub, Hy|]. apply le_IZR. eapply Rle_trans; [apply Zfloor_lb|]. eapply Rle_trans; [apply Hy|]. rewrite <- huge_exact. unfold huge in *. apply of_int_mono; lia. }
  pose proof (grown_value delta o c d r Hdl Ff Hf Ha Hm Hd (conj Hr1 Hr2)) as Hv. cbv zeta in Hv. fold ideal in Hv.
  unfold backoff_delay. rewrite (proj2 (Z.ltb_lt _ _)) by lia. destruct (fuzzed_bounds o g _ Hr Hg) as (_ & L & U).
  assert (0 < ideal) as Hi0.
  { assert (1 <= IZR (b_max c)) by (apply IZR_le; lia). assert (1 <= IZR d) by (apply (IZR_le 1); lia). pose proof (pow_R1_Rle (B2R (b_factor c)) (r - 1) Hf). unfold ideal. apply Rmin_glb_lt; nra. }
  set (G := IZR (grown o c d r)) in *. assert (0 <= ideal * (1 - delta)) by (apply Rmult_le_pos; lra). assert (0 <= ideal * (1 + delta)) by (apply Rmult_le_pos; lra). split.
  - eapply Rle_trans; [|exact L].
    replace (ideal * (9 / 10) * (1 - delta) * (1 - 3 * tiny)) with (ideal * (1 - delta) * (9 / 10 * (1 - 3 * tiny))) by ring.
    replace (G * (9 / 10) * (1 - tiny)) with (G * (9 / 10 * (1 - tiny))) by ring.
    assert ((ideal * (1 - delta) * (1 - tiny) - 1) * (9 / 10 * (1 - tiny)) <= G * (9 / 10 * (1 - tiny))) by (apply Rmult_le_compat_r; [unfold tiny; lra|apply Hv]).
    unfold tiny in *. nra.
  - eapply Rle_trans; [exact U|].
    replace (ideal * (11 / 10) * (1 + delta) * (1 + 3 * tiny)) with (ideal * (1 + delta) * (11 / 10 * (1 + 3 * tiny))) by ring.
    replace (G * (11 / 10) * (1 + tiny)) with (G * (11 / 10 * (1 + tiny))) by ring.
    assert (G * (11 / 10 * (1 + tiny)) <= ideal * (1 + delta) * (1 + tiny) * (11 / 10 * (1 + tiny))) by (apply Rmult_le_compat_r; [unfold tiny; lra|apply Hv]).
    unfold tiny in *. nra.
Qed.

(** C22: the delay grows with the number of errors (for the same random number). *)
Lemma grown_mono delta o c d r1 r2 : 0 <= delta < 1 -> is_finite (b_factor c) = true -> 1 + delta <= B2R (b_factor c) * (1 - delta) -> pow_accurate delta (o_pow o) (b_factor c) ->
  (0 < b_max c <= 2 ^ 53)%Z -> (0 < d < 2 ^ 63)%Z -> (1 <= r1 <= r2)%nat -> (Z.of_nat r2 <= 2 ^ 53)%Z -> (0 <= grown o c d r1 <= grown o c d r2)%Z /\ (grown o c d r2 <= b_max c)%Z.
Proof.
  intros Hdl Ff Hf Ha Hm Hd Hr Hr2. pose proof u_pos as Hu. assert (1 <= B2R (b_factor c)) as Hf1 by nra.
  assert (Hm' : (0 < b_max c <= huge)%Z) by (unfold huge; lia). pose proof (factor_pos (b_factor c) Ff ltac:(lra)) as Hfp.
  assert (count_ok r1) as C1 by (split; lia). assert (count_ok r2) as C2 by (split; lia).
  destruct (exponent r1 C1) as [E1 N1]. destruct (exponent r2 C2) as [E2 N2].
  pose proof (grown_cases o c d r1 Hfp Hm' Hd) as G1. pose proof (grown_cases o c d r2 Hfp Hm' Hd) as G2. cbv zeta in G1, G2. rewrite E1 in G1. rewrite E2 in G2.
  specialize (G1 ltac:(apply (accurate_sane delta); auto; lra)). specialize (G2 ltac:(apply (accurate_sane delta); auto; lra)).
  set (p1 := o_pow o (b_factor c) (of_int (Z.of_nat (r1 - 1)))) in *. set (p2 := o_pow o (b_factor c) (of_int (Z.of_nat (r2 - 1)))) in *.
  destruct (of_int_pos d Hd) as (_ & _ & Pd). pose proof (of_int_rel d ltac:(lia)) as [Ld _]. assert (1 <= IZR d) as Hd1 by (apply (IZR_le 1); lia).
  rewrite (of_int_exact (b_max c)) in G1, G2 by lia.
  assert (r1 = r2 \/ (r1 < r2)%nat) as [->|Hlt] by lia.
  { split; [split; [|lia]|].
    - destruct G2 as [[-> _]|(_ & -> & Hy)]; [lia|]. apply Zfloor_lub, Hy.
    - destruct G2 as [[-> _]|(_ & -> & Hy)]; [lia|]. apply le_IZR. eapply Rle_trans; [apply Zfloor_lb|apply Hy]. }
  assert (Hpow : B2R (b_factor c) ^ (r1 - 1) * B2R (b_factor c) <= B2R (b_factor c) ^ (r2 - 1)).
  { replace (B2R (b_factor c) ^ (r1 - 1) * B2R (b_factor c)) with (B2R (b_factor c) ^ (S (r1 - 1))) by (simpl; ring). apply Rle_pow; [lra|lia]. }
  pose proof (pow_R1_Rle _ (r1 - 1) Hf1) as P1.
  assert (Hbig2 : bpow radix2 1023 <= B2R p2 -> IZR (b_max c) < RN (B2R (of_int d) * B2R p2)).
  { intros HB. apply Rlt_le_trans with (RN (bpow radix2 1000)).
    - rewrite (round_generic radix2 _ ZnearestE (bpow radix2 1000)); [|apply generic_format_bpow; vm_compute; discriminate].
      apply Rle_lt_trans with (bpow radix2 53); [apply (IZR_le _ (2 ^ 53)); lia|]. apply bpow_lt. lia.
    - apply RN_mono. assert (/ 2 <= B2R (of_int d)) by nra. assert (bpow radix2 1000 <= / 2 * bpow radix2 1023). { change (/ 2) with (bpow radix2 (-1)). rewrite <- bpow_plus. apply bpow_le. lia. } pose proof (bpow_gt_0 radix2 1023). nra. }
  assert (Hcap : is_plus_inf p1 \/ IZR (b_max c) < RN (B2R (of_int d) * B2R p1) -> grown o c d r2 = b_max c).
  { intros Hw. destruct G2 as [[E _]|(F2 & _ & Hy)]; [exact E|exfalso].
    destruct (Ha (r2 - 1)%nat N2) as [[_ [L2 U2]]|[I _]]; fold p2 in L2, U2 || fold p2 in I.
    2: { unfold is_plus_inf in I. rewrite I in F2. discriminate. }
    destruct Hw as [Hw|Hw].
    - destruct (Ha (r1 - 1)%nat N1) as [[F1 _]|[_ HP]]. { fold p1 in F1. unfold is_plus_inf in Hw. rewrite Hw in F1. discriminate. }
      pose proof (bpow_gt_0 radix2 1023). specialize (Hbig2 ltac:(nra)). lra.
    - destruct (Ha (r1 - 1)%nat N1) as [[F1 [L1 U1]]|[I HP]]; fold p1 in F1, L1, U1 || fold p1 in I.
      + assert (B2R p1 <= B2R p2) by nra. assert (RN (B2R (of_int d) * B2R p1) <= RN (B2R (of_int d) * B2R p2)) by (apply RN_mono, Rmult_le_compat_l; lra). lra.
      + pose proof (bpow_gt_0 radix2 1023). specialize (Hbig2 ltac:(nra)). lra. }
  destruct G1 as [[E Hw]|(F1 & E & Hy)].
  - rewrite E, (Hcap Hw). lia.
  - rewrite E. split; [split|].
    + apply Zfloor_lub, Hy.
    + destruct G2 as [[-> _]|(F2 & -> & Hy2)].
      * apply le_IZR. eapply Rle_trans; [apply Zfloor_lb|apply Hy].
      * apply Zfloor_le, RN_mono, Rmult_le_compat_l; [lra|].
        destruct (Ha (r1 - 1)%nat N1) as [[_ [L1 U1]]|[I _]]; fold p1 in L1, U1 || fold p1 in I. 2: { unfold is_plus_inf in I. rewrite I in F1. discriminate. }
        destruct (Ha (r2 - 1)%nat N2) as [[_ [L2 U2]]|[I _]]; fold p2 in L2, U2 || fold p2 in I. 2: { unfold is_plus_inf in I. rewrite I in F2. discriminate. }
        nra.
    + destruct G2 as [[-> _]|(_ & -> & Hy2)]; [lia|]. apply le_IZR. eapply Rle_trans; [apply Zfloor_lb|apply Hy2].
Qed.
Lemma delay_mono delta o c g d r1 r2 : 0 <= delta < 1 -> is_finite (b_factor c) = true -> 1 + delta <= B2R (b_factor c) * (1 - delta) -> pow_accurate delta (o_pow o) (b_factor c) ->
  rand_ok (o_rand o g) -> (0 < b_max c <= 2 ^ 53)%Z -> (0 < d < 2 ^ 63)%Z -> (1 <= r1 <= r2)%nat -> (Z.of_nat r2 <= 2 ^ 53)%Z ->
  (backoff_delay o c g d r1 <= backoff_delay o c g d r2)%Z.
Proof.
  intros Hdl Ff Hf Ha Hr Hm Hd Hrr Hr2. destruct (grown_mono delta o c d r1 r2) as [H1 H2]; auto.
  unfold backoff_delay. rewrite (proj2 (Z.ltb_lt _ _)) by lia. apply fuzzed_mono; [exact Hr|exact H1|unfold huge; lia].
Qed.
(** C22: ... until it reaches MaxDelay. *)
Lemma delay_capped delta o c g d r : 0 <= delta < 1 -> is_finite (b_factor c) = true -> 1 <= B2R (b_factor c) -> pow_accurate delta (o_pow o) (b_factor c) ->
  rand_ok (o_rand o g) -> (0 < b_max c <= huge)%Z -> (0 < d < 2 ^ 63)%Z -> (1 <= r)%nat -> (Z.of_nat r <= 2 ^ 53)%Z ->
  IZR (b_max c) * (1 + tiny) <= IZR d * B2R (b_factor c) ^ (r - 1) * (1 - delta) ->
  IZR (b_max c) * (9 / 10) * (1 - tiny) - 500001 <= IZR (backoff_delay o c g d r) <= IZR (b_max c) * (11 / 10) * (1 + tiny) + 500000.
Proof.
  intros Hdl Ff Hf Ha Hr Hm Hd Hr1 Hr2 Hc. pose proof u_pos as Hu.
  assert (grown o c d r = b_max c) as E.
  { destruct (exponent r (conj Hr1 Hr2)) as [En Hn]. destruct (grown_cases o c d r) as [[E Hw]|(Fp & E & Hy)]; auto.
    - apply factor_pos; [exact Ff|lra].
    - rewrite En. apply (accurate_sane delta); auto. lra.
    - exfalso. rewrite En in Fp, Hy. unfold huge in Hm. pose proof (of_int_rel (b_max c) ltac:(lia)) as [_ Um]. pose proof (of_int_rel d ltac:(lia)) as [Ld _].
      assert (1 <= IZR (b_max c)) as Hm1 by (apply IZR_le; lia). assert (1 <= IZR d) as Hd1 by (apply (IZR_le 1); lia).
      destruct (Ha (r - 1)%nat Hn) as [[_ [L _]]|[I _]]. 2: { unfold is_plus_inf in I. rewrite I in Fp. discriminate. }
      set (p := B2R (o_pow o (b_factor c) (of_int (Z.of_nat (r - 1))))) in *. pose proof (pow_R1_Rle (B2R (b_factor c)) (r - 1) Hf) as Hp1. set (P := B2R (b_factor c) ^ (r - 1)) in *.
      assert ((1 - u) * IZR d * ((1 - delta) * P) <= B2R (of_int d) * p) as Hlow by (apply Rmult_le_compat; nra).
      assert (1 <= (1 + tiny) * IZR (b_max c)) by (unfold tiny; nra).
      assert ((1 - u) * (IZR (b_max c) * (1 + tiny)) <= B2R (of_int d) * p) as Hlow2.
      { eapply Rle_trans; [|exact Hlow]. replace ((1 - u) * IZR d * ((1 - delta) * P)) with ((1 - u) * (IZR d * P * (1 - delta))) by ring. apply Rmult_le_compat_l; lra. }
      destruct (RN_rel ((1 - u) * (IZR (b_max c) * (1 + tiny)))) as [Lr _]. { pose proof umin_small. nra. }
      pose proof (RN_mono _ _ Hlow2) as Hrn.
      assert (1 + u < (1 - u) * (1 - u) * (1 + tiny)) as Q by (unfold u, tiny; lra).
      assert ((1 + u) * IZR (b_max c) < (1 - u) * ((1 - u) * (IZR (b_max c) * (1 + tiny)))); [|lra].
      replace ((1 - u) * ((1 - u) * (IZR (b_max c) * (1 + tiny)))) with ((1 - u) * (1 - u) * (1 + tiny) * IZR (b_max c)) by ring. nra. }
  unfold backoff_delay. rewrite (proj2 (Z.ltb_lt _ _)) by lia. rewrite E. apply fuzzed_bounds; [exact Hr|lia].
Qed.
