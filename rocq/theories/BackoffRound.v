(** time.Duration.Round, as called at engine.go:429. *)
From Coq Require Import ZArith Lia.
From Verif Require Import Backoff.
Open Scope Z_scope.
Lemma round_nearest m d : 0 < m -> min_int64 + m <= d <= max_int64 - m ->
  (m | round_to m d) /\ 2 * Z.abs (round_to m d - d) <= m /\ (2 * Z.abs (round_to m d - d) = m -> Z.abs d < Z.abs (round_to m d)).
Proof.
  intros Hm Hd. unfold round_to. cbv zeta. pose proof (Z.quot_rem' d m) as Hq. assert (Hw : forall z, min_int64 <= z <= max_int64 -> wrap64 z = z).
  { intros z Hz. unfold wrap64, min_int64, max_int64 in *. rewrite Z.mod_small; lia. }
  destruct (Z.ltb_spec d 0) as [Hn|Hn].
  - pose proof (Z.rem_bound_pos (- d) m) as Hb. rewrite Z.rem_opp_l in Hb by lia.
    assert (- m < Z.rem d m <= 0) as Hr by lia.
    destruct (Z.ltb_spec (- Z.rem d m + - Z.rem d m) m).
    + split; [exists (Z.quot d m); lia|]. lia.
    + rewrite Hw by lia. destruct (Z.ltb_spec (d - m + - Z.rem d m) d); [|lia]. split; [exists (Z.quot d m - 1); lia|]. lia.
  - pose proof (Z.rem_bound_pos d m).
    destruct (Z.ltb_spec (Z.rem d m + Z.rem d m) m).
    + split; [exists (Z.quot d m); lia|]. lia.
    + rewrite Hw by lia. rewrite Z.gtb_ltb. destruct (Z.ltb_spec d (d + m - Z.rem d m)); [|lia]. split; [exists (Z.quot d m + 1); lia|]. lia.
Qed.
