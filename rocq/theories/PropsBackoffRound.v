(** C22: rounding of the restart delay. Statements only. *)
From Coq Require Import ZArith Lia.
From Verif Require Import Backoff.
From Verif Require BackoffRound.
Open Scope Z_scope.

(** C22: the delay is rounded to a nearest multiple of [m] (time.Millisecond), a half away from zero, for negative values too, as long as
    this cannot overflow. *)
Theorem C22_round : forall m d, 0 < m -> min_int64 + m <= d <= max_int64 - m ->
  (m | round_to m d) /\ 2 * Z.abs (round_to m d - d) <= m /\ (2 * Z.abs (round_to m d - d) = m -> Z.abs d < Z.abs (round_to m d)).
Proof. exact BackoffRound.round_nearest. Qed.
Print Assumptions C22_round.

Example C22_example_round : (min_int64 + millisecond <= - 1500000 <= max_int64 - millisecond) /\ round_to millisecond (- 1500000) = - 2000000 /\
  round_to millisecond (- 1499999) = - 1000000 /\ round_to millisecond 1500000 = 2000000 /\ round_to millisecond 1499999 = 1000000.
Proof. split; [unfold min_int64, max_int64, millisecond; lia|]. repeat split; vm_compute; reflexivity. Qed.
