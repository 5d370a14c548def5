(** The goroutines of a catacomb are counted. *)
From stdpp Require Import gmap strings list.
From Coq Require Import Lia.
From RecordUpdate Require Import RecordSet.
From Verif Require Import Err Tomb Sum Catacomb CatacombSpec CatacombInv CatacombTr CatacombLog CatacombHist CatacombThms LeakSpec LeakCatacombSpec.
Import RecordSetNotations.

Definition ob (r : bind) : nat := match b_wait r, b_stop r with VGone, SGone => 0 | _, _ => 1 end.
Definition osum (m : gmap nat bind) : nat := msum (fun _ r => ob r) m.
Definition counted (s : state) : Prop := how_many c_bound (x_log s) = how_many c_gone (x_log s) + osum (x_binds s).

Lemma hm_app {A} (k : A -> bool) l l' : how_many k (l ++ l') = how_many k l + how_many k l'.
Proof. induction l as [|x l IH]; [done|]. cbn. rewrite IH. lia. Qed.
Lemma hm_wk k kk w : (forall src e, k (EvKill src e) = false) -> (forall k' w', k (EvWKill k' w') = false) -> how_many k (wk_evs kk w) = 0.
Proof. intros H1 H2. destruct w; cbn; by rewrite ?H1, ?H2. Qed.
Lemma osum_new m b w : m !! b = None -> osum (<[b := mkBind w VWait SSelect]> m) = S (osum m).
Proof. intros H. unfold osum. by rewrite msum_new. Qed.
Lemma osum_upd m b r r' : m !! b = Some r -> osum (<[b := r']> m) + ob r = osum m + ob r'.
Proof. intros H. unfold osum. by apply (msum_upd (fun _ r => ob r)). Qed.
Lemma fresh s : cinv s -> x_binds s !! x_next s = None.
Proof. intros V. destruct (x_binds s !! x_next s) as [r|] eqn:H; [|done]. pose proof (c_next s V _ (mk_is_Some _ _ H)). lia. Qed.
Lemma hm_kres me src e t t' p ev : kres me src e t t' p ev -> c_bound ev = false /\ c_gone ev = false.
Proof. by intros []. Qed.

Lemma counted_tr me s l s' : cinv s -> counted s -> tr me s l s' -> counted s'.
Proof.
  intros V H HT. pose proof (fresh s V) as Hf. unfold counted in *. destruct HT; cbn -[how_many wk_evs gone_evs app]; rewrite ?hm_app, ?(hm_wk c_bound), ?(hm_wk c_gone) by done;
    try (match goal with Hk : kres _ _ _ _ _ _ _ |- _ => destruct (hm_kres _ _ _ _ _ _ _ Hk) as [Hk1 Hk2] end; cbn; rewrite ?Hk1, ?Hk2);
    try (match goal with Hb : x_binds s !! ?b = Some _ |- context [<[?b := ?r']> _] => pose proof (osum_upd _ b _ r' Hb) as Hu; cbn in Hu end);
    rewrite ?osum_new by done; cbn in *; try lia.
  all: first [destruct p; cbn in *; lia|destruct v; cbn in *; lia].
Qed.
Lemma reach_counted me s : reachable me s -> cinv s /\ counted s.
Proof.
  intros Hr. split; [by eapply reach_cinv|]. revert Hr. apply (reach_tr me counted); [done|]. clear s. intros s l s' _ V _ H HT. by eapply counted_tr.
Qed.

Lemma open_bounds m : osum m <= bsum m <= 2 * osum m.
Proof.
  unfold osum, bsum. induction m as [|k r m Hk IH] using map_ind; [by rewrite !msum_empty; lia|]. rewrite !msum_new by done. assert (ob r <= bc r <= 2 * ob r) by (destruct r as [w v p]; destruct v, p; cbn; lia). lia.
Qed.
Lemma goroutines me s : reachable me s ->
  how_many c_gone (x_log s) <= how_many c_bound (x_log s) /\
  how_many c_bound (x_log s) - how_many c_gone (x_log s) <= x_wg s <= 2 * (how_many c_bound (x_log s) - how_many c_gone (x_log s)) + 1.
Proof.
  intros Hr. destruct (reach_counted me s Hr) as [V H]. unfold counted in H. pose proof (c_wg s V) as Hw. pose proof (open_bounds (x_binds s)) as Hb.
  assert (lc (x_lis s) <= 1) by (destruct (x_lis s); cbn; lia). lia.
Qed.
Lemma goroutines_dead me s : reachable me s -> EvDead ∈ x_log s -> how_many c_bound (x_log s) = how_many c_gone (x_log s) /\ x_wg s = 0.
Proof.
  intros Hr Hd. destruct (reach_counted me s Hr) as [V _]. apply (l_dead me s Hr) in Hd. pose proof (c_wait s V) as Hw. rewrite Hd in Hw.
  destruct (goroutines me s Hr). split; [|done]. lia.
Qed.
