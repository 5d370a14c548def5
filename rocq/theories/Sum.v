(** Sums over finite maps, used by the termination measures. *)
From stdpp Require Import gmap list.

Section msum.
  Context {K : Type} `{Countable K} {A : Type}.
  Implicit Types (f : K -> A -> nat) (m : gmap K A).

  Definition msum f m : nat := map_fold (fun k x acc => f k x + acc) 0 m.

  Lemma msum_empty f : msum f ∅ = 0.
  Proof. unfold msum. by rewrite map_fold_empty. Qed.
  Lemma msum_new f m k x : m !! k = None -> msum f (<[k := x]> m) = f k x + msum f m.
  Proof. intros Hk. unfold msum. rewrite map_fold_insert_L; [done| |done]. intros. lia. Qed.
  Lemma msum_delete f m k x : m !! k = Some x -> msum f m = f k x + msum f (delete k m).
  Proof.
    intros Hk. rewrite <- msum_new by apply lookup_delete. by rewrite insert_delete.
  Qed.
  Lemma msum_upd f m k x y : m !! k = Some x -> msum f (<[k := y]> m) + f k x = msum f m + f k y.
  Proof.
    intros Hk. rewrite (msum_delete f m k x Hk). rewrite <- (insert_delete_insert m k y).
    rewrite msum_new by apply lookup_delete. lia.
  Qed.
  Lemma msum_mono f f' m : (forall k x, m !! k = Some x -> f k x <= f' k x) -> msum f m <= msum f' m.
  Proof.
    induction m as [|k x m Hk IH] using map_ind; intros Hf; [by rewrite !msum_empty|].
    rewrite !msum_new by done. assert (f k x <= f' k x) by (apply Hf; by rewrite lookup_insert).
    assert (msum f m <= msum f' m); [|lia]. apply IH. intros j y Hj. apply Hf. rewrite lookup_insert_ne; [done|]. congruence.
  Qed.
  Lemma msum_ext f f' m : (forall k x, m !! k = Some x -> f k x = f' k x) -> msum f m = msum f' m.
  Proof. intros Hf. apply Nat.le_antisymm; apply msum_mono; intros k x Hk; by rewrite (Hf k x Hk). Qed.
  Lemma msum_at f m k x : m !! k = Some x -> f k x <= msum f m.
  Proof. intros Hk. rewrite (msum_delete f m k x Hk). lia. Qed.
  (** two maps that agree on a weight everywhere but at [k] *)
  Lemma msum_two f f' m m' k x y : m !! k = Some x -> m' = <[k := y]> m ->
    (forall j z, j <> k -> m !! j = Some z -> f' j z = f j z) -> msum f' m' + f k x = msum f m + f' k y.
  Proof.
    intros Hk -> Hf. rewrite (msum_delete f m k x Hk), <- (insert_delete_insert m k y), msum_new by apply lookup_delete.
    rewrite (msum_ext f' f (delete k m)); [lia|]. intros j z [Hj Hz]%lookup_delete_Some. by apply Hf.
  Qed.
End msum.

Definition lsum {A} (f : A -> nat) (l : list A) : nat := fold_right (fun x acc => f x + acc) 0 l.
Lemma lsum_mono {A} (f f' : A -> nat) l : (forall x, x ∈ l -> f x <= f' x) -> lsum f l <= lsum f' l.
Proof.
  induction l as [|x l IH]; intros H; simpl; [done|]. assert (f x <= f' x) by (apply H; by left).
  assert (lsum f l <= lsum f' l); [|lia]. apply IH. intros y Hy. apply H. by right.
Qed.
Lemma lsum_ext {A} (f f' : A -> nat) l : (forall x, x ∈ l -> f x = f' x) -> lsum f l = lsum f' l.
Proof. intros H. apply Nat.le_antisymm; apply lsum_mono; intros x Hx; by rewrite (H x Hx). Qed.
Lemma lsum_submseteq {A} (f : A -> nat) l l' : l ⊆+ l' -> lsum f l <= lsum f l'.
Proof. induction 1; simpl; lia. Qed.
Lemma lsum_perm {A} (f : A -> nat) l l' : l ≡ₚ l' -> lsum f l = lsum f l'.
Proof. induction 1; simpl; lia. Qed.

(** In a finite acyclic graph there are weights that outweigh those of all successors. *)
Section weights.
  Context {K : Type} `{Countable K} (succ : K -> list K) (cost : nat -> nat).
  Fixpoint wfuel (n : nat) (x : K) : nat :=
    match n with 0 => 0 | S n => lsum (fun y => cost (wfuel n y)) (succ x) end.

  Lemma weights_exist (nodes : list K) :
    (forall x y, y ∈ succ x -> x ∈ nodes) ->
    (forall x, ~ tc (fun x y => y ∈ succ x) x x) ->
    exists W : K -> nat, forall x, lsum (fun y => cost (W y)) (succ x) <= W x.
  Proof.
    intros Hn Ha. set (R := fun x y => y ∈ succ x).
    assert (forall x, Acc (flip R) x) as Hwf.
    { intros x. apply tc_finite_sn; [intros y; apply Ha|].
      exists (mjoin (succ <$> nodes)). intros y Hy.
      assert (exists z, y ∈ succ z) as [z Hz] by (induction Hy; eauto).
      apply elem_of_list_join. exists (succ z). split; [done|]. apply elem_of_list_fmap. exists z. split; [done|]. by eapply Hn. }
    assert (forall x, exists k0, forall k, k0 <= k -> wfuel k x = wfuel k0 x) as Hst.
    { intros x. induction (Hwf x) as [x _ IH].
      assert (exists k0, forall y, y ∈ succ x -> forall k, k0 <= k -> wfuel k y = wfuel k0 y) as [k0 Hk0].
      { assert (forall y, y ∈ succ x -> exists k0, forall k, k0 <= k -> wfuel k y = wfuel k0 y) as Hl by (intros y Hy; by apply IH).
        clear IH. induction (succ x) as [|y l IHl]; [exists 0; by intros y ?%elem_of_nil|].
        destruct IHl as [k1 Hk1]; [intros z Hz; apply Hl; by right|].
        destruct (Hl y) as [k2 Hk2]; [by left|]. exists (k1 `max` k2). intros z [->|Hz]%elem_of_cons k Hk.
        - rewrite (Hk2 k), (Hk2 (k1 `max` k2)) by lia. done.
        - rewrite (Hk1 z Hz k), (Hk1 z Hz (k1 `max` k2)) by lia. done. }
      exists (S k0). intros k Hk. destruct k as [|k]; [lia|]. simpl. apply lsum_ext. intros y Hy. by rewrite Hk0 by (done || lia). }
    assert (exists k0, forall x, x ∈ nodes -> forall k, k0 <= k -> wfuel k x = wfuel k0 x) as [k0 Hk0].
    { clear Hn. induction nodes as [|y l [k1 Hk1]]; [exists 0; by intros y ?%elem_of_nil|].
      destruct (Hst y) as [k2 Hk2]. exists (k1 `max` k2). intros z [->|Hz]%elem_of_cons k Hk.
      - rewrite (Hk2 k), (Hk2 (k1 `max` k2)) by lia. done.
      - rewrite (Hk1 z Hz k), (Hk1 z Hz (k1 `max` k2)) by lia. done. }
    exists (wfuel k0). intros x. destruct (decide (x ∈ nodes)) as [Hx|Hx].
    - rewrite <- (Hk0 x Hx (S k0)) by lia. done.
    - destruct (succ x) as [|y l] eqn:Hs; [simpl; lia|]. destruct Hx. apply (Hn x y). rewrite Hs. by left.
  Qed.
End weights.
