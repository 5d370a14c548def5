(** Go's unspecified map iteration order.  An order is chosen by an arbitrary ranking of the keys: the
    keys are visited by increasing rank.  [iter_order_complete] shows that every order is covered. *)
From stdpp Require Import gmap list strings sorting.

Definition rank_le (rank : string -> nat) (a b : string) : Prop := rank a <= rank b.
Global Instance rank_le_dec rank a b : Decision (rank_le rank a b).
Proof. unfold rank_le. apply _. Defined.

Definition iter_order (rank : string -> nat) (l : list string) : list string :=
  merge_sort (rank_le rank) l.

Lemma iter_order_perm rank l : iter_order rank l ≡ₚ l.
Proof. apply merge_sort_Permutation. Qed.

Lemma elem_of_iter_order rank l x : x ∈ iter_order rank l <-> x ∈ l.
Proof. by rewrite iter_order_perm. Qed.

Lemma NoDup_iter_order rank l : NoDup l -> NoDup (iter_order rank l).
Proof. by rewrite iter_order_perm. Qed.

(** Position of a key in a list, as a rank. *)
Fixpoint index_of (l : list string) (x : string) : nat :=
  match l with
  | [] => 0
  | y :: l' => if bool_decide (x = y) then 0 else S (index_of l' x)
  end.

Lemma index_of_sorted l : NoDup l -> Sorted (rank_le (index_of l)) l.
Proof.
  intros Hn. apply StronglySorted_Sorted. induction Hn as [|x l Hx Hn IH]; [constructor|].
  constructor.
  - clear -Hx IH.
    assert (forall y, y ∈ l -> x <> y) as Hne by set_solver.
    assert (forall k, StronglySorted (rank_le (index_of l)) k -> (forall y, y ∈ k -> x <> y) ->
       StronglySorted (rank_le (index_of (x :: l))) k) as H.
    { intros k Hk. induction Hk as [|y k Hk IHk Hf]; intros Hyk; constructor.
      - apply IHk. set_solver.
      - rewrite Forall_forall in Hf |- *. intros z Hz. specialize (Hf z Hz).
        unfold rank_le in *. simpl. rewrite !bool_decide_eq_false_2; [lia| |].
        + intros ->. by apply (Hyk x); [constructor|].
        + intros ->. apply (Hyk x); [|done]. by constructor. }
    by apply H.
  - apply Forall_forall. intros y Hy. unfold rank_le. simpl.
    rewrite bool_decide_eq_true_2; [lia|done].
Qed.

Lemma StronglySorted_perm_index l : forall l1 l2 : list string,
  l1 ≡ₚ l2 -> (forall x y, x ∈ l1 -> y ∈ l1 -> index_of l x = index_of l y -> x = y) ->
  StronglySorted (rank_le (index_of l)) l1 -> StronglySorted (rank_le (index_of l)) l2 -> l1 = l2.
Proof.
  induction l1 as [|x l1 IH]; intros l2 Hp Hinj H1 H2.
  { by apply Permutation_nil in Hp. }
  destruct l2 as [|y l2].
  { symmetry in Hp. by apply Permutation_nil in Hp. }
  inversion H1 as [|? ? H1' F1]; subst. inversion H2 as [|? ? H2' F2]; subst.
  rewrite Forall_forall in F1, F2.
  assert (x = y) as ->.
  { apply Hinj; [constructor|rewrite Hp; constructor|].
    assert (Hxl : x ∈ y :: l2) by (rewrite <- Hp; constructor).
    assert (Hyl : y ∈ x :: l1) by (rewrite Hp; constructor).
    apply elem_of_cons in Hxl as [->|Hxl]; [done|].
    apply elem_of_cons in Hyl as [->|Hyl]; [done|].
    specialize (F1 _ Hyl). specialize (F2 _ Hxl). unfold rank_le in *. lia. }
  f_equal. apply IH; [by apply Permutation_cons_inv in Hp| |done|done].
  intros a b Ha Hb. apply Hinj; by constructor.
Qed.

Lemma index_of_inj l x y : x ∈ l -> y ∈ l -> index_of l x = index_of l y -> x = y.
Proof.
  induction l as [|z l IH]; [intros H; by apply elem_of_nil in H|]. simpl.
  intros Hx Hy. case_bool_decide as A; case_bool_decide as B; [congruence|done|done|].
  intros [= H]. apply IH; [set_solver|set_solver|done].
Qed.

(** Every permutation of the keys is some iteration order. *)
Lemma iter_order_complete l l' : NoDup l -> l' ≡ₚ l -> exists rank, iter_order rank l = l'.
Proof.
  intros Hn Hp. exists (index_of l').
  assert (NoDup l') as Hn' by by rewrite Hp.
  apply (StronglySorted_perm_index l').
  - rewrite iter_order_perm. by symmetry.
  - intros x y Hx Hy. apply index_of_inj.
    + rewrite Hp. by rewrite <- (iter_order_perm (index_of l') l).
    + rewrite Hp. by rewrite <- (iter_order_perm (index_of l') l).
  - apply Sorted_StronglySorted; [intros a b c; unfold rank_le; lia|].
    apply Sorted_merge_sort. intros a b. unfold rank_le. lia.
  - apply Sorted_StronglySorted; [intros a b c; unfold rank_le; lia|]. by apply index_of_sorted.
Qed.
