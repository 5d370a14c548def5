(** The runner's goroutines are not lost track of (C88). *)
From stdpp Require Import gmap strings list.
From Coq Require Import ZArith Lia.
From RecordUpdate Require Import RecordSet.
From Verif Require Import Err Tomb Runner RunnerSpec RunnerInv RunnerLog RunnerGor RunnerHist RunnerThms RunnerCalls RunnerAnswers LeakSpec.
Import RecordSetNotations.

Definition balance (c : core) : Prop :=
  how_many r_launch (c_log c) = how_many r_finish (c_log c) + size (c_workers c) /\
  how_many r_known (c_log c) = how_many r_removed (c_log c) + size (c_workers c).

Lemma how_many_app {A} (k : A -> bool) l1 l2 : how_many k (l1 ++ l2) = how_many k l1 + how_many k l2.
Proof. induction l1 as [|x l1 IH]; cbn; [done|]. rewrite IH. lia. Qed.
Lemma how_many_none {A} (k : A -> bool) l : (forall x, x ∈ l -> k x = false) -> how_many k l = 0.
Proof. induction l as [|x l IH]; intros H; cbn; [done|]. rewrite (H x) by (by left). apply IH. intros y Hy. apply H. by right. Qed.
Definition plain (ev : event) : bool := negb (r_launch ev || r_finish ev || r_known ev || r_removed ev).
Lemma balance_plain c c' evs : balance c -> c_log c' = evs ++ c_log c -> forallb plain evs = true -> size (c_workers c') = size (c_workers c) -> balance c'.
Proof.
  intros [H1 H2] Hl Hp Hs. unfold balance. rewrite Hl, Hs, !how_many_app. rewrite forallb_forall in Hp.
  assert (forall x, x ∈ evs -> plain x = true) as Hx by (intros x Hx; apply Hp; by apply elem_of_list_In). clear Hp.
  rewrite !(how_many_none _ evs) by (intros x Hin; specialize (Hx x Hin); by destruct x). by split.
Qed.
Lemma size_upd (c : core) id i j : c_workers c !! id = Some i -> size (<[id := j]> (c_workers c)) = size (c_workers c).
Proof. intros H. apply map_size_insert_Some. by rewrite H. Qed.
Lemma kill_events_plain id i : forallb plain (kill_events id i) = true.
Proof. unfold kill_events. by destruct (i_worker i) as [[]|]. Qed.
Lemma kill_all_plain m l : forallb plain (kill_all_events m l) = true.
Proof. apply forallb_forall. intros x Hx. apply elem_of_list_In, kill_all_events_in in Hx as (? & ? & ? & ? & _ & _ & _ & ->). done. Qed.

Lemma balance_trans P c c' : cinv c -> balance c -> ctrans P c c' -> balance c'.
Proof.
  intros V B HT. pose proof B as [B1 B2]. destruct HT; try exact B; try (by apply (balance_plain c _ [_])).
  - (* killall *) eapply (balance_plain c); [done|done|apply kill_all_plain|]. cbn. by rewrite map_size_fmap.
  - (* new *) split; cbn; rewrite map_size_insert_None by done; lia.
  - eapply (balance_plain c); [done|done|apply kill_events_plain|]. cbn. by eapply size_upd.
  - eapply (balance_plain c _ [_]); [done|done|done|]. cbn. by eapply size_upd.
  - eapply (balance_plain c _ [_; _]); [done|done|done|]. cbn. by eapply size_upd.
  - (* remove *) assert (size (c_workers c) = S (size (delete id (c_workers c)))) as Hs.
    { rewrite <- (insert_delete (c_workers c) id i) at 1 by done. apply map_size_insert_None. apply lookup_delete. }
    split; cbn; lia.
  - (* fatal *) assert (size (c_workers c) = S (size (delete id (c_workers c)))) as Hs.
    { rewrite <- (insert_delete (c_workers c) id i) at 1 by done. apply map_size_insert_None. apply lookup_delete. }
    split; cbn; destruct (c_dying c); cbn; lia.
  - (* restart *) split; cbn; rewrite (size_upd c id i) by done; lia.
  - eapply (balance_plain c); [done|done|by destruct (t_dead t)|done].
Qed.
Lemma creach_balance P c : creach P c -> balance c.
Proof. intros H. apply (creach_ind P balance); [done| |done]. intros c1 c2 V B _ HT. by eapply balance_trans. Qed.

Lemma goroutines P s : reachable P s ->
  how_many r_finish (rlog s) <= how_many r_launch (rlog s) /\ how_many r_removed (rlog s) <= how_many r_known (rlog s) /\
  how_many r_launch (rlog s) - how_many r_finish (rlog s) = how_many r_known (rlog s) - how_many r_removed (rlog s).
Proof. intros Hr%reach_core. destruct (creach_balance P _ Hr) as [H1 H2]. unfold rlog. lia. Qed.
Lemma goroutines_dead P s : reachable P s -> EvDead ∈ rlog s ->
  how_many r_launch (rlog s) = how_many r_finish (rlog s) /\ how_many r_known (rlog s) = how_many r_removed (rlog s).
Proof.
  intros Hr Hd. destruct (dead_empty P s Hr Hd) as (_ & Hw & _). apply reach_core in Hr. destruct (creach_balance P _ Hr) as [H1 H2].
  rewrite Hw, map_size_empty in H1, H2. unfold rlog. lia.
Qed.
Lemma names_count P s pre ns post : reachable P s -> rlog s = pre ++ EvClient (CvNames ns) :: post ->
  how_many r_launch post = how_many r_finish post + size ns.
Proof.
  intros Hr Hl. destruct (client_read P s Hr _ _ _ Hl) as (s0 & Hr0 & Ha & (-> & _ & ->)). rewrite size_dom. apply reach_core in Hr0. by apply (creach_balance P).
Qed.
