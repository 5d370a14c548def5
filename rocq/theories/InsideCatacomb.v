(** Proofs for C83, the catacomb. *)
From stdpp Require Import gmap strings list.
From Verif Require Import Err Tomb Catacomb CatacombSpec CatacombProgressSpec CatacombThms CatacombMore.

Lemma c_wait_ends me s e : reachable me s -> EvWait e ∈ x_log s ->
  work_returned (x_log s) /\ (forall b w, EvBind b w ∈ x_log s -> finished (x_log s) w) /\ (forall i w, EvAddRet i w None ∈ x_log s -> finished (x_log s) w).
Proof.
  intros Hr H. apply elem_of_list_split in H as (p & q & Hq). destruct (wait_result me s p e q Hr Hq) as [Hd _]. apply elem_of_list_split in Hd as (p2 & q2 & Hd).
  assert (Hl : x_log s = (p ++ EvWait e :: p2) ++ EvDead :: q2) by (rewrite Hq, Hd, <- app_assoc; done).
  assert (Hsub : forall ev, ev ∈ q2 -> ev ∈ x_log s) by (intros ev ?; rewrite Hl; apply elem_of_app; right; by right).
  assert (Hfin : forall w, finished q2 w -> finished (x_log s) w).
  { intros [n|]; cbn; [intros [x Hx]; exists x; by apply Hsub|apply Hsub]. }
  destruct (dead_finished me s _ q2 Hr Hl) as (H1 & H2 & H3 & _). split_and!.
  - destruct H1 as [r H1]. exists r. auto.
  - intros b w H. apply Hfin. by apply (H2 b).
  - intros i w H. apply Hfin. by apply (H3 i).
Qed.
