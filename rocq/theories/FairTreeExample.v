(** A concrete infinite execution for C81: the tree of TreeExample.v is built, shut down from the top, and then nothing happens. *)
From stdpp Require Import gmap strings list relations.
From Verif Require Import Err Tomb Tree TreeSpec TreeProofs TreeExample FairSpec FairTreeSpec FairExample FairTree.
From Verif Require Runner RunnerSpec.

Notation ft_lab := (fun i : nat => tx_dead !! i).
Notation ft_tr := (follow fstep finit (fun i : nat => tx_dead !! i)).
Lemma ft_stop j : length tx_dead <= j -> ft_tr j = ft_tr (length tx_dead).
Proof. exact (follow_stop fstep finit tx_dead j). Qed.
(** The states of the execution are those at the times up to the end of the list. *)
Lemma ft_all (p : forest -> Prop) : (forall j, j <= length tx_dead -> p (ft_tr j)) -> forall j, p (ft_tr j).
Proof. intros H j. destruct (decide (j <= length tx_dead)) as [?|?]; [by apply H|]. rewrite (ft_stop j) by lia. by apply H. Qed.
Lemma ft_check (p : forest -> bool) : forallb (fun j => p (ft_tr j)) (seq 0 (S (length tx_dead))) = true -> forall j, p (ft_tr j) = true.
Proof. intros H. apply (ft_all (fun F => p F = true)). intros j Hj. rewrite forallb_forall in H. apply H, in_seq. lia. Qed.

Lemma ft_exec : execution fstep ft_tr ft_lab.
Proof. apply play_exec. vm_compute. reflexivity. Qed.
Lemma ft_fok j l : ft_lab j = Some l -> fok l.
Proof. intros H. apply elem_of_list_lookup_2 in H. pose proof tx_fok as Hf. rewrite Forall_forall in Hf. by apply Hf. Qed.
Definition ft_rank (n : nat) : nat := 5 - n.
Lemma ft_ranked j m k c : f_link (ft_tr j) !! (m, k) = Some c -> ft_rank c < ft_rank m.
Proof.
  assert (H : forallb (fun x => ft_rank x.2 <? ft_rank x.1.1) (map_to_list (f_link (ft_tr j))) = true).
  { apply (ft_check (fun F => forallb (fun x => ft_rank x.2 <? ft_rank x.1.1) (map_to_list (f_link F)))). vm_compute. reflexivity. }
  intros Hl. rewrite forallb_forall in H. apply Nat.ltb_lt. apply (H ((m, k), c)). apply elem_of_list_In. by apply elem_of_map_to_list.
Qed.
Lemma ft_fair m : not_starved fstep (bound_in m) ft_tr ft_lab.
Proof.
  apply (play_fair fstep (bound_in m) finit tx_dead). intros l (nd & x & cs & -> & Hn & Hb).
  assert (Hq : at_rest (ft_tr (length tx_dead)) m); [|exact (Hq m nd x cs (rtc_refl _ _) Hn Hb)]. apply tx_rest_ok; [|vm_compute; reflexivity].
  apply (exec_freach ft_tr ft_lab); [by exists []; split; [apply Forall_nil|]|apply ft_exec|apply ft_fok].
Qed.
Definition heeded (F : forest) : bool := forallb (fun x => match x.2 with NRunner _ s => existsb (fun ev => match ev with Runner.EvStopAll => true | _ => false end) (RunnerSpec.rlog s) | _ => true end) (map_to_list (f_nodes F)).
Lemma heeded_ok F m P s : heeded F = true -> f_nodes F !! m = Some (NRunner P s) -> RunnerSpec.stopping_all (RunnerSpec.rlog s).
Proof. intros H Hs. pose proof (all_in _ _ _ _ H Hs) as K. cbn in K. apply has_ev in K as (ev & Hin & Hev). by destruct ev. Qed.
Lemma ft_heeds m : heeds m ft_tr.
Proof.
  intros i P s Hn _. destruct (t_runner ft_tr ft_lab ft_rank ft_exec ft_ranked m i (i `max` length tx_dead) P s) as (s' & Hs & _); [lia|done|].
  exists (i `max` length tx_dead), s'. split; [lia|]. split; [done|]. rewrite ft_stop in Hs by lia.
  assert (H : heeded (ft_tr (length tx_dead)) = true) by (vm_compute; reflexivity). exact (heeded_ok _ m P s' H Hs).
Qed.
Lemma ft_sound j n : sound (ft_tr j) n.
Proof. apply tx_sound_ok. apply (ft_check (fun F => forallb (fun x => node_sound x.2) (map_to_list (f_nodes F)))). vm_compute. reflexivity. Qed.
Lemma ft_new_work j m l cs : length tx_kill <= j -> ft_lab j = Some (FStep m l cs) -> new_work l = false.
Proof.
  intros Hj Hl. assert (H : forallb (fun l => match l with FStep _ l _ => negb (new_work l) | _ => true end) (drop (length tx_kill) tx_dead) = true) by (vm_compute; reflexivity).
  rewrite forallb_forall in H. apply negb_true_iff. apply (H (FStep m l cs)). apply elem_of_list_In. apply (elem_of_list_lookup_2 _ (j - length tx_kill)).
  rewrite lookup_drop. by replace (length tx_kill + (j - length tx_kill)) with j by lia.
Qed.
