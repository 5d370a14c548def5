(** The runner's table of workers: runner.go:63-64 [workers]. *)
From stdpp Require Import gmap strings list.
From Coq Require Import ZArith Lia.
From Verif Require Import Err Tomb Runner RunnerSpec RunnerInv RunnerLog RunnerGor RunnerHist RunnerThms.

Lemma tables_known P s id : reachable P s -> is_Some (c_workers (s_core s) !! id) <-> is_Some (known (rlog s) id).
Proof.
  intros Hr. pose proof (a_workers P _ (reach_all P s Hr) id) as W. change (c_log (s_core s)) with (rlog s) in W. destruct (c_workers (s_core s) !! id) as [i|].
  - destruct W as ((f & -> & _) & _). split; eauto.
  - destruct W as (-> & _). split; by intros [? ?].
Qed.
Lemma tables_info P s id i : reachable P s -> c_workers (s_core s) !! id = Some i -> exists f,
  known (rlog s) id = Some (f, i_done i) /\ i_start i = (if i_stopping i then None else Some f) /\
  i_worker i = registered (rlog s) id /\ first_spawn (rlog s) id = Some (i_started i) /\ i_delay i = r_delay P.
Proof.
  intros Hr Hi. pose proof (reach_all P s Hr) as A. pose proof (a_workers P _ A id) as W. change (c_log (s_core s)) with (rlog s) in W. rewrite Hi in W.
  destruct W as ((f & Hk & Hs) & Hg & Ht & Hd). destruct (ci_stop _ (a_inv P _ A) id i Hi) as [[H1 H2] _]. exists f. split; [done|]. split; [|done].
  destruct (i_stopping i); [by apply H1|]. destruct Hs as [?|?]; [done|]. by specialize (H2 ltac:(done)).
Qed.
Lemma tables_stopping P s id i : reachable P s -> c_workers (s_core s) !! id = Some i ->
  (i_stopping i = true -> stop_asked (rlog s) id = true /\ registered (rlog s) id = None) /\
  (c_loop (s_core s) = LTop -> stop_asked (rlog s) id = i_stopping i).
Proof.
  intros Hr Hi. pose proof (reach_all P s Hr) as A. destruct (a_stop P _ A) as (_ & _ & _ & H). destruct (H id i Hi) as [H1 H2]. change (c_log (s_core s)) with (rlog s) in *.
  destruct (ci_stop _ (a_inv P _ A) id i Hi) as [_ H3]. destruct (tables_info P s id i Hr Hi) as (f & _ & _ & Hw & _). split.
  - intros Hs. split; [by apply H1|]. rewrite <- Hw. by apply H3.
  - intros Hl. destruct (i_stopping i); [by apply H1|]. destruct (stop_asked (rlog s) id); [|done]. destruct H2 as [?|[?|?]]; congruence.
Qed.
Lemma tables_done P s id id' f f' d : reachable P s -> known (rlog s) id = Some (f, d) -> known (rlog s) id' = Some (f', d) -> id = id'.
Proof.
  intros Hr H H'. destruct (proj2 (tables_known P s id Hr)) as [i Hi]; [by rewrite H|]. destruct (proj2 (tables_known P s id' Hr)) as [i' Hi']; [by rewrite H'|].
  destruct (tables_info P s id i Hr Hi) as (f0 & Hk & _). destruct (tables_info P s id' i' Hr Hi') as (f1 & Hk' & _). rewrite H in Hk. rewrite H' in Hk'.
  injection Hk as _ ->. injection Hk' as _ Hd. by apply (ci_doneu _ (a_inv P _ (reach_all P s Hr)) id id' i i').
Qed.
