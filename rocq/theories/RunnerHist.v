(** The circumstances of every event, and the two ways to read a reachable log. *)
From stdpp Require Import gmap strings list.
From Coq Require Import ZArith Lia.
From RecordUpdate Require Import RecordSet.
From Verif Require Import Err Tomb Runner RunnerSpec RunnerInv RunnerLog RunnerGor.
Import RecordSetNotations.

Record allinv (P : rcfg) (c : core) : Prop := {
  a_inv : cinv c; a_workers : worker_log P c; a_stop : stop_log c; a_charge : charge_log c;
  a_final : final_log P c; a_tomb : tomb_log c; a_gor : gor_log c }.
Lemma creach_all P c : creach P c -> allinv P c.
Proof.
  intros H. split; [by eapply creach_inv|by apply creach_worker_log|by eapply creach_stop_log|by eapply creach_charge_log|
    by apply creach_final_log|by eapply creach_tomb_log|by eapply creach_gor_log].
Qed.

(** [ev] was pushed on the log of [c], together with [b] before it and [a] after it. *)
Definition emission (P : rcfg) (c : core) (a : list event) (ev : event) (b : list event) : Prop :=
  match ev with
  | EvAnswer i id f r => b = [] /\ c_loop c = LDo (AStart i id f) /\
      ((c_dying c = true /\ r = None /\ a = []) \/
       (c_dying c = false /\ (exists n, c_workers c !! id = Some n) /\ r = Some (ETyped TAlreadyExists (MsgText id)) /\ a = []) \/
       (c_dying c = false /\ c_workers c !! id = None /\ r = None /\ a = [EvSpawn (c_next c) id f 0 (c_now c); EvKnown id f (c_inst c)]))
  | EvKnown id f d => exists i, b = [EvAnswer i id f None] /\ a = [EvSpawn (c_next c) id f 0 (c_now c)] /\ d = c_inst c /\ c_workers c !! id = None /\ c_dying c = false
  | EvSpawn g id f d t => a = [] /\ g = c_next c /\ t = c_now c /\
      ((exists i, d = 0%Z /\ b = [EvKnown id f (c_inst c); EvAnswer i id f None] /\ c_workers c !! id = None /\ c_dying c = false) \/
       (exists g' e n f0 x, b = [EvDone g' id e t] /\ c_loop c = LDo (ADone g') /\ c_gors c !! g' = Some (mkWGor id f0 x (WTaken e)) /\
          c_workers c !! id = Some n /\ i_start n = Some f /\ d = i_delay n /\ removes P n e = false))
  | EvStartCall g id f t => a = [] /\ b = [] /\ t = c_now c /\ exists x,
      (exists d, c_gors c !! g = Some (mkWGor id f x (WBegin d)) /\ (d <= 0)%Z) \/ (exists d, c_gors c !! g = Some (mkWGor id f x (WTimer d)) /\ (d <= c_now c)%Z)
  | EvStartRet g id r => a = [] /\ b = [] /\ exists f x, c_gors c !! g = Some (mkWGor id f x WStart)
  | EvSet g id w => b = [] /\ c_loop c = LDo (ASet g w) /\ exists f x p i, c_gors c !! g = Some (mkWGor id f x p) /\ c_workers c !! id = Some i /\
      ((c_dying c = false /\ i_stopping i = false /\ a = []) \/ ((c_dying c = true \/ i_stopping i = true) /\ a = [EvKill g id w]))
  | EvKill g id w => exists i, c_workers c !! id = Some i /\
      ((i_worker i = Some (g, w) /\ (c_loop c = LDo (AKill id) \/ c_loop c = LDo AKillAll) /\ forall y, y ∈ b -> exists g' id' w', y = EvKill g' id' w') \/ 
       (b = [EvSet g id w] /\ a = [] /\ c_loop c = LDo (ASet g w) /\ (c_dying c = true \/ i_stopping i = true)))
  | EvEnd g id e => a = [] /\ b = [] /\ c_ended c !! g = None /\ exists f x p w, c_gors c !! g = Some (mkWGor id f x p) /\ (p = WSendStarted w \/ p = WWait w)
  | EvDone g id e t => b = [] /\ t = c_now c /\ c_loop c = LDo (ADone g) /\ exists f x n, c_gors c !! g = Some (mkWGor id f x (WTaken e)) /\ c_workers c !! id = Some n /\
      ((match e with Some y => r_isFatal P y = false | None => True end /\ removes P n e = true /\ a = [EvRemoved id (i_done n)]) \/
       (exists y, e = Some y /\ r_isFatal P y = true /\ a = (if c_dying c then [] else [EvStopAll]) ++ [EvRemoved id (i_done n)]) \/
       (exists f', removes P n e = false /\ i_start n = Some f' /\ a = [EvSpawn (c_next c) id f' (i_delay n) t]))
  | EvRemoved id d => exists g e n f x, b = [EvDone g id e (c_now c)] /\ c_gors c !! g = Some (mkWGor id f x (WTaken e)) /\ c_workers c !! id = Some n /\ d = i_done n /\ c_loop c = LDo (ADone g)
  | EvStopReq _ _ => a = [] /\ b = [] /\ c_loop c = LTop
  | EvCtx _ => a = [] /\ b = []
  | EvKilled => a = [] /\ b = [] /\ t_dying (c_tomb c) = false
  | EvStopAll => a = [] /\ ((b = [] /\ t_dying (c_tomb c) = true /\ c_loop c = LTop) \/
      (c_dying c = false /\ exists g id y d, b = [EvRemoved id d; EvDone g id (Some y) (c_now c)] /\ r_isFatal P y = true))
  | EvDead => a = [] /\ b = [] /\ c_loop c = LTop /\ finished c = true
  | EvClient _ => a = [] /\ b = []
  end.

Lemma no_evs (l a : list event) ev b : l = (a ++ ev :: b) ++ l -> False.
Proof. intros H. apply (f_equal length) in H. rewrite !app_length in H. cbn in H. lia. Qed.
Lemma one_ev (x : event) (l a : list event) ev b : x :: l = (a ++ ev :: b) ++ l -> a = [] /\ ev = x /\ b = [].
Proof. intros H. change (x :: l) with ([x] ++ l) in H. apply app_inv_tail in H. destruct a as [|? [|]]; naive_solver. Qed.
Lemma two_evs (x y : event) (l a : list event) ev b : x :: y :: l = (a ++ ev :: b) ++ l ->
  (a = [] /\ ev = x /\ b = [y]) \/ (a = [x] /\ ev = y /\ b = []).
Proof. intros H. change (x :: y :: l) with ([x; y] ++ l) in H. apply app_inv_tail in H. destruct a as [|? [|? [|]]]; naive_solver. Qed.
Lemma three_evs (x y z : event) (l a : list event) ev b : x :: y :: z :: l = (a ++ ev :: b) ++ l ->
  (a = [] /\ ev = x /\ b = [y; z]) \/ (a = [x] /\ ev = y /\ b = [z]) \/ (a = [x; y] /\ ev = z /\ b = []).
Proof. intros H. change (x :: y :: z :: l) with ([x; y; z] ++ l) in H. apply app_inv_tail in H. destruct a as [|? [|? [|? [|]]]]; naive_solver. Qed.

Lemma trans_emission P c c' a ev b : ctrans P c c' -> c_log c' = (a ++ ev :: b) ++ c_log c -> emission P c a ev b.
Proof.
  assert (forall l, c_log c = (a ++ ev :: b) ++ l -> l = c_log c -> False) as N0 by (intros l H1 ->; by apply no_evs in H1).
  intros HT HL. destruct HT; cbn -[app] in HL.
  - by destruct (N0 _ HL).
  - apply one_ev in HL as (-> & -> & ->). by cbn.
  - by destruct (N0 _ HL).
  - apply one_ev in HL as (-> & -> & ->). by cbn.
  - by destruct (N0 _ HL).
  - apply one_ev in HL as (-> & -> & ->). by cbn.
  - apply one_ev in HL as (-> & -> & ->). cbn. auto 15.
  - by destruct (N0 _ HL).
  - apply one_ev in HL as (-> & -> & ->). by cbn.
  - by destruct (N0 _ HL).
  - by destruct (N0 _ HL).
  - (* killall *) apply app_inv_tail in HL.
    assert (ev ∈ kill_all_events (c_workers c) (elements (dom (c_workers c)))) as He by (rewrite HL; set_solver).
    apply kill_all_events_in in He as (id & i & g & w & _ & Hi & Hw & ->). cbn. exists i. split; [done|]. left. split_and!; [done|auto|].
    intros y Hy. assert (y ∈ kill_all_events (c_workers c) (elements (dom (c_workers c)))) as He by (rewrite HL; set_solver).
    apply kill_all_events_in in He as (id' & i' & g' & w' & _ & _ & _ & ->). eauto.
  - apply one_ev in HL as (-> & -> & ->). cbn. auto 15.
  - apply one_ev in HL as (-> & -> & ->). cbn. split_and!; [done..|]. right. left. by eauto.
  - apply three_evs in HL as [(-> & -> & ->)|[(-> & -> & ->)|(-> & -> & ->)]]; cbn.
    + split_and!; [done..|]. left. by exists i.
    + by exists i.
    + auto 15.
  - by destruct (N0 _ HL).
  - by destruct (N0 _ HL).
  - (* stop *) apply app_inv_tail in HL. unfold kill_events in HL. destruct (i_worker i) as [[g w]|] eqn:Hw; [|by destruct a].
    destruct a as [|? [|]]; [|naive_solver..]. injection HL as <- <-. cbn. exists i. split; [done|]. left. split_and!; [done|auto|]. intros y Hy. by apply elem_of_nil in Hy.
  - apply one_ev in HL as (-> & -> & ->); cbn. split_and!; [done|done|]. exists f, x, p, i. auto 15.
  - apply two_evs in HL as [(-> & -> & ->)|(-> & -> & ->)]; cbn.
    + exists i. auto 15.
    + split_and!; [done|done|]. exists f, x, p, i. auto 15.
  - apply two_evs in HL as [(-> & -> & ->)|(-> & -> & ->)]; cbn.
    + by exists g, e, i, f, x.
    + split_and!; [done|done|done|]. exists f, x, i. auto 15.
  - destruct (c_dying c) eqn:Hd; cbn [app] in HL.
    + apply two_evs in HL as [(-> & -> & ->)|(-> & -> & ->)]; cbn.
      * by exists g, (Some y), i, f, x.
      * split_and!; [done|done|done|]. exists f, x, i. rewrite Hd. eauto 10.
    + apply three_evs in HL as [(-> & -> & ->)|[(-> & -> & ->)|(-> & -> & ->)]]; cbn.
      * split; [done|]. right. split; [done|]. by exists g, id, y, (i_done i).
      * by exists g, (Some y), i, f, x.
      * split_and!; [done|done|done|]. exists f, x, i. rewrite Hd. eauto 10.
  - apply two_evs in HL as [(-> & -> & ->)|(-> & -> & ->)]; cbn.
    + split_and!; [done..|]. right. by exists g, e, i, f, x.
    + split_and!; [done|done|done|]. exists f, x, i. eauto 10.
  - by destruct (N0 _ HL).
  - destruct (t_dead t); cbn [app] in HL; [|by destruct (N0 _ HL)]. apply one_ev in HL as (-> & -> & ->); by cbn.
  - by destruct (N0 _ HL).
  - apply one_ev in HL as (-> & -> & ->); cbn. split_and!; [done..|]. exists x. left. eauto.
  - apply one_ev in HL as (-> & -> & ->); cbn. split_and!; [done..|]. exists x. right. eauto.
  - by destruct (N0 _ HL).
  - apply one_ev in HL as (-> & -> & ->); cbn. eauto.
  - apply one_ev in HL as (-> & -> & ->); cbn. destruct H0 as [w Hw]. split_and!; [done..|]. by exists f, x, p, w.
  - by destruct (N0 _ HL).
  - by destruct (N0 _ HL).
Qed.
Lemma trans_log P c c' : ctrans P c c' -> exists evs, c_log c' = evs ++ c_log c.
Proof.
  intros HT. destruct HT; cbn; try (by exists []); try (by eexists [_]); try (by eexists [_; _]); try (by eexists [_; _; _]); try (by eexists).
  eexists (_ ++ [_; _]). rewrite <- app_assoc. reflexivity.
Qed.

(** Reading the log: whatever holds of every emission holds at every place of the log. *)
Lemma creach_read P (Q : list event -> event -> list event -> Prop) :
  (forall c a ev b, allinv P c -> creach P c -> emission P c a ev b -> Q a ev (b ++ c_log c)) ->
  forall c, creach P c -> forall pre ev post, c_log c = pre ++ ev :: post -> exists pre' a, pre = pre' ++ a /\ Q a ev post.
Proof.
  intros HQ c [ls Hls]. revert c Hls. induction ls as [|l ls IH] using rev_ind; intros c.
  - intros [= <-] pre ev post H. cbn in H. by destruct pre.
  - rewrite foldl_app. cbn. destruct (foldl _ _ ls) as [c1|] eqn:Hc1; [|done]. cbn. intros Hc.
    assert (creach P c1) as Hr by (by exists ls). pose proof (creach_all P c1 Hr) as HA.
    pose proof (cstep_trans P c1 l c (a_inv P c1 HA) Hc) as HT. destruct (trans_log P c1 c HT) as [evs Hevs].
    intros pre ev post Hp. rewrite Hevs in Hp.
    assert ((exists a b, evs = a ++ ev :: b /\ pre = a /\ post = b ++ c_log c1) \/ (exists pre1, pre = evs ++ pre1 /\ c_log c1 = pre1 ++ ev :: post)) as [(a & b & -> & -> & ->)|(pre1 & -> & Hp1)].
    { clear -Hp. revert pre Hp. induction evs as [|x evs IH]; intros pre Hp; cbn in Hp.
      - right. exists pre. done.
      - destruct pre as [|y pre]; cbn in Hp; injection Hp as -> Hp.
        + left. exists [], evs. done.
        + destruct (IH pre Hp) as [(a & b & -> & -> & ->)|(pre1 & -> & H)]; [left; by exists (y :: a), b|right; by exists pre1]. }
    + exists [], a. split; [done|]. apply HQ; [done|done|]. by eapply trans_emission.
    + destruct (IH c1 eq_refl pre1 ev post Hp1) as (pre' & a & -> & H). exists (evs ++ pre'), a. by rewrite <- app_assoc.
Qed.
(** The same without what came later. *)
Lemma creach_past P (Q : event -> list event -> Prop) :
  (forall c a ev b, allinv P c -> creach P c -> emission P c a ev b -> Q ev (b ++ c_log c)) ->
  forall c, creach P c -> forall pre ev post, c_log c = pre ++ ev :: post -> Q ev post.
Proof.
  intros HQ c Hr pre ev post Hp. by destruct (creach_read P (fun _ => Q) HQ c Hr pre ev post Hp) as (? & ? & _ & ?).
Qed.

(** ** Steps of the full system *)
Definition crun (P : rcfg) (c c' : core) : Prop := exists ls, foldl (fun o l => o ≫= fun c => cstep P c l) (Some c) ls = Some c'.
Lemma crun_refl P c : crun P c c. Proof. by exists []. Qed.
Lemma crun_one P c l c' : cstep P c l = Some c' -> crun P c c'. Proof. intros H. by exists [l]. Qed.
Lemma crun_trans P c c1 c2 : crun P c c1 -> crun P c1 c2 -> crun P c c2.
Proof. intros [l1 H1] [l2 H2]. exists (l1 ++ l2). by rewrite foldl_app, H1. Qed.
Lemma crun_emit P c ce : crun P c (emit (EvClient ce) c). Proof. by apply (crun_one P c (KEmit ce)). Qed.
Lemma creach_run P c c' : creach P c -> crun P c c' -> creach P c'.
Proof. intros [l1 H1] [l2 H2]. exists (l1 ++ l2). by rewrite foldl_app, H1. Qed.

Lemma step_crun P s l s' : step P s l = Some s' -> crun P (s_core s) (s_core s').
Proof.
  intros H. destruct l; cbn [step] in H.
  - destruct (negb (own l)); [done|]. destruct (cstep P (s_core s) l) as [c'|] eqn:Hc; [|done].
    assert (crun P (s_core s) c') as Hr by (by eapply crun_one).
    destruct l; try (injection H as <-; exact Hr). destruct (c_loop (s_core s)) as [|a| |]; try (injection H as <-; exact Hr).
    destruct (act_locks P (s_core s) a && _); [done|].
    destruct a; try (injection H as <-; exact Hr). destruct (s_calls s !! c) as [[]|]; try done. injection H as <-. eapply crun_trans; [exact Hr|apply crun_emit].
  - destruct (s_calls s !! c); [done|]. injection H as <-. apply crun_emit.
  - destruct (s_calls s !! c) as [[]|]; try done. destruct (cstep P _ _) eqn:Hc; [|done]. injection H as <-. by eapply crun_one.
  - destruct (s_calls s !! c) as [[]|]; try done. case_bool_decide; [|done]. injection H as <-. apply crun_emit.
  - destruct (t_dead _); [|done]. destruct (s_calls s !! c) as [[]|]; try done; injection H as <-; apply crun_emit.
  - destruct (s_calls s !! c) as [[]|]; try done. destruct (cstep P _ _) eqn:Hc; [|done]. injection H as <-. eapply crun_trans; [by eapply crun_one|apply crun_emit].
  - destruct (s_calls s !! c) as [[]|]; try done. destruct (s_mu s); [done|]. destruct (get_worker _ _); injection H as <-; [apply crun_emit|apply crun_refl].
  - destruct (s_calls s !! c) as [[]|]; try done. injection H as <-. destruct (t_dying _); [apply crun_emit|]. unfold deliver. destruct r, k; cbn; try apply crun_emit; apply crun_refl.
  - destruct (s_calls s !! c) as [[]|]; try done. destruct (s_waits s !! c) as [[? ? ? [r|]]|]; try done. injection H as <-.
    destruct r, k; cbn; try apply crun_emit; apply crun_refl.
  - destruct (s_calls s !! c) as [[]|]; try done. injection H as <-. destruct (t_dying _); apply crun_emit.
  - destruct (s_calls s !! c) as [[]|]; try done. destruct (t_dying _); [|done]. injection H as <-. apply crun_emit.
  - destruct (s_calls s !! c) as [[]|]; try done. case_bool_decide; [|done]. injection H as <-. apply crun_emit.
  - destruct (s_calls s !! c) as [[]|]; try done. injection H as <-. apply crun_emit.
  - destruct (s_calls s !! c) as [[]|]; try done. destruct (c_ended _ !! _); [|done]. injection H as <-. apply crun_refl.
  - destruct (s_calls s !! c) as [[]|]; try done. case_bool_decide; [|done]. injection H as <-. apply crun_emit.
  - destruct (s_calls s !! c) as [[]|]; try done. destruct (cstep P _ _) eqn:Hc; [|done]. injection H as <-. eapply crun_trans; [by eapply crun_one|apply crun_emit].
  - destruct (s_waits s !! c) as [[? [] [] ?]|]; try done; injection H as <-; apply crun_refl.
  - destruct (s_waits s !! c) as [[? [] ? ?]|]; try done; injection H as <-; apply crun_refl.
  - destruct (s_waits s !! c) as [[? [] ? ?]|]; try done. destruct (s_mu s); [done|]. destruct (get_worker _ _); injection H as <-; [apply crun_emit|apply crun_refl].
  - destruct (s_mu s); [done|]. injection H as <-; apply crun_emit.
  - destruct (s_mu s); [done|]. injection H as <-; apply crun_emit.
  - destruct (tomb_wait _); [|done]. injection H as <-; apply crun_emit.
Qed.
Lemma run_crun P ls : forall s s', run P s ls = Some s' -> crun P (s_core s) (s_core s').
Proof.
  induction ls as [|l ls IH]; intros s s'; cbn.
  - intros [= <-]. apply crun_refl.
  - destruct (step P s l) as [s1|] eqn:Hs; [|done]. intros H. eapply crun_trans; [by eapply step_crun|by apply IH].
Qed.
Lemma reach_core P s : reachable P s -> creach P (s_core s).
Proof. intros [ls H]. apply run_crun in H. destruct H as [l H]. by exists l. Qed.
