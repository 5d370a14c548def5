(** The theorems about the runner's own work: starts, restarts, stops, the final error, shutdown. *)
From stdpp Require Import gmap strings list.
From Coq Require Import ZArith Lia.
From RecordUpdate Require Import RecordSet.
From Verif Require Import Err Tomb Runner RunnerSpec RunnerInv RunnerLog RunnerGor RunnerHist.
Import RecordSetNotations.

Lemma past P (Q : event -> list event -> Prop) s : reachable P s ->
  (forall c a ev b, allinv P c -> emission P c a ev b -> Q ev (b ++ c_log c)) ->
  forall pre ev post, rlog s = pre ++ ev :: post -> Q ev post.
Proof. intros Hr HQ pre ev post. eapply creach_past; [|by apply reach_core]. eauto. Qed.
Lemma future P (Q : list event -> event -> list event -> Prop) s : reachable P s ->
  (forall c a ev b, allinv P c -> emission P c a ev b -> Q a ev (b ++ c_log c)) ->
  forall pre ev post, rlog s = pre ++ ev :: post -> exists pre' a, pre = pre' ++ a /\ Q a ev post.
Proof. intros Hr HQ pre ev post. eapply creach_read; [|by apply reach_core]. eauto. Qed.
Lemma reach_all P s : reachable P s -> allinv P (s_core s).
Proof. intros H. by apply creach_all, reach_core. Qed.

(** ** C26 *)
(** A goroutine that is gone has called its start func and that is over, or never called it. *)
Lemma gone_over P c g id f x : allinv P c -> c_gors c !! g = Some (mkWGor id f x WGone) -> start_called (c_log c) g -> over (c_log c) g.
Proof.
  intros A Hg Hs. destruct (gl_ok c (a_gor P c A) _ _ _ _ _ Hg) as (e & t & _ & [(H & _)|[(y & -> & H)|H]]).
  - done.
  - left. by exists id, y.
  - right. by exists id, e.
Qed.
Lemma one_worker_per_id P s pre g id f t post g' f' t' : reachable P s ->
  rlog s = pre ++ EvStartCall g id f t :: post -> EvStartCall g' id f' t' ∈ post -> over post g'.
Proof.
  intros Hr Hl. revert g' f' t'. revert pre g id f t post Hl.
  assert (forall pre ev post, rlog s = pre ++ ev :: post -> match ev with EvStartCall g id f t => forall g' f' t', EvStartCall g' id f' t' ∈ post -> over post g' | _ => True end) as H; [|intros pre g id f t post Hl; exact (H _ _ _ Hl)].
  apply (past P _ s Hr). intros c a ev b A E. destruct ev; try done. destruct E as (-> & -> & -> & x & E). cbn [app]. intros g' f' t' Hin.
  pose proof (a_gor P c A) as G. destruct (gl_about c G _ g' id Hin eq_refl) as ([id' f0 x0 p0] & Hg' & Hid). cbn in Hid. subst id'.
  assert (exists p, c_gors c !! g = Some (mkWGor id f x p) /\ p <> WGone /\ ~ start_called (c_log c) g) as (p & Hg & Hp & Hn).
  { destruct E as [(d & Hg & _)|(d & Hg & _)]; eexists; (split; [exact Hg|]); split; try done; by destruct (gl_ok c G _ _ _ _ _ Hg) as (_ & ? & _). }
  assert (p0 = WGone \/ p0 <> WGone) as [->|Hp0] by (destruct p0; auto).
  - eapply gone_over; [done|done|]. by exists id, f', t'.
  - assert (g' = g) as -> by (by eapply (ci_uniq c (a_inv P c A) g' g _ _ Hg' Hg)). destruct Hn. by exists id, f', t'.
Qed.
Lemma start_once P s pre g id f t post : reachable P s -> rlog s = pre ++ EvStartCall g id f t :: post -> ~ start_called post g.
Proof.
  intros Hr Hl. refine (past P (fun ev post => match ev with EvStartCall g id f t => ~ start_called post g | _ => True end) s Hr _ pre (EvStartCall g id f t) post Hl). clear Hl.
  intros c a ev b A E. destruct ev; try done. destruct E as (-> & -> & -> & x & E). cbn [app].
  destruct E as [(d & Hg & _)|(d & Hg & _)]; by destruct (gl_ok c (a_gor P c A) _ _ _ _ _ Hg) as (_ & ? & _).
Qed.
Lemma return_once P s pre g id r post : reachable P s -> rlog s = pre ++ EvStartRet g id r :: post ->
  (exists f t, EvStartCall g id f t ∈ post) /\ forall id' r', EvStartRet g id' r' ∉ post.
Proof.
  intros Hr Hl. refine (past P (fun ev post => match ev with EvStartRet g id r => (exists f t, EvStartCall g id f t ∈ post) /\ forall id' r', EvStartRet g id' r' ∉ post | _ => True end) s Hr _ pre (EvStartRet g id r) post Hl). clear Hl.
  intros c a ev b A E. destruct ev; try done. destruct E as (-> & -> & f & x & Hg). cbn [app].
  destruct (gl_ok c (a_gor P c A) _ _ _ _ _ Hg) as ((t & Ht) & Hn & _). split; [by exists f, t|]. intros id' r' H. apply Hn. by exists id', r'.
Qed.
Lemma end_once P s pre g id e post : reachable P s -> rlog s = pre ++ EvEnd g id e :: post ->
  (exists w, EvStartRet g id (inl w) ∈ post) /\ ~ worker_ended post g.
Proof.
  intros Hr Hl. refine (past P (fun ev post => match ev with EvEnd g id e => (exists w, EvStartRet g id (inl w) ∈ post) /\ ~ worker_ended post g | _ => True end) s Hr _ pre (EvEnd g id e) post Hl). clear Hl.
  intros c a ev b A E. destruct ev; try done. destruct E as (-> & -> & He & f & x & p & w & Hg & Hp). cbn [app].
  pose proof (gl_ok c (a_gor P c A) _ _ _ _ _ Hg) as Hok. split.
  - exists w. destruct Hp as [-> | ->]; [by destruct Hok|done].
  - intros (id' & e' & Hin). apply (gl_ended' c (a_gor P c A)) in Hin. congruence.
Qed.

(** ** C27 *)
Lemma never_stuck P s : reachable P s -> c_crash (s_core s) = false /\ c_loop (s_core s) <> LBlocked /\
  forall g id f x p, c_gors (s_core s) !! g = Some (mkWGor id f x p) -> (exists w, p = WSendStarted w) \/ (exists e, p = WSendDone e) -> known (rlog s) id <> None.
Proof.
  intros Hr. pose proof (reach_all P s Hr) as A. pose proof (a_inv P _ A) as V. split_and!.
  - apply (ci_crash _ V).
  - intros H. pose proof (ci_loop _ V) as Hl. by rewrite H in Hl.
  - intros g id f x p Hg Hp. destruct (proj2 (ci_act _ V id)) as [i Hi].
    { exists g, (mkWGor id f x p). split_and!; [done|done|]. cbn. naive_solver. }
    pose proof (a_workers P _ A id) as W. rewrite Hi in W. destruct W as ((f0 & Hk & _) & _). unfold rlog. by rewrite Hk.
Qed.

(** ** C28 *)
Lemma known_some P c id : allinv P c -> known (c_log c) id <> None <-> exists n, c_workers c !! id = Some n.
Proof.
  intros A. pose proof (a_workers P c A id) as W. destruct (c_workers c !! id) as [n|].
  - destruct W as ((f & -> & _) & _). split; [eauto|done].
  - destruct W as (-> & _). split; [done|]. by intros [? ?].
Qed.
Lemma dying_all P c : allinv P c -> c_dying c = true <-> stopping_all (c_log c).
Proof. intros A. apply (a_stop P c A). Qed.
Lemma start_answer P s pre i id f r post : reachable P s -> rlog s = pre ++ EvAnswer i id f r :: post ->
  (stopping_all post -> r = None /\ forall id' f' d, last pre <> Some (EvKnown id' f' d)) /\
  (~ stopping_all post -> known post id <> None -> r = Some (ETyped TAlreadyExists (MsgText id)) /\ forall id' f' d, last pre <> Some (EvKnown id' f' d)) /\
  (~ stopping_all post -> known post id = None -> r = None /\
     exists pre' g d t, pre = pre' ++ [EvSpawn g id f 0 t; EvKnown id f d]).
Proof.
  intros Hr Hl.
  (* an EvKnown comes right after the answer it belongs to *)
  assert (forall id' f' d, last pre = Some (EvKnown id' f' d) -> id' = id /\ f' = f /\ r = None /\ ~ stopping_all post /\ known post id = None) as Hk.
  { intros id' f' d Hla. destruct pre as [|x pre] using rev_ind; [done|]. rewrite last_snoc in Hla. injection Hla as ->. clear IHpre.
    rewrite <- app_assoc in Hl. cbn in Hl.
    pose proof (past P (fun ev post => match ev with EvKnown id f d => exists i post', post = EvAnswer i id f None :: post' /\ ~ stopping_all post' /\ known post' id = None | _ => True end) s Hr) as HP.
    assert (exists i0 post', EvAnswer i id f r :: post = EvAnswer i0 id' f' None :: post' /\ ~ stopping_all post' /\ known post' id' = None) as (i0 & post' & [= -> -> -> -> ->] & ? & ?); [|done].
    apply (HP) in Hl; [exact Hl|]. intros c a ev b A E. destruct ev; try done. destruct E as (j & -> & _ & _ & Hn & Hd). exists j, (c_log c). cbn.
    split_and!; [done| |].
    - rewrite <- (dying_all P c A). congruence.
    - pose proof (a_workers P c A id0) as W. rewrite Hn in W. apply W. }
  pose proof (future P (fun a ev post => match ev with EvAnswer i id f r =>
      (stopping_all post -> r = None) /\ (~ stopping_all post -> known post id <> None -> r = Some (ETyped TAlreadyExists (MsgText id))) /\
      (~ stopping_all post -> known post id = None -> r = None /\ exists g d t, a = [EvSpawn g id f 0 t; EvKnown id f d]) | _ => True end) s Hr) as HF.
  assert (exists pre' a, pre = pre' ++ a /\ (stopping_all post -> r = None) /\ (~ stopping_all post -> known post id <> None -> r = Some (ETyped TAlreadyExists (MsgText id))) /\
      (~ stopping_all post -> known post id = None -> r = None /\ exists g d t, a = [EvSpawn g id f 0 t; EvKnown id f d])) as (pre' & a & -> & H1 & H2 & H3).
  { apply HF in Hl; [exact Hl|]. clear. intros c a ev b A E. destruct ev; try done. destruct E as (-> & Hlo & E). cbn [app].
    rewrite <- (dying_all P c A). rewrite (known_some P c id A).
    destruct E as [(Hd & -> & _)|[(Hd & Hn & -> & _)|(Hd & Hn & -> & ->)]].
    - split_and!; [done|congruence|congruence].
    - split_and!; [congruence|done|]. intros _ Hk. exfalso. apply (known_some P c id A) in Hn. done.
    - split_and!; [congruence| |]. { intros _ [n Hx]. congruence. } intros _ _. split; [done|]. eauto. }
  split_and!.
  - intros Hs. split; [auto|]. intros id' f' d Hx. apply Hk in Hx as (_ & _ & _ & Hx & _). done.
  - intros Hs Hkn. split; [auto|]. intros id' f' d Hx. apply Hk in Hx as (_ & _ & _ & _ & Hx). done.
  - intros Hs Hkn. destruct (H3 Hs Hkn) as (-> & g & d & t & ->). split; [done|]. eauto 10.
Qed.
(** The start func of a first start is called: nothing can stop the goroutine before it. *)
Lemma spawn_once P s pre g id f d t post : reachable P s -> rlog s = pre ++ EvSpawn g id f d t :: post ->
  forall id' f' d' t', EvSpawn g id' f' d' t' ∉ post.
Proof.
  intros Hr Hl. refine (past P (fun ev post => match ev with EvSpawn g id f d t => forall id' f' d' t', EvSpawn g id' f' d' t' ∉ post | _ => True end) s Hr _ pre (EvSpawn g id f d t) post Hl). clear Hl.
  intros c a ev b A E. destruct ev; try done. destruct E as (-> & -> & -> & E). intros id' f' d' t' Hin.
  assert (EvSpawn (c_next c) id' f' d' t' ∈ c_log c) as Hin'.
  { apply elem_of_app in Hin as [Hin|Hin]; [|done]. exfalso. destruct E as [(j & _ & -> & _)|(g' & e & n & f1 & x & -> & _)]; rewrite ?elem_of_cons, elem_of_nil in Hin; naive_solver. }
  destruct (gl_fn c (a_gor P c A) _ _ _ _ _ Hin') as (x & p & Hg). apply (ci_fresh c (a_inv P c A)) in Hg. lia.
Qed.
Lemma elem_split {A} (x : A) l : x ∈ l -> exists pre post, l = pre ++ x :: post.
Proof. apply elem_of_list_split. Qed.
Lemma spawn_unique P s g id f d t id' f' d' t' : reachable P s -> EvSpawn g id f d t ∈ rlog s -> EvSpawn g id' f' d' t' ∈ rlog s ->
  EvSpawn g id f d t = EvSpawn g id' f' d' t'.
Proof.
  intros Hr H1 H2. destruct (elem_split _ _ H1) as (p1 & q1 & E1). rewrite E1 in H2. apply elem_of_app in H2 as [H2|[H2|H2]%elem_of_cons]; [|done|].
  - destruct (elem_split _ _ H2) as (p2 & q2 & ->). rewrite <- app_assoc in E1. cbn in E1. destruct (spawn_once P s _ _ _ _ _ _ _ Hr E1 id f d t).
    apply elem_of_app. right. by left.
  - by destruct (spawn_once P s _ _ _ _ _ _ _ Hr E1 id' f' d' t').
Qed.
Lemma first_start_called P s g id f t : reachable P s -> EvSpawn g id f 0 t ∈ rlog s ->
  start_called (rlog s) g \/ exists s', step P s (LCore (KBegin g)) = Some s' /\ EvStartCall g id f (c_now (s_core s)) ∈ rlog s'.
Proof.
  intros Hr Hs. pose proof (reach_all P s Hr) as A. pose proof (a_gor P _ A) as G. destruct (gl_fn _ G _ _ _ _ _ Hs) as (x & p & Hg).
  pose proof (gl_ok _ G _ _ _ _ _ Hg) as Hok.
  assert (forall f' d' t', EvSpawn g id f' d' t' ∈ rlog s -> d' = 0%Z) as Hu.
  { intros f' d' t' H. by pose proof (spawn_unique P s _ _ _ _ _ _ _ _ _ Hr Hs H) as [= -> -> ->]. }
  assert (forall w, EvStartRet g id w ∈ rlog s -> start_called (rlog s) g) as Hret.
  { intros w H. destruct (elem_split _ _ H) as (p1 & q1 & E1). destruct (return_once P s _ _ _ _ _ Hr E1) as [(f1 & t1 & Hx) _].
    exists id, f1, t1. rewrite E1. apply elem_of_app. right. by right. }
  assert (forall e, finish (rlog s) g id e -> start_called (rlog s) g) as Hfin.
  { intros e [(_ & _ & _ & f' & d' & t' & H1 & H2)|[(y & _ & H)|H]].
    - apply Hu in H1. lia.
    - by eapply Hret.
    - destruct (elem_split _ _ H) as (p1 & q1 & E1). destruct (end_once P s _ _ _ _ _ Hr E1) as [(w & Hx) _].
      apply (Hret (inl w)). rewrite E1. apply elem_of_app. right. by right. }
  destruct p; cbn in Hok.
  - right. destruct Hok as ((t' & H1 & _) & _). apply Hu in H1 as ->. eexists. split; [cbn; rewrite Hg; cbn; reflexivity|]. by left.
  - destruct Hok as ((d' & t' & H1 & _ & H2) & _). apply Hu in H1. lia.
  - left. destruct Hok as ((t' & H1) & _). by exists id, f, t'.
  - left. by eapply Hret, Hok.
  - left. by eapply Hret.
  - left. by eapply Hfin.
  - left. by eapply Hfin.
  - left. destruct Hok as [w H]. by eapply Hret.
  - left. destruct Hok as (e & t' & _ & H). by eapply Hfin.
Qed.

(** ** C29, C30, C40 *)
Lemma stop_exact P c g id n : allinv P c -> c_loop c = LDo (ADone g) -> c_workers c !! id = Some n -> stop_asked (c_log c) id = i_stopping n.
Proof.
  intros A Hl Hn. destruct (a_stop P c A) as (_ & _ & _ & H). destruct (H id n Hn) as [H1 H2].
  destruct (i_stopping n); [by apply H1|]. destruct (stop_asked (c_log c) id); [|done]. destruct H2 as [?|[?|?]]; congruence.
Qed.
Lemma restart_policy P s pre g id e t post : reachable P s -> rlog s = pre ++ EvDone g id e t :: post ->
  in_charge post id = Some g /\ exists f d, known post id = Some (f, d) /\
  match verdict_of P (stop_asked post id) e with
  | VRemove => last pre = Some (EvRemoved id d)
  | VFatal => last pre = Some (EvRemoved id d) /\ (~ stopping_all post -> exists pre', pre = pre' ++ [EvStopAll; EvRemoved id d])
  | VRestart => exists g', last pre = Some (EvSpawn g' id f (r_delay P) t)
  end.
Proof.
  intros Hr Hl. apply (future P (fun a ev post => match ev with EvDone g id e t => in_charge post id = Some g /\ exists f d, known post id = Some (f, d) /\
    match verdict_of P (stop_asked post id) e with
    | VRemove => a = [EvRemoved id d]
    | VFatal => exists a', a = a' ++ [EvRemoved id d] /\ (~ stopping_all post -> a' = [EvStopAll])
    | VRestart => exists g', a = [EvSpawn g' id f (r_delay P) t]
    end | _ => True end) s Hr) in Hl.
  - destruct Hl as (pre' & a & -> & Hc & f & d & Hk & H). split; [done|]. exists f, d. split; [done|].
    destruct (verdict_of P _ e).
    + subst a. by rewrite last_snoc.
    + destruct H as (a' & -> & H). rewrite app_assoc, last_snoc. split; [done|]. intros Hs. rewrite (H Hs). exists pre'. by rewrite <- app_assoc.
    + destruct H as (g' & ->). exists g'. by rewrite last_snoc.
  - clear. intros c a ev b A E. destruct ev; try done. destruct E as (-> & -> & Hlo & f & x & n & Hg & Hn & E). cbn [app].
    split; [apply (a_charge P c A); by exists (mkWGor id f x (WTaken e))|].
    rewrite (stop_exact P c g id n A Hlo Hn). pose proof (a_workers P c A id) as W. rewrite Hn in W. destruct W as ((f0 & Hk & Hst) & _ & _ & Hdel).
    exists f0, (i_done n). split; [done|]. destruct (ci_stop c (a_inv P c A) id n Hn) as [Hss _].
    destruct E as [(Hf & Hrm & ->)|[(y & -> & Hf & ->)|(f' & Hrm & Hs & ->)]].
    + assert (verdict_of P (i_stopping n) e = VRemove) as ->; [|done]. destruct e as [y|]; [|done]. cbn in *. rewrite Hf in *. cbn in Hrm.
      destruct (r_shouldRestart P y); [|done]. cbn in *. apply bool_decide_eq_true in Hrm. by rewrite (proj2 Hss Hrm).
    + cbn. rewrite Hf. exists (if c_dying c then [] else [EvStopAll]). split; [done|]. rewrite <- (dying_all P c A). by destruct (c_dying c).
    + assert (i_stopping n = false) as Hns. { destruct (i_stopping n); [|done]. rewrite (proj1 Hss eq_refl) in Hs. done. }
      rewrite Hns. destruct e as [y|]; cbn in Hrm; [|by rewrite Hns in Hrm]. cbn. destruct (r_isFatal P y); [done|]. destruct (r_shouldRestart P y); [|done]. cbn in *.
      exists (c_next c). rewrite Hdel. destruct Hst; congruence.
Qed.
Lemma done_origin P s pre g id e t post : reachable P s -> rlog s = pre ++ EvDone g id e t :: post ->
  EvEnd g id e ∈ post \/ (exists y, e = Some y /\ EvStartRet g id (inr y) ∈ post) \/ (e = None /\ EvKilled ∈ post /\ ~ start_called post g).
Proof.
  intros Hr Hl. refine (past P (fun ev post => match ev with EvDone g id e t => EvEnd g id e ∈ post \/ (exists y, e = Some y /\ EvStartRet g id (inr y) ∈ post) \/ (e = None /\ EvKilled ∈ post /\ ~ start_called post g) | _ => True end) s Hr _ pre (EvDone g id e t) post Hl). clear Hl.
  intros c a ev b A E. destruct ev; try done. destruct E as (-> & -> & Hlo & f & x & n & Hg & _). cbn [app].
  destruct (gl_ok c (a_gor P c A) _ _ _ _ _ Hg) as [(H1 & H2 & H3 & _)|[H|H]]; auto.
Qed.

Lemma no_start_after_stop P s pre g id f d t post : reachable P s -> rlog s = pre ++ EvSpawn g id f d t :: post -> stop_asked post id = false.
Proof.
  intros Hr Hl. refine (past P (fun ev post => match ev with EvSpawn g id f d t => stop_asked post id = false | _ => True end) s Hr _ pre (EvSpawn g id f d t) post Hl). clear Hl.
  intros c a ev b A E. destruct ev; try done. destruct E as (-> & -> & -> & [(j & -> & -> & _)|(g' & e & n & f1 & x & -> & Hlo & _ & Hn & Hs & _)]); cbn.
  - by rewrite bool_decide_eq_true_2.
  - rewrite (stop_exact P c g' _ n A Hlo Hn). destruct (ci_stop c (a_inv P c A) _ n Hn) as [Hss _]. destruct (i_stopping n); [|done]. rewrite (proj1 Hss eq_refl) in Hs. done.
Qed.
Lemma killed_on_arrival P s pre g id w post : reachable P s -> rlog s = pre ++ EvSet g id w :: post -> stop_asked post id = true ->
  last pre = Some (EvKill g id w).
Proof.
  intros Hr Hl Hs. apply (future P (fun a ev post => match ev with EvSet g id w => stop_asked post id = true -> a = [EvKill g id w] | _ => True end) s Hr) in Hl.
  - destruct Hl as (pre' & a & -> & H). rewrite (H Hs). by rewrite last_snoc.
  - clear. intros c a ev b A E. destruct ev; try done. destruct E as (-> & Hlo & f & x & p & n & Hg & Hn & E). cbn [app]. intros Hs.
    destruct E as [(Hd & Hst & ->)|[_ ->]]; [|done]. destruct (a_stop P c A) as (_ & _ & _ & H). destruct (H id n Hn) as [_ H2].
    destruct (H2 Hs) as [?|[?|?]]; congruence.
Qed.
Lemma idle_stopped P s g id w : reachable P s -> idle s -> stop_asked (rlog s) id = true -> in_charge (rlog s) id = Some g ->
  EvSet g id w ∈ rlog s -> EvKill g id w ∈ rlog s.
Proof.
  intros Hr Hi Hs Hc Hset. pose proof (reach_all P s Hr) as A. apply (a_charge P _ A) in Hc as (r & Hg & Hid & Hp).
  destruct (proj2 (ci_act _ (a_inv P _ A) id)) as [n Hn]; [eauto|].
  destruct (gl_live _ (a_gor P _ A) _ _ _ _ _ Hset Hg Hp Hn) as [Hw|]; [|done].
  destruct (a_stop P _ A) as (_ & _ & _ & H). destruct (proj2 (H id n Hn) Hs) as [Hst|[?|?]]; [|destruct Hi; congruence..].
  destruct (ci_stop _ (a_inv P _ A) id n Hn) as [_ H2]. rewrite (H2 Hst) in Hw. done.
Qed.
Lemma idle_stopped_reg P s id : reachable P s -> idle s -> stop_asked (rlog s) id = true -> registered (rlog s) id = None.
Proof.
  intros Hr Hi Hs. pose proof (reach_all P s Hr) as A. pose proof (a_workers P _ A id) as W. destruct (c_workers (s_core s) !! id) as [n|] eqn:Hn; [|apply W].
  destruct W as (_ & W & _). unfold rlog. rewrite W. destruct (a_stop P _ A) as (_ & _ & _ & H). destruct (proj2 (H id n Hn) Hs) as [Hst|[?|?]]; [|destruct Hi; congruence..].
  by apply (ci_stop _ (a_inv P _ A) id n Hn).
Qed.

Lemma start_delay P s pre g id f t post : reachable P s -> rlog s = pre ++ EvStartCall g id f t :: post ->
  exists d t0, EvSpawn g id f d t0 ∈ post /\ (t0 + d <= t)%Z.
Proof.
  intros Hr Hl. refine (past P (fun ev post => match ev with EvStartCall g id f t => exists d t0, EvSpawn g id f d t0 ∈ post /\ (t0 + d <= t)%Z | _ => True end) s Hr _ pre (EvStartCall g id f t) post Hl). clear Hl.
  intros c a ev b A E. destruct ev; try done. destruct E as (-> & -> & -> & x & [(d & Hg & Hd)|(d & Hg & Hd)]); cbn [app].
  - destruct (gl_ok c (a_gor P c A) _ _ _ _ _ Hg) as ((t0 & H1 & H2) & _). exists d, t0. split; [done|lia].
  - destruct (gl_ok c (a_gor P c A) _ _ _ _ _ Hg) as ((d' & t0 & H1 & H2 & _) & _). exists d', t0. split; [done|lia].
Qed.
Lemma spawn_reason P s pre g id f d t post : reachable P s -> rlog s = pre ++ EvSpawn g id f d t :: post ->
  (exists dc post', post = EvKnown id f dc :: post' /\ d = 0%Z) \/ (exists g' e post', post = EvDone g' id e t :: post' /\ d = r_delay P).
Proof.
  intros Hr Hl. refine (past P (fun ev post => match ev with EvSpawn g id f d t => (exists dc post', post = EvKnown id f dc :: post' /\ d = 0%Z) \/ (exists g' e post', post = EvDone g' id e t :: post' /\ d = r_delay P) | _ => True end) s Hr _ pre (EvSpawn g id f d t) post Hl). clear Hl.
  intros c a ev b A E. destruct ev; try done. destruct E as (-> & -> & -> & [(j & -> & -> & _)|(g' & e & n & f1 & x & -> & Hlo & _ & Hn & Hs & -> & _)]); cbn.
  - left. eauto.
  - right. exists g', e, (c_log c). split; [done|]. match type of Hn with _ !! ?i = _ => pose proof (a_workers P c A i) as W end. rewrite Hn in W. apply W.
Qed.

(** ** C31 *)
Lemma final_in P log e : final_of P log = Some e -> fatal_reported P log e.
Proof.
  assert (forall ev l x, fatal_reported P l x -> fatal_reported P (ev :: l) x) as Hm.
  { intros ev l x (H & g & id & t & Hin). split; [done|]. exists g, id, t. by right. }
  induction log as [|ev log IH] in e |- *; cbn; [done|]. destruct ev as [| | | | | | | |g id [y|] t| | | | | | |]; try (intros; apply Hm; by apply IH).
  destruct (r_isFatal P y) eqn:Hf; [|intros; apply Hm; by apply IH].
  assert (fatal_reported P (EvDone g id (Some y) t :: log) y) as Hy by (split; [done|]; exists g, id, t; by left).
  destruct (final_of P log) as [z|]; [|by intros [= <-]]. destruct (r_more P y z); [by intros [= <-]|]. intros H. apply Hm. by apply IH.
Qed.
Lemma final_none P log : final_of P log = None -> forall e, ~ fatal_reported P log e.
Proof.
  induction log as [|ev log IH]; cbn; intros H e (Hf & g & id & t & Hin); [by apply elem_of_nil in Hin|].
  apply elem_of_cons in Hin as [<-|Hin].
  - rewrite Hf in H. destruct (final_of P log); [|done]. by destruct (r_more P e e0).
  - destruct ev as [| | | | | | | |g' id' [y|] t'| | | | | | |]; try (eapply (IH H); split; [done|eauto]).
    destruct (r_isFatal P y); [|eapply (IH H); split; [done|eauto]]. destruct (final_of P log); [|done]. by destruct (r_more P y e0).
Qed.
Lemma final_max P log e : ranking P -> final_of P log = Some e -> forall e', fatal_reported P log e' -> r_more P e' e = false.
Proof.
  intros [Has Hnt]. induction log as [|ev log IH] in e |- *; cbn; [done|]. intros H e' (Hf & g & id & t & Hin).
  assert (forall a, r_more P a a = false) as Hir. { intros a. destruct (r_more P a a) eqn:Ha; [|done]. by rewrite (Has a a Ha) in Ha. }
  assert (final_of P log = Some e -> EvDone g id (Some e') t ∈ log -> r_more P e' e = false) as Hold.
  { intros H1 H2. apply (IH _ H1). split; [done|eauto]. }
  destruct ev as [| | | | | | | |g' id' [y|] t'| | | | | | |]; try (apply elem_of_cons in Hin as [[=]|Hin]; by auto).
  destruct (r_isFatal P y) eqn:Hy.
  - destruct (final_of P log) as [z|] eqn:Hz.
    + destruct (r_more P y z) eqn:Hyz.
      * injection H as <-. apply elem_of_cons in Hin as [[= -> -> -> ->]|Hin]; [apply Hir|]. apply (Hnt _ z _).
        -- apply (IH z); [done|]. split; [done|eauto].
        -- by apply Has.
      * injection H as <-. apply elem_of_cons in Hin as [[= -> -> -> ->]|Hin]; [done|]. apply (IH z); [done|]. split; [done|eauto].
    + injection H as <-. apply elem_of_cons in Hin as [[= -> -> -> ->]|Hin]; [apply Hir|].
      destruct (final_none P log Hz e'). split; [done|eauto].
  - apply elem_of_cons in Hin as [[= -> -> -> ->]|Hin]; [congruence|]. auto.
Qed.

(** ** C33 *)
Lemma ret_unique P s g id r id' r' : reachable P s -> EvStartRet g id r ∈ rlog s -> EvStartRet g id' r' ∈ rlog s -> id = id' /\ r = r'.
Proof.
  intros Hr H1 H2. destruct (elem_split _ _ H1) as (p1 & q1 & E1). rewrite E1 in H2. apply elem_of_app in H2 as [H2|[[= -> ->]|H2]%elem_of_cons]; [|done|].
  - destruct (elem_split _ _ H2) as (p2 & q2 & ->). rewrite <- app_assoc in E1. cbn in E1. destruct (return_once P s _ _ _ _ _ Hr E1) as [_ Hn].
    destruct (Hn id r). apply elem_of_app. right. by left.
  - by destruct (proj2 (return_once P s _ _ _ _ _ Hr E1) id' r').
Qed.
Lemma ret_called P s g id r : reachable P s -> EvStartRet g id r ∈ rlog s -> start_called (rlog s) g.
Proof.
  intros Hr H. destruct (elem_split _ _ H) as (p1 & q1 & E1). destruct (return_once P s _ _ _ _ _ Hr E1) as [(f1 & t1 & Hx) _].
  exists id, f1, t1. rewrite E1. apply elem_of_app. right. by right.
Qed.
(** A goroutine that is gone has no worker left. *)
Lemma gone_ended P s g id f x w : reachable P s -> c_gors (s_core s) !! g = Some (mkWGor id f x WGone) -> EvStartRet g id (inl w) ∈ rlog s -> worker_ended (rlog s) g.
Proof.
  intros Hr Hg Hw. pose proof (reach_all P s Hr) as A. destruct (gl_ok _ (a_gor P _ A) _ _ _ _ _ Hg) as (e & t & _ & [(H & _)|[(y & -> & H)|H]]).
  - destruct H. by eapply ret_called.
  - by destruct (ret_unique P s _ _ _ _ _ Hr Hw H).
  - by exists id, e.
Qed.
Lemma ended_gone P c : allinv P c -> c_loop c = LEnded -> forall g r, c_gors c !! g = Some r -> w_pc r = WGone.
Proof.
  intros A Hl g r Hg. pose proof (ci_loop c (a_inv P c A)) as H. rewrite Hl in H. destruct H as [_ H].
  assert (w_pc r = WGone \/ w_pc r <> WGone) as [|Hp] by (destruct (w_pc r); auto); [done|].
  destruct (proj2 (ci_act c (a_inv P c A) (w_id r))) as [n Hn]; [eauto|]. rewrite H in Hn. done.
Qed.
Lemma dead_loop P c : allinv P c -> EvDead ∈ c_log c -> c_loop c = LEnded.
Proof. intros A H. destruct (a_tomb P c A) as (_ & _ & T & _). apply (ci_dead c (a_inv P c A)). by apply T. Qed.
Lemma loop_known P c id : allinv P c -> (known (c_log c) id = None <-> c_workers c !! id = None).
Proof.
  intros A. pose proof (a_workers P c A id) as W. destruct (c_workers c !! id) as [n|]; [|by destruct W].
  destruct W as ((f & -> & _) & _). done.
Qed.
Lemma dead_complete P s : reachable P s -> EvDead ∈ rlog s ->
  (forall g id w, EvStartRet g id (inl w) ∈ rlog s -> worker_ended (rlog s) g) /\
  (forall g, start_called (rlog s) g -> over (rlog s) g) /\
  (forall g r, c_gors (s_core s) !! g = Some r -> w_pc r = WGone) /\
  (forall id, known (rlog s) id = None).
Proof.
  intros Hr Hd. pose proof (reach_all P s Hr) as A. pose proof (dead_loop P _ A Hd) as Hl.
  pose proof (ended_gone P _ A Hl) as Hg. split_and!; [| |done|].
  - intros g id w H. destruct (gl_about _ (a_gor P _ A) _ g id H eq_refl) as ([id' f x p] & Hr' & Hi). cbn in Hi. subst id'. specialize (Hg _ _ Hr'). cbn in Hg. subst p.
    by eapply gone_ended.
  - intros g (id & f0 & t & H). destruct (gl_about _ (a_gor P _ A) _ g id H eq_refl) as ([id' f x p] & Hr' & Hi). cbn in Hi. subst id'. specialize (Hg _ _ Hr'). cbn in Hg. subst p.
    eapply gone_over; [done|done|]. by exists id, f0, t.
  - intros id. apply (loop_known P _ id A). pose proof (ci_loop _ (a_inv P _ A)) as H. rewrite Hl in H. destruct H as [_ ->]. apply lookup_empty.
Qed.
Definition client (ev : event) : Prop := exists ce, ev = EvClient ce.
Lemma dead_quiet P s pre post : reachable P s -> rlog s = pre ++ EvDead :: post -> forall ev, ev ∈ pre -> (exists ce, ev = EvClient ce) \/ exists i, ev = EvCtx i.
Proof.
  intros Hr Hl ev Hin. destruct (elem_split _ _ Hin) as (p1 & q1 & ->). rewrite <- app_assoc in Hl. cbn in Hl.
  assert (EvDead ∈ q1 ++ EvDead :: post) as Hd by (apply elem_of_app; right; by left).
  revert Hl Hd. generalize (q1 ++ EvDead :: post). clear -Hr. intros q Hl. revert p1 ev q Hl.
  apply (past P (fun ev post => EvDead ∈ post -> (exists ce, ev = EvClient ce) \/ exists i, ev = EvCtx i) s Hr).
  intros c a ev b A E Hd.
  assert (EvDead ∈ c_log c -> ((exists ce, ev = EvClient ce) \/ exists i, ev = EvCtx i)) as Hc.
  { intros H. pose proof (dead_loop P c A H) as Hl. pose proof (ended_gone P c A Hl) as Hg. 
    assert (t_dying (c_tomb c) = true) as Hdy. { apply (ci_dead c (a_inv P c A)). destruct (a_tomb P c A) as (_ & _ & T & _). by apply T. }
    pose proof (ci_loop c (a_inv P c A)) as W. rewrite Hl in W. destruct W as [Hd1 Hd2].
    destruct ev; cbn in E; try (by eauto); try (right; by eexists); exfalso.
    - destruct E as (_ & E & _). congruence.
    - destruct E as (i & _ & _ & _ & _ & E). congruence.
    - destruct E as (_ & _ & _ & [(i & _ & _ & _ & E)|(g' & e & n & f0 & x & _ & E & _)]); congruence.
    - destruct E as (_ & _ & _ & x & [(d & E & _)|(d & E & _)]); by specialize (Hg _ _ E).
    - destruct E as (_ & _ & f & x & E). by specialize (Hg _ _ E).
    - destruct E as (_ & E & _). congruence.
    - destruct E as (i & E & _). rewrite Hd2 in E. done.
    - destruct E as (_ & _ & _ & f & x & p & w & E & Hp). specialize (Hg _ _ E). cbn in Hg. destruct Hp; congruence.
    - destruct E as (_ & _ & E & _). congruence.
    - destruct E as (g & e & n & f & x & _ & E & _). by specialize (Hg _ _ E).
    - destruct E as (_ & _ & E). congruence.
    - destruct E as (_ & _ & E). congruence.
    - destruct E as (_ & [(_ & _ & E)|(E & _)]); congruence.
    - destruct E as (_ & _ & E & _). congruence. }
  apply elem_of_app in Hd as [Hd|Hd]; [|by auto]. exfalso.
  destruct ev; cbn in E; try (destruct_and?; subst; by apply elem_of_nil in Hd).
  - destruct E as (i & -> & _). by apply elem_of_list_singleton in Hd.
  - destruct E as (_ & _ & _ & [(i & _ & -> & _)|(g' & e & n & f0 & x & -> & _)]); rewrite ?elem_of_cons, elem_of_nil in Hd; naive_solver.
  - destruct E as (i & Hi & [(_ & _ & E)|(-> & _)]); [by destruct (E _ Hd) as (? & ? & ? & [=])|by apply elem_of_list_singleton in Hd].
  - destruct E as (g & e & n & f & x & -> & _). by apply elem_of_list_singleton in Hd.
  - destruct E as (_ & [(-> & _)|(_ & g & id & y & d & -> & _)]); rewrite ?elem_of_cons, elem_of_nil in Hd; naive_solver.
Qed.

(** ** C35, C42 *)
Lemma no_spawn_when_stopping P s pre g id f d t post : reachable P s -> rlog s = pre ++ EvSpawn g id f d t :: post -> ~ stopping_all post.
Proof.
  intros Hr Hl. refine (past P (fun ev post => match ev with EvSpawn g id f d t => ~ stopping_all post | _ => True end) s Hr _ pre (EvSpawn g id f d t) post Hl). clear Hl.
  intros c a ev b A E. destruct ev; try done. intros Hs.
  assert (c_dying c = true) as Hd.
  { apply (dying_all P c A). apply elem_of_app in Hs as [Hs|Hs]; [|done]. exfalso.
    destruct E as (_ & _ & _ & [(j & _ & -> & _)|(g' & e & n & f1 & x & -> & _)]); rewrite ?elem_of_cons, elem_of_nil in Hs; naive_solver. }
  destruct E as (-> & -> & -> & [(j & _ & _ & _ & E)|(g' & e & n & f1 & x & -> & Hlo & _ & Hn & Hst & _)]); [congruence|].
  destruct (ci_dying c (a_inv P c A) Hd) as [?|H]; [congruence|]. specialize (H _ _ Hn).
  destruct (ci_stop c (a_inv P c A) _ n Hn) as [Hss _]. rewrite (proj1 Hss H) in Hst. done.
Qed.
Lemma late_start P s pre g id f t post : reachable P s -> rlog s = pre ++ EvStartCall g id f t :: post -> stopping_all post ->
  exists post1 post2 d t0, post = post1 ++ EvStopAll :: post2 /\ EvSpawn g id f d t0 ∈ post2.
Proof.
  intros Hr Hl Hs. destruct (start_delay P s _ _ _ _ _ _ Hr Hl) as (d & t0 & Hsp & _).
  destruct (elem_split _ _ Hs) as (p1 & p2 & ->). exists p1, p2, d, t0. split; [done|].
  apply elem_of_app in Hsp as [Hsp|[Hsp|Hsp]%elem_of_cons]; [|done|done]. exfalso.
  destruct (elem_split _ _ Hsp) as (q1 & q2 & ->).
  assert (rlog s = (pre ++ EvStartCall g id f t :: q1) ++ EvSpawn g id f d t0 :: (q2 ++ EvStopAll :: p2)) as Hl2.
  { rewrite Hl. by rewrite <- !app_assoc. }
  apply (no_spawn_when_stopping P s _ _ _ _ _ _ _ Hr Hl2). apply elem_of_app. right. by left.
Qed.
Lemma killed_when_stopping P s pre g id w post : reachable P s -> rlog s = pre ++ EvSet g id w :: post -> stopping_all post ->
  last pre = Some (EvKill g id w).
Proof.
  intros Hr Hl Hs. apply (future P (fun a ev post => match ev with EvSet g id w => stopping_all post -> a = [EvKill g id w] | _ => True end) s Hr) in Hl.
  - destruct Hl as (pre' & a & -> & H). rewrite (H Hs). by rewrite last_snoc.
  - clear. intros c a ev b A E. destruct ev; try done. destruct E as (-> & Hlo & f & x & p & n & Hg & Hn & E). cbn [app]. intros Hs.
    apply (dying_all P c A) in Hs. destruct E as [(Hd & Hst & ->)|[_ ->]]; [|done]. congruence.
Qed.
Lemma everything_killed P s g id w : reachable P s -> idle s -> stopping_all (rlog s) -> EvSet g id w ∈ rlog s ->
  EvKill g id w ∈ rlog s \/ worker_ended (rlog s) g.
Proof.
  intros Hr Hi Hs Hset. pose proof (reach_all P s Hr) as A. apply (dying_all P _ A) in Hs.
  destruct (gl_about _ (a_gor P _ A) _ g id Hset eq_refl) as ([id' f x p] & Hg & Hid). cbn in Hid. subst id'.
  assert (p = WGone \/ p <> WGone) as [->|Hp] by (destruct p; auto).
  - right. eapply gone_ended; [done|done|]. by eapply gl_setret; [apply (a_gor P _ A)|].
  - left. destruct (proj2 (ci_act _ (a_inv P _ A) id)) as [n Hn]; [by exists g, (mkWGor id f x p)|].
    destruct (gl_live _ (a_gor P _ A) _ _ _ _ _ Hset Hg Hp Hn) as [Hw|]; [|done].
    destruct (ci_dying _ (a_inv P _ A) Hs) as [?|H]; [destruct Hi; congruence|].
    destruct (ci_stop _ (a_inv P _ A) id n Hn) as [_ H2]. rewrite (H2 (H _ _ Hn)) in Hw. done.
Qed.
Lemma stop_all_once P s pre post : reachable P s -> rlog s = pre ++ EvStopAll :: post ->
  EvKilled ∈ post \/ (exists e, fatal_reported P post e).
Proof.
  intros Hr Hl. refine (past P (fun ev post => match ev with EvStopAll => EvKilled ∈ post \/ (exists e, fatal_reported P post e) | _ => True end) s Hr _ pre EvStopAll post Hl). clear Hl.
  intros c a ev b A E. destruct ev; try done. destruct E as (_ & [(-> & Hd & Hl)|(_ & g & id & y & d & -> & Hf)]).
  - left. apply (a_tomb P c A); [congruence|done].
  - right. exists y. split; [done|]. exists g, id, (c_now c). cbn. right. by left.
Qed.

(** ** C58 *)
Definition tomb_le (t t' : tomb) : Prop :=
  (t_dying t = true -> t_dying t' = true) /\ (t_dead t = true -> t' = t) /\
  (forall e, t_reason t = Reason (Some e) -> t_reason t' = Reason (Some e)).
Lemma tomb_le_refl t : tomb_le t t.
Proof. by split_and!. Qed.
Lemma tomb_le_trans t t1 t2 : tomb_le t t1 -> tomb_le t1 t2 -> tomb_le t t2.
Proof. intros (A1 & A2 & A3) (B1 & B2 & B3). split_and!; auto. intros H. pose proof (A2 H) as ->. auto. Qed.
Lemma ctomb_once P c c' : cinv c -> ctrans P c c' -> tomb_le (c_tomb c) (c_tomb c').
Proof.
  intros V HT. destruct HT; cbn; try (by apply tomb_le_refl).
  - split_and!; cbn; [done| |].
    + intros Hd. destruct (ci_dead c V Hd). congruence.
    + intros e He. unfold t_dying in H. by rewrite He in H.
  - destruct (ci_tomb c V) as (H1 & H2 & H3 & H4); [congruence|]. destruct (tomb_done_last (c_tomb c) (c_final c) H1 H2 H3 H4) as (Ha & Hb & _).
    destruct (t_dead t); cbn; split_and!; try done; intros; destruct H1; congruence.
Qed.
Lemma crun_tomb P c c' : cinv c -> crun P c c' -> tomb_le (c_tomb c) (c_tomb c').
Proof.
  intros V [ls Hls]. revert c V Hls. induction ls as [|l ls IH]; cbn; intros c V Hls.
  - injection Hls as <-. apply tomb_le_refl.
  - destruct (cstep P c l) as [c1|] eqn:E; [|exfalso; clear -Hls; induction ls; cbn in Hls; [done|auto]]. pose proof (cstep_trans P c l c1 V E) as HT.
    eapply tomb_le_trans; [by eapply ctomb_once|]. apply IH; [by eapply cinv_trans|done].
Qed.
Lemma runner_tomb P s ls s' : reachable P s -> run P s ls = Some s' ->
  (t_dead (c_tomb (s_core s)) = true -> t_dying (c_tomb (s_core s)) = true) /\
  (t_dying (c_tomb (s_core s)) = true -> t_dying (c_tomb (s_core s')) = true) /\
  (t_dead (c_tomb (s_core s)) = true -> c_tomb (s_core s') = c_tomb (s_core s)) /\
  (forall e, t_reason (c_tomb (s_core s)) = Reason (Some e) -> t_reason (c_tomb (s_core s')) = Reason (Some e)).
Proof.
  intros Hr Hs. pose proof (reach_all P s Hr) as A. apply run_crun in Hs.
  pose proof (crun_tomb P _ _ (a_inv P _ A) Hs) as (H1 & H2 & H3). split_and!; [|done..].
  intros Hd. by apply (ci_dead _ (a_inv P _ A)).
Qed.
