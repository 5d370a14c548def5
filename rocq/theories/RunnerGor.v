(** What the log of the runner says about its goroutines. *)
From stdpp Require Import gmap strings list.
From Coq Require Import ZArith Lia.
From RecordUpdate Require Import RecordSet.
From Verif Require Import Err Tomb Runner RunnerSpec RunnerInv RunnerLog.
Import RecordSetNotations.

(** How goroutine [g] came to its end: its delay was cut short, the start func failed, or the worker finished. *)
Definition finish (log : list event) (g : nat) (id : string) (e : option err) : Prop :=
  (~ start_called log g /\ e = None /\ EvKilled ∈ log /\ exists f d t, EvSpawn g id f d t ∈ log /\ (0 < d)%Z) \/
  (exists y, e = Some y /\ EvStartRet g id (inr y) ∈ log) \/
  EvEnd g id e ∈ log.
Definition returned (log : list event) (g : nat) : Prop := exists id r, EvStartRet g id r ∈ log.
Definition was_set (log : list event) (g : nat) : Prop := exists id w, EvSet g id w ∈ log.

Definition gor_ok (log : list event) (now : Z) (g : nat) (id : string) (f : nat) (p : wpc) : Prop :=
  match p with
  | WBegin d => (exists t, EvSpawn g id f d t ∈ log /\ (t <= now)%Z) /\ ~ start_called log g /\ ~ returned log g /\ ~ was_set log g
  | WTimer r => (exists d t, EvSpawn g id f d t ∈ log /\ (t + d <= r)%Z /\ (0 < d)%Z) /\ ~ start_called log g /\ ~ returned log g /\ ~ was_set log g
  | WStart => (exists t, EvStartCall g id f t ∈ log) /\ ~ returned log g /\ ~ was_set log g
  | WSendStarted w => EvStartRet g id (inl w) ∈ log /\ ~ was_set log g
  | WWait w => EvStartRet g id (inl w) ∈ log
  | WLost => exists w, EvStartRet g id (inl w) ∈ log
  | WSendDone e | WTaken e => finish log g id e
  | WGone => exists e t, EvDone g id e t ∈ log /\ finish log g id e
  end.

Definition touches (g : nat) (ev : event) : Prop :=
  match ev with EvStartCall g' _ _ _ | EvStartRet g' _ _ | EvSet g' _ _ => g' = g | _ => False end.
Definition extends (g : nat) (log log' : list event) : Prop := log ⊆ log' /\ forall ev, ev ∈ log' -> touches g ev -> ev ∈ log.
Lemma extends_refl g log : extends g log log.
Proof. by split. Qed.
Lemma extends_cons g log log' ev : extends g log log' -> ~ touches g ev -> extends g log (ev :: log').
Proof.
  intros [H1 H2] Hn. split.
  - intros x Hx. right. by apply H1.
  - intros x [->|Hx]%elem_of_cons Ht; [done|]. by apply H2.
Qed.
Lemma extends_kae g m l log : extends g log (kill_all_events m l ++ log).
Proof. apply (kae_ind (extends g log)); [apply extends_refl|]. intros. apply extends_cons; [done|cbn; tauto]. Qed.
Lemma extends_ke g id i log : extends g log (kill_events id i ++ log).
Proof. apply (ke_ind (extends g log)); [apply extends_refl|]. intros. apply extends_cons; [done|cbn; tauto]. Qed.

Lemma ext_called g log log' : extends g log log' -> start_called log' g -> start_called log g.
Proof. intros [_ H] (id & f & t & Hi). exists id, f, t. by apply H. Qed.
Lemma ext_returned g log log' : extends g log log' -> returned log' g -> returned log g.
Proof. intros [_ H] (id & r & Hi). exists id, r. by apply H. Qed.
Lemma ext_set g log log' : extends g log log' -> was_set log' g -> was_set log g.
Proof. intros [_ H] (id & r & Hi). exists id, r. by apply H. Qed.
Lemma finish_mono' g id e log log' : log ⊆ log' -> (start_called log' g -> start_called log g) -> finish log g id e -> finish log' g id e.
Proof.
  intros He Hc [(H1 & H2 & H3 & f & d & t & H4 & H5)|[(y & Hy & H)|H]]; [left|right; left|right; right].
  - split_and!; [auto|done|by apply He|]. exists f, d, t. split; [by apply He|done].
  - exists y. split; [done|]. by apply He.
  - by apply He.
Qed.
Lemma finish_mono g id e log log' : extends g log log' -> finish log g id e -> finish log' g id e.
Proof. intros He. apply finish_mono'; [apply He|by apply ext_called]. Qed.
Lemma gor_ok_mono log log' now now' g id f p : gor_ok log now g id f p -> extends g log log' -> (now <= now')%Z -> gor_ok log' now' g id f p.
Proof.
  intros H He Hn. destruct p; cbn in *.
  - destruct H as ((t & Ht & Hl) & Hs & Hr & Hw). split_and!; [|intros ?..].
    + exists t. split; [by apply He|lia].
    + by eapply Hs, ext_called.
    + by eapply Hr, ext_returned.
    + by eapply Hw, ext_set.
  - destruct H as ((d & t & Ht & Hl) & Hs & Hr & Hw). split_and!; [|intros ?..].
    + exists d, t. split; [by apply He|done].
    + by eapply Hs, ext_called.
    + by eapply Hr, ext_returned.
    + by eapply Hw, ext_set.
  - destruct H as ((t & Ht) & Hr & Hw). split_and!; [|intros ?..].
    + exists t. by apply He.
    + by eapply Hr, ext_returned.
    + by eapply Hw, ext_set.
  - destruct H as (Ht & Hw). split; [by apply He|]. intros ?. by eapply Hw, ext_set.
  - by apply He.
  - by eapply finish_mono.
  - by eapply finish_mono.
  - destruct H as [w H]. exists w. by apply He.
  - destruct H as (e & t & H1 & H2). exists e, t. split; [by apply He|by eapply finish_mono].
Qed.

(** Which goroutine an event is about. *)
Definition about (ev : event) : option (nat * string) :=
  match ev with
  | EvSpawn g id _ _ _ | EvStartCall g id _ _ | EvStartRet g id _ | EvSet g id _ | EvKill g id _ | EvEnd g id _ | EvDone g id _ _ => Some (g, id)
  | _ => None
  end.

Record gor_log (c : core) : Prop := {
  gl_about : forall ev g id, ev ∈ c_log c -> about ev = Some (g, id) -> exists r, c_gors c !! g = Some r /\ w_id r = id;
  gl_ok : forall g id f x p, c_gors c !! g = Some (mkWGor id f x p) -> gor_ok (c_log c) (c_now c) g id f p;
  gl_fn : forall g id f d t, EvSpawn g id f d t ∈ c_log c -> exists x p, c_gors c !! g = Some (mkWGor id f x p);
  gl_ended : forall g e, c_ended c !! g = Some e -> exists id, EvEnd g id e ∈ c_log c;
  gl_ended' : forall g id e, EvEnd g id e ∈ c_log c -> c_ended c !! g = Some e;
  gl_set : forall g w, c_loop c = LDo (ASet g w) -> ~ was_set (c_log c) g /\ exists id, EvStartRet g id (inl w) ∈ c_log c;
  gl_setret : forall g id w, EvSet g id w ∈ c_log c -> EvStartRet g id (inl w) ∈ c_log c;
  gl_reg : forall id i g w, c_workers c !! id = Some i -> i_worker i = Some (g, w) -> EvSet g id w ∈ c_log c;
  gl_live : forall g id w r i, EvSet g id w ∈ c_log c -> c_gors c !! g = Some r -> w_pc r <> WGone -> c_workers c !! id = Some i ->
    i_worker i = Some (g, w) \/ EvKill g id w ∈ c_log c
}.

Lemma gor_log_init : gor_log core_init.
Proof.
  split; cbn; try done; intros; match goal with H : _ ∈ [] |- _ => by apply elem_of_nil in H end.
Qed.

Lemma put_about c g id f x p p' g' id' : c_gors c !! g = Some (mkWGor id f x p) ->
  (exists r, c_gors c !! g' = Some r /\ w_id r = id') -> exists r, <[g := mkWGor id f x p']> (c_gors c) !! g' = Some r /\ w_id r = id'.
Proof.
  intros Hg (r & Hr & Hi). destruct (decide (g = g')) as [<-|Hne].
  - rewrite Hg in Hr. injection Hr as <-. rewrite lookup_insert. eauto.
  - rewrite lookup_insert_ne by done. eauto.
Qed.
Lemma put_fn c g id f x p p' g' id' f' : c_gors c !! g = Some (mkWGor id f x p) ->
  (exists x p, c_gors c !! g' = Some (mkWGor id' f' x p)) -> exists x0 p0, <[g := mkWGor id f x p']> (c_gors c) !! g' = Some (mkWGor id' f' x0 p0).
Proof.
  intros Hg (x0 & p0 & Hr). destruct (decide (g = g')) as [<-|Hne].
  - rewrite Hg in Hr. injection Hr as <- <-. rewrite lookup_insert. eauto.
  - rewrite lookup_insert_ne by done. eauto.
Qed.

(** The log grows by events about no goroutine; nothing else of interest changes. *)
Lemma gor_log_frame c c' : gor_log c -> c_gors c' = c_gors c -> c_ended c' = c_ended c -> (c_now c <= c_now c')%Z ->
  c_log c ⊆ c_log c' -> (forall ev, ev ∈ c_log c' -> about ev <> None -> ev ∈ c_log c \/ exists id i g w, c_workers c !! id = Some i /\ i_worker i = Some (g, w) /\ ev = EvKill g id w) ->
  (forall g w, c_loop c' <> LDo (ASet g w)) \/ c_loop c' = c_loop c ->
  (forall id i g w, c_workers c' !! id = Some i -> i_worker i = Some (g, w) -> exists i0, c_workers c !! id = Some i0 /\ i_worker i0 = Some (g, w)) ->
  (forall id i', c_workers c' !! id = Some i' -> (exists i, c_workers c !! id = Some i /\ i_worker i = i_worker i') \/ (exists i, c_workers c !! id = Some i /\ i_worker i' = None /\
     forall g w, i_worker i = Some (g, w) -> EvKill g id w ∈ c_log c') \/
     (forall g r, c_gors c !! g = Some r -> w_id r = id -> w_pc r = WGone)) ->
  gor_log c'.
Proof.
  intros [G1 G2 G3 G4 G5 G6 G7 G8 G9] Eg Ee En Esub Enew El Ew Ew'.
  assert (forall g, extends g (c_log c) (c_log c')) as Hext.
  { intros g. split; [done|]. intros ev Hev Ht. destruct (Enew ev Hev) as [|(id & i & g' & w & _ & _ & ->)]; [by destruct ev|done|done]. }
  assert (forall ev, ev ∈ c_log c' -> about ev <> None -> (forall g id w, ev <> EvKill g id w) -> ev ∈ c_log c) as Hin.
  { intros ev Hev Ha Hk. destruct (Enew ev Hev Ha) as [|(id & i & g' & w & _ & _ & ->)]; [done|]. by destruct (Hk g' id w). }
  split; rewrite ?Eg, ?Ee.
  - intros ev g id Hev Ha. destruct (Enew ev Hev) as [H|(id' & i & g' & w & H1 & H2 & ->)]; [congruence|by eapply G1|].
    injection Ha as <- <-. by eapply (G1 (EvSet g' id' w)); [eapply G8|].
  - intros g id f x p Hg. eapply gor_ok_mono; [by eapply G2|apply Hext|done].
  - intros g id f d t H. apply (G3 g id f d t), Hin; done.
  - intros g e H. destruct (G4 g e H) as [id Hi]. exists id. by apply Esub.
  - intros g id e H. apply (G5 g id e), Hin; done.
  - intros g w H. destruct El as [El|El]; [by destruct (El g w)|]. rewrite El in H. destruct (G6 g w H) as [Ha [id Hb]]. split.
    + intros Hs. by eapply Ha, ext_set.
    + exists id. by apply Esub.
  - intros g id w H. apply Esub, G7, Hin; done.
  - intros id i g w H Hw. apply Esub. destruct (Ew id i g w H Hw) as (i0 & H0 & H1). by eapply G8.
  - intros g id w r i' Hs Hg Hp Hi. apply Hin in Hs; [|done..]. destruct (Ew' id i' Hi) as [(i & H & Hw)|[(i & H & Hw & Hk)|H]].
    + destruct (G9 g id w r i Hs Hg Hp H); [left; congruence|right; by apply Esub].
    + destruct (G9 g id w r i Hs Hg Hp H); right; [by apply Hk|by apply Esub].
    + destruct (G1 _ g id Hs eq_refl) as (r' & Hr' & Hid). rewrite Hg in Hr'. injection Hr' as <-.
      by destruct Hp; eapply H.
Qed.

(** One goroutine moves, with at most one event about it. *)
Lemma gor_log_move c c' g id f x p p' evs : gor_log c -> c_gors c !! g = Some (mkWGor id f x p) -> p <> WGone ->
  c_gors c' = <[g := mkWGor id f x p']> (c_gors c) -> c_ended c' = c_ended c -> c_now c' = c_now c -> c_log c' = evs ++ c_log c ->
  c_workers c' = c_workers c ->
  (evs = [] \/ (exists t, evs = [EvStartCall g id f t]) \/ (exists r, evs = [EvStartRet g id r]) \/ (exists e t, evs = [EvDone g id e t])) ->
  gor_ok (c_log c') (c_now c') g id f p' ->
  (forall g' w, c_loop c' = LDo (ASet g' w) -> c_loop c = LDo (ASet g' w) \/ (~ was_set (c_log c) g' /\ exists id, EvStartRet g' id (inl w) ∈ c_log c)) ->
  gor_log c'.
Proof.
  intros [G1 G2 G3 G4 G5 G6 G7 G8 G9] Hg Hp Eg Ee En Elog Ew Hevs Hok El.
  assert (c_log c ⊆ c_log c') as Esub by (rewrite Elog; set_solver).
  assert (forall ev, ev ∈ c_log c' -> ev ∈ c_log c \/ ((exists t, ev = EvStartCall g id f t) \/ (exists r, ev = EvStartRet g id r) \/ (exists e t, ev = EvDone g id e t))) as Hin.
  { intros ev. rewrite Elog. destruct Hevs as [->|[[t ->]|[[r ->]|(e & t & ->)]]]; cbn.
    - by left.
    - intros [->|?]%elem_of_cons; eauto 10.
    - intros [->|?]%elem_of_cons; eauto 10.
    - intros [->|?]%elem_of_cons; eauto 10. }
  assert (forall g', g' <> g -> extends g' (c_log c) (c_log c')) as Hext.
  { intros g' Hne. split; [done|]. intros ev Hev Ht. destruct (Hin ev Hev) as [|[[t ->]|[[r ->]|(e & t & ->)]]]; cbn in *; first [done|congruence]. }
  assert (forall g', was_set (c_log c') g' -> was_set (c_log c) g') as Hset.
  { intros g' (id' & w & Hw). exists id', w. by destruct (Hin _ Hw) as [|[[? ?]|[[? ?]|(? & ? & ?)]]]. }
  split; rewrite ?Eg, ?Ee, ?Ew.
  - intros ev g' id' Hev Ha. destruct (Hin ev Hev) as [H|[[t ->]|[[r ->]|(e & t & ->)]]].
    + eapply put_about; [done|by eapply G1].
    + injection Ha as <- <-. rewrite lookup_insert. eauto.
    + injection Ha as <- <-. rewrite lookup_insert. eauto.
    + injection Ha as <- <-. rewrite lookup_insert. eauto.
  - intros g' id' f' x' p0 Hg'. apply lookup_insert_Some in Hg' as [[<- [= <- <- <- <-]]|[Hne Hg']]; [done|].
    eapply gor_ok_mono; [by eapply G2|by apply Hext|by rewrite En].
  - intros g' id' f' d t H. eapply put_fn; [done|]. apply (G3 g' id' f' d t). by destruct (Hin _ H) as [|[[? ?]|[[? ?]|(? & ? & ?)]]].
  - intros g' e H. destruct (G4 g' e H) as [id' Hi]. exists id'. by apply Esub.
  - intros g' id' e H. apply (G5 g' id' e). by destruct (Hin _ H) as [|[[? ?]|[[? ?]|(? & ? & ?)]]].
  - intros g' w H. assert (~ was_set (c_log c) g' /\ exists id, EvStartRet g' id (inl w) ∈ c_log c) as [Ha [id' Hb]] by (destruct (El g' w H); auto). split.
    + intros Hs. by apply Ha, Hset.
    + exists id'. by apply Esub.
  - intros g' id' w H. apply Esub, G7. by destruct (Hin _ H) as [|[[? ?]|[[? ?]|(? & ? & ?)]]].
  - intros id' i g' w H Hw. apply Esub. eauto.
  - intros g' id' w r i Hs Hr Hp0 Hi. destruct (Hin _ Hs) as [Hs'|[[? ?]|[[? ?]|(? & ? & ?)]]]; [|done|done|done].
    assert (exists r', c_gors c !! g' = Some r' /\ w_pc r' <> WGone) as (r' & Hr' & Hp').
    { apply lookup_insert_Some in Hr as [[<- <-]|[Hne Hr]]; eauto. }
    destruct (G9 g' id' w r' i Hs' Hr' Hp' Hi); [by left|right; by apply Esub].
Qed.

(** A new goroutine *)
Lemma gor_log_new c c' g id f x d : gor_log c -> c_gors c !! g = None ->
  c_gors c' = <[g := mkWGor id f x (WBegin d)]> (c_gors c) -> c_ended c' = c_ended c -> c_now c' = c_now c ->
  c_log c' = EvSpawn g id f d (c_now c) :: c_log c -> c_workers c' = c_workers c ->
  (forall g' w, c_loop c' <> LDo (ASet g' w)) -> gor_log c'.
Proof.
  intros [G1 G2 G3 G4 G5 G6 G7 G8 G9] Hg Eg Ee En Elog Ew El.
  assert (forall g' id' ev, ev ∈ c_log c -> about ev = Some (g', id') -> g' <> g) as Hfr.
  { intros g' id' ev Hev Ha ->. destruct (G1 ev g id' Hev Ha) as (r & Hr & _). congruence. }
  assert (c_log c ⊆ c_log c') as Esub by (rewrite Elog; set_solver).
  assert (forall ev, ev ∈ c_log c' -> ev ∈ c_log c \/ ev = EvSpawn g id f d (c_now c)) as Hin.
  { intros ev. rewrite Elog. intros [->|?]%elem_of_cons; auto. }
  assert (forall g', extends g' (c_log c) (c_log c')) as Hext.
  { intros g'. rewrite Elog. apply extends_cons; [apply extends_refl|cbn; tauto]. }
  split; rewrite ?Eg, ?Ee, ?Ew.
  - intros ev g' id' Hev Ha. destruct (Hin ev Hev) as [H| ->].
    + rewrite lookup_insert_ne by (apply not_eq_sym; by eapply Hfr). by eapply G1.
    + injection Ha as <- <-. rewrite lookup_insert. eauto.
  - intros g' id' f' x' p0 Hg'. apply lookup_insert_Some in Hg' as [[<- [= <- <- <- <-]]|[Hne Hg']].
    + cbn. split_and!.
      * exists (c_now c). split; [rewrite Elog; by left|rewrite En; lia].
      * intros (a & b & t & H). destruct (Hin _ H) as [H'|?]; [|done]. by eapply (Hfr g).
      * intros (a & b & H). destruct (Hin _ H) as [H'|?]; [|done]. by eapply (Hfr g).
      * intros (a & b & H). destruct (Hin _ H) as [H'|?]; [|done]. by eapply (Hfr g).
    + eapply gor_ok_mono; [by eapply G2|by apply Hext|by rewrite En].
  - intros g' id' f' d' t H. destruct (Hin _ H) as [H'|[= -> -> -> -> ->]].
    + rewrite lookup_insert_ne by (apply not_eq_sym; by eapply Hfr). by eapply G3.
    + rewrite lookup_insert. eauto.
  - intros g' e H. destruct (G4 g' e H) as [id' Hi]. exists id'. by apply Esub.
  - intros g' id' e H. apply (G5 g' id' e). by destruct (Hin _ H).
  - intros g' w H. by destruct (El g' w).
  - intros g' id' w H. apply Esub, G7. by destruct (Hin _ H).
  - intros id' i g' w H Hw. apply Esub. eauto.
  - intros g' id' w r i Hs Hr Hp0 Hi. destruct (Hin _ Hs) as [Hs'|?]; [|done].
    rewrite lookup_insert_ne in Hr by (apply not_eq_sym; by eapply Hfr). destruct (G9 g' id' w r i Hs' Hr Hp0 Hi); [by left|right; by apply Esub].
Qed.

(** The loop registers a worker. *)
Lemma gor_log_set c c' g id f x p w i : gor_log c -> cinv c -> c_loop c = LDo (ASet g w) -> c_gors c !! g = Some (mkWGor id f x p) ->
  c_workers c !! id = Some i ->
  c_gors c' = c_gors c -> c_ended c' = c_ended c -> c_now c' = c_now c -> c_log c' = EvSet g id w :: c_log c ->
  c_workers c' = <[id := i <| i_worker := Some (g, w) |>]> (c_workers c) -> (forall g' w', c_loop c' <> LDo (ASet g' w')) -> gor_log c'.
Proof.
  intros [G1 G2 G3 G4 G5 G6 G7 G8 G9] V Hl Hg Hi Eg Ee En Elog Ew El.
  assert (c_log c ⊆ c_log c') as Esub by (rewrite Elog; set_solver).
  assert (forall ev, ev ∈ c_log c' -> ev ∈ c_log c \/ ev = EvSet g id w) as Hin.
  { intros ev. rewrite Elog. intros [->|?]%elem_of_cons; auto. }
  assert (forall g', g' <> g -> extends g' (c_log c) (c_log c')) as Hext.
  { intros g' Hne. rewrite Elog. apply extends_cons; [apply extends_refl|cbn; congruence]. }
  destruct (G6 g w Hl) as [Hns [id0 Hret]]. destruct (G1 _ g id0 Hret eq_refl) as (r0 & Hr0 & Hid0). rewrite Hg in Hr0. injection Hr0 as <-. cbn in Hid0. subst id0.
  pose proof (ci_loop c V) as Hlo. rewrite Hl in Hlo. destruct Hlo as (r & Hr & Hp). rewrite Hg in Hr. injection Hr as <-. cbn in Hp.
  split; rewrite ?Eg, ?Ee, ?Ew.
  - intros ev g' id' Hev Ha. destruct (Hin ev Hev) as [H| ->]; [by eapply G1|]. injection Ha as <- <-. eauto.
  - intros g' id' f' x' p0 Hg'. destruct (decide (g' = g)) as [->|Hne].
    + specialize (G2 _ _ _ _ _ Hg'). rewrite Hg in Hg'. injection Hg' as <- <- <- <-.
      destruct Hp as [->|[->|[e ->]]]; cbn in *.
      * by apply Esub.
      * destruct G2 as [w' G2]. exists w'. by apply Esub.
      * eapply finish_mono'; [done| |done]. intros (a & b & t & H). exists a, b, t. by destruct (Hin _ H).
    + eapply gor_ok_mono; [by eapply G2|by apply Hext|by rewrite En].
  - intros g' id' f' d' t H. eapply (G3 g' id' f' d' t). by destruct (Hin _ H).
  - intros g' e H. destruct (G4 g' e H) as [id' Hi']. exists id'. by apply Esub.
  - intros g' id' e H. apply (G5 g' id' e). by destruct (Hin _ H).
  - intros g' w' H. by destruct (El g' w').
  - intros g' id' w' H. apply Esub. destruct (Hin _ H) as [H'|[= -> -> ->]]; [by apply G7|done].
  - intros id' i' g' w' H Hw. apply lookup_insert_Some in H as [[<- <-]|[Hne H]].
    + injection Hw as <- <-. rewrite Elog. by left.
    + apply Esub. eauto.
  - intros g' id' w' r i' Hs Hr Hp0 Hi'. destruct (Hin _ Hs) as [Hs'|[= -> -> ->]].
    + apply lookup_insert_Some in Hi' as [[<- <-]|[Hne Hi']].
      * destruct (G1 _ g' id Hs' eq_refl) as (r' & Hr' & Hid'). rewrite Hr in Hr'. injection Hr' as <-.
        assert (g' = g) as ->. { eapply (ci_uniq c V g' g); [done|done|done|done|]. cbn. naive_solver. }
        destruct Hns. by exists id, w'.
      * destruct (G9 g' id' w' r i' Hs' Hr Hp0 Hi'); [by left|right; by apply Esub].
    + rewrite lookup_insert in Hi'. injection Hi' as <-. by left.
Qed.

Lemma gor_log_trans P c c' : cinv c -> tomb_log c -> gor_log c -> ctrans P c c' -> gor_log c'.
Proof.
  intros V T G HT. pose proof G as [G1 G2 G3 G4 G5 G6 G7 G8 G9].
  assert (forall evs, (forall ev, ev ∈ evs -> about ev = None) -> forall ev, ev ∈ evs ++ c_log c -> about ev <> None ->
    ev ∈ c_log c \/ exists id i g w, c_workers c !! id = Some i /\ i_worker i = Some (g, w) /\ ev = EvKill g id w) as Hnew.
  { intros evs H ev [Hev|Hev]%elem_of_app Ha; [by destruct (Ha (H ev Hev))|by left]. }
  assert (forall id i g w, c_workers c !! id = Some i -> i_worker i = Some (g, w) -> exists i0, c_workers c !! id = Some i0 /\ i_worker i0 = Some (g, w)) as Hw1 by eauto.
  assert (forall L id i', c_workers c !! id = Some i' -> (exists i, c_workers c !! id = Some i /\ i_worker i = i_worker i') \/ (exists i, c_workers c !! id = Some i /\ i_worker i' = None /\
     forall g w, i_worker i = Some (g, w) -> EvKill g id w ∈ (L : list event)) \/ (forall g r, c_gors c !! g = Some r -> w_id r = id -> w_pc r = WGone)) as Hw2 by eauto 10.
  assert (forall ev, ev ∈ c_log c -> about ev <> None -> ev ∈ c_log c \/ exists id i g w, c_workers c !! id = Some i /\ i_worker i = Some (g, w) /\ ev = EvKill g id w) as Hnew0 by auto.
  Ltac gfr G Hw1 Hw2 := refine (gor_log_frame _ _ G _ _ _ _ _ _ _ _); [reflexivity|reflexivity|try reflexivity| | | |exact Hw1|exact (Hw2 _)].
  destruct HT.
  - exact G.
  - gfr G Hw1 Hw2; [set_solver| |by right]. apply (Hnew [EvKilled]). by intros ev ->%elem_of_list_singleton.
  - gfr G Hw1 Hw2; [cbn; lia|done|exact Hnew0|by right].
  - gfr G Hw1 Hw2; [set_solver| |by right]. apply (Hnew [EvCtx i]). by intros ev ->%elem_of_list_singleton.
  - gfr G Hw1 Hw2; [done|exact Hnew0|by right].
  - gfr G Hw1 Hw2; [set_solver| |by right]. apply (Hnew [EvClient ce]). by intros ev ->%elem_of_list_singleton.
  - gfr G Hw1 Hw2; [set_solver| |by left]. apply (Hnew [EvStopAll]). by intros ev ->%elem_of_list_singleton.
  - gfr G Hw1 Hw2; [done|exact Hnew0|by left].
  - gfr G Hw1 Hw2; [set_solver| |by left]. apply (Hnew [EvStopReq i id]). by intros ev ->%elem_of_list_singleton.
  - eapply (gor_log_move c _ g id f x _ _ [] G H1); try done; [by left| |].
    + by destruct (G2 _ _ _ _ _ H1).
    + intros g' w' [= <- <-]. right. destruct (G2 _ _ _ _ _ H1). eauto.
  - eapply (gor_log_move c _ g id f x _ _ [] G H1); try done; [by left|]. exact (G2 _ _ _ _ _ H1).
  - (* killall *) refine (gor_log_frame _ _ G _ _ _ _ _ _ _ _); [done..| | |by left| |].
    + cbn. set_solver.
    + cbn. intros ev Hev _. apply in_kae in Hev. naive_solver.
    + cbn. intros id i g w. rewrite lookup_fmap, fmap_Some. intros (j & Hj & ->). done.
    + cbn. intros id i. rewrite lookup_fmap, fmap_Some. intros (j & Hj & ->). right. left. exists j. split_and!; [done|done|].
      intros g w Hw. apply in_kae. left. eauto 10.
  - gfr G Hw1 Hw2; [set_solver| |by left]. apply (Hnew [EvAnswer i id f None]). by intros ev ->%elem_of_list_singleton.
  - gfr G Hw1 Hw2; [set_solver| |by left]. apply (Hnew [EvAnswer i id f r]). by intros ev ->%elem_of_list_singleton.
  - (* new *) set (c1 := set_loop (LDo ABcast) (c <| c_workers := <[id := mkWInfo None (Some f) (r_delay P) false (c_inst c) (c_now c)]> (c_workers c) |> <| c_log := EvKnown id f (c_inst c) :: EvAnswer i id f None :: c_log c |>)).
    assert (gor_log c1) as Hc1.
    { refine (gor_log_frame c c1 G _ _ _ _ _ _ _ _); [done..| | |by left| |]; cbn.
      - set_solver.
      - apply (Hnew [_; _]). intros ev. rewrite !elem_of_cons, elem_of_nil. naive_solver.
      - intros id' n g w Hn Hw. apply lookup_insert_Some in Hn as [[<- <-]|[Hne Hn]]; [done|]. eauto.
      - intros id' n Hn. apply lookup_insert_Some in Hn as [[<- <-]|[Hne Hn]]; [|eauto 10].
        right. right. intros g r Hr Hi. assert (w_pc r = WGone \/ w_pc r <> WGone) as [|Hp] by (destruct (w_pc r); auto); [done|]. destruct (proj2 (ci_act c V id)) as [n Hn]; [eauto 10|]. congruence. }
    eapply (gor_log_new c1 _ (c_next c) id f (Some i) 0 Hc1); try done. exact (fresh_next c V).
  - gfr G Hw1 Hw2; [done|exact Hnew0|by left].
  - gfr G Hw1 Hw2; [done|exact Hnew0|by left].
  - (* stop *) refine (gor_log_frame _ _ G _ _ _ _ _ _ _ _); [done..| | |by left| |].
    + cbn. set_solver.
    + cbn. intros ev Hev _. apply in_ke in Hev as [(g & w & Hw & ->)|]; eauto 10.
    + cbn. intros id' n g w Hn Hw. apply lookup_insert_Some in Hn as [[<- <-]|[Hne Hn]]; [done|]. eauto.
    + cbn. intros id' n Hn. apply lookup_insert_Some in Hn as [[<- <-]|[Hne Hn]]; [|eauto 10]. right. left. exists i. split_and!; [done|done|].
      intros g w Hw. apply in_ke. left. eauto 10.
  - by eapply (gor_log_set c).
  - (* set kill *) set (c1 := set_loop (LDo ABcast) (c <| c_workers := <[id := i <| i_worker := Some (g, w) |>]> (c_workers c) |> <| c_log := EvSet g id w :: c_log c |>)).
    assert (gor_log c1) as Hc1 by (by eapply (gor_log_set c)).
    refine (gor_log_frame c1 _ Hc1 _ _ _ _ _ _ _ _); [done..| | |by left| |]; cbn.
    + set_solver.
    + intros ev [->|Hev]%elem_of_cons _; [right|by left]. exists id, (i <| i_worker := Some (g, w) |>), g, w. by rewrite lookup_insert.
    + intros id' n h z Hn Hw. apply lookup_insert_Some in Hn as [[<- <-]|[Hne Hn]]; [done|]. rewrite lookup_insert_ne by done. eauto.
    + intros id' n Hn. apply lookup_insert_Some in Hn as [[<- <-]|[Hne Hn]].
      * right. left. exists (i <| i_worker := Some (g, w) |>). rewrite lookup_insert. split_and!; [done|done|]. cbn. intros ? ? [= <- <-]. by left.
      * left. rewrite lookup_insert_ne by done. eauto.
  - (* remove *) set (c1 := set_loop (LDo ABcast) (put g (mkWGor id f x WGone) c <| c_log := EvDone g id e (c_now c) :: c_log c |>)).
    assert (gor_log c1) as Hc1.
    { eapply (gor_log_move c c1 g id f x (WTaken e) WGone [EvDone g id e (c_now c)] G H0); try done; [eauto 10|].
      exists e, (c_now c). split; [by left|]. eapply finish_mono; [|exact (G2 _ _ _ _ _ H0)]. apply extends_cons; [apply extends_refl|cbn; tauto]. }
    refine (gor_log_frame c1 _ Hc1 _ _ _ _ _ _ _ _); [done..| | |by left| |]; cbn.
    + set_solver.
    + intros ev [->|Hev]%elem_of_cons Ha; [done|by left].
    + intros id' n h z Hn Hw. apply lookup_delete_Some in Hn as [_ Hn]. eauto.
    + intros id' n Hn. apply lookup_delete_Some in Hn as [_ Hn]. eauto.
  - (* fatal *) set (c1 := set_loop (LDo ABcast) (put g (mkWGor id f x WGone) c <| c_log := EvDone g id (Some y) (c_now c) :: c_log c |>)).
    assert (gor_log c1) as Hc1.
    { eapply (gor_log_move c c1 g id f x (WTaken (Some y)) WGone [EvDone g id (Some y) (c_now c)] G H0); try done; [eauto 10|].
      exists (Some y), (c_now c). split; [by left|]. eapply finish_mono; [|exact (G2 _ _ _ _ _ H0)]. apply extends_cons; [apply extends_refl|cbn; tauto]. }
    refine (gor_log_frame c1 _ Hc1 _ _ _ _ _ _ _ _); [done..| | | | |]; cbn.
    + set_solver.
    + intros ev Hev Ha. left. apply elem_of_app in Hev as [Hev|[->|Hev]%elem_of_cons]; [|done|done]. destruct (c_dying c); [by apply elem_of_nil in Hev|]. by apply elem_of_list_singleton in Hev as ->.
    + left. by destruct (c_dying c).
    + intros id' n h z Hn Hw. apply lookup_delete_Some in Hn as [_ Hn]. eauto.
    + intros id' n Hn. apply lookup_delete_Some in Hn as [_ Hn]. eauto.
  - (* restart *) set (c1 := set_loop (LDo ABcast) (put g (mkWGor id f x WGone) c <| c_log := EvDone g id e (c_now c) :: c_log c |>)).
    assert (gor_log c1) as Hc1.
    { eapply (gor_log_move c c1 g id f x (WTaken e) WGone [EvDone g id e (c_now c)] G H0); try done; [eauto 10|].
      exists e, (c_now c). split; [by left|]. eapply finish_mono; [|exact (G2 _ _ _ _ _ H0)]. apply extends_cons; [apply extends_refl|cbn; tauto]. }
    set (c2 := c1 <| c_workers := <[id := i <| i_delay := r_delay P |>]> (c_workers c) |>).
    assert (gor_log c2) as Hc2.
    { refine (gor_log_frame c1 c2 Hc1 _ _ _ _ _ _ _ _); [done..| | |by left| |]; cbn.
      - done.
      - by left.
      - intros id' n h z Hn Hw. apply lookup_insert_Some in Hn as [[<- <-]|[Hne Hn]]; eauto.
      - intros id' n Hn. apply lookup_insert_Some in Hn as [[<- <-]|[Hne Hn]]; eauto. }
    eapply (gor_log_new c2 _ (c_next c) id f' None (i_delay i) Hc2); try done. cbn. pose proof (fresh_next c V) as Hf. rewrite lookup_insert_ne by congruence. done.
  - gfr G Hw1 Hw2; [done|exact Hnew0|by left].
  - gfr G Hw1 Hw2; [cbn; set_solver| |by left]. apply (Hnew (if t_dead t then [EvDead] else [])). intros ev. destruct (t_dead t); [|intros He; by apply elem_of_nil in He]. by intros ->%elem_of_list_singleton.
  - eapply (gor_log_move c _ g id f x _ _ [] G H); try done; [by left| |by auto].
    destruct (G2 _ _ _ _ _ H) as ((t & Ht & Hle) & Ha & Hb). split; [|done]. exists d, t. split_and!; [done|lia|lia].
  - eapply (gor_log_move c _ g id f x _ _ [EvStartCall g id f (c_now c)] G H); try done; [eauto| |by auto].
    destruct (G2 _ _ _ _ _ H) as ((t & Ht & Hle) & Ha & Hb & Hc). cbn. split_and!.
    + exists (c_now c). by left.
    + intros (a & b & [?|Hx]%elem_of_cons); [done|]. apply Hb. by exists a, b.
    + intros (a & b & [?|Hx]%elem_of_cons); [done|]. apply Hc. by exists a, b.
  - eapply (gor_log_move c _ g id f x _ _ [EvStartCall g id f (c_now c)] G H); try done; [eauto| |by auto].
    destruct (G2 _ _ _ _ _ H) as ((t & Ht & Hle) & Ha & Hb & Hc). cbn. split_and!.
    + exists (c_now c). by left.
    + intros (a & b & [?|Hx]%elem_of_cons); [done|]. apply Hb. by exists a, b.
    + intros (a & b & [?|Hx]%elem_of_cons); [done|]. apply Hc. by exists a, b.
  - eapply (gor_log_move c _ g id f x _ _ [] G H); try done; [by left| |by auto].
    destruct (G2 _ _ _ _ _ H) as ((d' & t' & Hs1 & _ & Hs2) & Ha & _). left. split_and!; [done|done| |by exists f, d', t']. apply T; [|done].
    intros Hl. pose proof (ci_loop c V) as Hlo. rewrite Hl in Hlo. destruct Hlo as [_ Hlo].
    destruct (proj2 (ci_act c V id)) as [n Hn]; [by exists g, (mkWGor id f x (WTimer d))|]. by rewrite Hlo, lookup_empty in Hn.
  - eapply (gor_log_move c _ g id f x _ _ [EvStartRet g id r] G H); try done; [eauto| |by auto].
    destruct (G2 _ _ _ _ _ H) as (_ & Hb & Hc). destruct r as [w|y]; cbn.
    + split; [by left|]. intros (a & b & [?|Hx]%elem_of_cons); [done|]. apply Hc. by exists a, b.
    + right. left. exists y. split; [done|by left].
  - (* end *) assert (forall ev, ev ∈ EvEnd g id e :: c_log c -> ev ∈ c_log c \/ ev = EvEnd g id e) as Hin by (intros ev [->|?]%elem_of_cons; auto).
    split; cbn.
    + intros ev g' id' Hev Ha. destruct (Hin _ Hev) as [?| ->]; [by eapply G1|]. injection Ha as <- <-. eauto.
    + intros g' id' f' x' p' Hg. eapply gor_ok_mono; [by eapply G2| |done]. apply extends_cons; [apply extends_refl|cbn; tauto].
    + intros g' id' f' d t Hi. destruct (Hin _ Hi); [|done]. by eapply G3.
    + intros g' e' Hi. apply lookup_insert_Some in Hi as [[<- <-]|[Hne Hi]]; [exists id; by left|]. destruct (G4 _ _ Hi) as [id' ?]. exists id'. by right.
    + intros g' id' e' Hi. destruct (Hin _ Hi) as [Hi'|[= -> -> ->]]; [|by rewrite lookup_insert]. apply G5 in Hi'. rewrite lookup_insert_ne; [done|]. congruence.
    + intros g' w Hl. destruct (G6 g' w Hl) as [Ha [id' Hb]]. split; [|exists id'; by right]. intros (a & b & Hx). apply Ha. exists a, b. by destruct (Hin _ Hx).
    + intros g' id' w Hi. right. apply G7. by destruct (Hin _ Hi).
    + intros id' i g' w Hi Hw. right. eauto.
    + intros g' id' w r i Hs Hr Hp Hi. destruct (Hin _ Hs) as [Hs'|?]; [|done]. destruct (G9 _ _ _ _ _ Hs' Hr Hp Hi); [by left|right; by right].
  - eapply (gor_log_move c _ g id f x _ _ [] G H); try done; [by left| |by auto].
    right. right. destruct (G4 _ _ H0) as [id' Hi]. destruct (G1 _ _ _ Hi eq_refl) as (r & Hr & Hid). rewrite H in Hr. injection Hr as <-. cbn in Hid. by subst id'.
  - eapply (gor_log_move c _ g id f x _ _ [] G H); try done; [by left| |by auto]. exists w. exact (G2 _ _ _ _ _ H).
Qed.
Lemma creach_gor_log P c : creach P c -> gor_log c.
Proof.
  intros H. apply (creach_ind P (fun c => tomb_log c /\ gor_log c)); [|intros c1 c2 V [T I] _ HT; split; [by eapply tomb_log_trans|by eapply gor_log_trans]|done].
  split; [apply (creach_tomb_log P); by exists []|apply gor_log_init].
Qed.
