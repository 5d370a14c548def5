(** Every binding of a catacomb follows the automaton of C89. *)
From stdpp Require Import gmap strings list.
From Coq Require Import Lia.
From RecordUpdate Require Import RecordSet.
From Verif Require Import Err Tomb Sum Catacomb CatacombSpec CatacombInv CatacombTr CatacombLog CatacombHist CatacombThms CatacombMore CatacombLifeSpec.
Import RecordSetNotations.

(** What the goroutines of a binding say about its life. *)
Definition fit (r : bind) (p : life) : Prop :=
  match b_wait r, b_stop r with
  | VGone, SGone => exists k t, p = Released (b_worker r) k t
  | v, sp => exists k t, p = Owned (b_worker r) k t /\ match v with VWait | VKill _ => t = false | _ => True end /\
      match sp with SSelect | SKill => k = false | SWait => k = true | _ => True end
  end.
Definition lived (s : state) (b : nat) : Prop :=
  match x_binds s !! b with None => life_of (x_log s) b = NotBegun | Some r => fit r (life_of (x_log s) b) end.

Lemma life_skip evs log b : (forall ev, ev ∈ evs -> binding_of ev <> Some b) -> life_of (evs ++ log) b = life_of log b.
Proof.
  induction evs as [|ev evs IH]; intros H; [done|]. cbn. rewrite bool_decide_eq_false_2 by (apply H; by left). apply IH. intros x Hx. apply H. by right.
Qed.
Lemma life_take ev log b : binding_of ev = Some b -> life_of (ev :: log) b = next (life_of log b) ev.
Proof. intros H. cbn [life_of]. by rewrite bool_decide_eq_true_2. Qed.
Lemma lived_quiet s s' evs : (forall b, lived s b) -> x_binds s' = x_binds s -> x_log s' = evs ++ x_log s -> (forall ev, ev ∈ evs -> binding_of ev = None) -> forall b, lived s' b.
Proof. intros H Hb Hl He b. specialize (H b). unfold lived in *. rewrite Hb, Hl, life_skip; [done|]. intros ev Hev. by rewrite He. Qed.
Lemma lived_bind s s' b0 evs r : (forall b, lived s b) -> (forall b, x_binds s' !! b = <[b0 := r]> (x_binds s) !! b) -> x_log s' = evs ++ x_log s ->
  (forall ev b, ev ∈ evs -> binding_of ev = Some b -> b = b0) -> (lived s b0 -> fit r (life_of (evs ++ x_log s) b0)) -> forall b, lived s' b.
Proof.
  intros H Hb Hl He H0 b. unfold lived. rewrite Hb, Hl. destruct (decide (b0 = b)) as [<-|Hne].
  - rewrite lookup_insert. by apply H0.
  - rewrite lookup_insert_ne by done. specialize (H b). unfold lived in H. rewrite life_skip; [done|]. intros ev Hev Hx. apply Hne. symmetry. by eapply He.
Qed.
Ltac quiet H evs := apply (lived_quiet _ _ evs H); [reflexivity|reflexivity|intros ev Hev; repeat (apply elem_of_cons in Hev as [->|Hev]; [reflexivity|]); by apply elem_of_nil in Hev].
Lemma kres_ev me src e t t' p ev : kres me src e t t' p ev -> ev = EvKill src e \/ ev = EvKillPanic src e.
Proof. intros []; auto. Qed.

Lemma fit_start w : fit (mkBind w VWait SSelect) (Owned w false false).
Proof. by exists false, false. Qed.
(** A binding was never made before. *)
Lemma fresh_bind s : cinv s -> (forall b, lived s b) -> life_of (x_log s) (x_next s) = NotBegun.
Proof.
  intros V H. specialize (H (x_next s)). unfold lived in H. destruct (x_binds s !! x_next s) as [r|] eqn:Hb; [|done].
  pose proof (c_next s V _ (mk_is_Some _ _ Hb)). lia.
Qed.
Ltac at_ Hb H := unfold lived in H; rewrite Hb in H.
Lemma lived_tr me s l s' : cinv s -> (forall b, lived s b) -> tr me s l s' -> forall b, lived s' b.
Proof.
  intros V H HT. destruct HT as [i p Hi|i p e Hi Hv|i p Hi Hv|i p Hi Hd|i p Hi Hd|i Hi|i ws Hi|i w ws Hi|i Hi|i Hi|i r Hi|i ws r Hi|i w ws r Hi|i w ws r e Hi Hw|i w Hi|i w Hi Hl|i w ch Hi Hd|i w Hi|i w e Hi Hw
    |e t p ev Hh Hk|w Hl|n Hl Hd Hn|e Hw Hh|v Hw|Hw|e t p ev Hw Hk|g Hw Hn|Hw|b w p e Hb Hw|b w p Hb Hw|b w p e t c ev Hb Hk|b w p Hb|b w p n Hb Hn|b w v Hb Hd|b w v Hb Hv|b w v Hb|b w v e Hb Hw|b w v n Hb Hn|n e Hn Hh|e Hw|].
  - quiet H [EvInvoke i p].
  - quiet H (@nil event).
  - quiet H (@nil event).
  - quiet H (@nil event).
  - quiet H [EvUsed i].
  - quiet H (@nil event).
  - quiet H (@nil event).
  - eapply (lived_bind _ _ (x_next s) [EvBind (x_next s) w]); [exact H|reflexivity|reflexivity| |].
    + intros ev b ->%elem_of_list_singleton. cbn. congruence.
    + intros _. cbn [app]. rewrite life_take by done. rewrite (fresh_bind s V H). apply fit_start.
  - quiet H (@nil event).
  - quiet H [EvInvoked i None; EvWork].
  - quiet H [EvInvoked i (Some r)].
  - quiet H (@nil event).
  - apply (lived_quiet _ _ (wk_evs (ByInvoke i) w) H); [done|done|]. destruct w; cbn; intros ev Hev; repeat (apply elem_of_cons in Hev as [->|Hev]; [done|]); by apply elem_of_nil in Hev.
  - quiet H (@nil event).
  - quiet H [EvAddCall i w].
  - quiet H [EvAddRet i w None].
  - quiet H (@nil event).
  - apply (lived_quiet _ _ (wk_evs (ByAdd i) w) H); [done|done|]. destruct w; cbn; intros ev Hev; repeat (apply elem_of_cons in Hev as [->|Hev]; [done|]); by apply elem_of_nil in Hev.
  - quiet H [EvAddRet i w (match e with Some _ => trace e | None => err_dying me s end)].
  - apply (lived_quiet _ _ [ev] H); [done|done|]. intros x ->%elem_of_list_singleton. by destruct (kres_ev _ _ _ _ _ _ _ Hk) as [-> | ->].
  - eapply (lived_bind _ _ (x_next s) [EvBind (x_next s) w]); [exact H|reflexivity|reflexivity| |].
    + intros ev b ->%elem_of_list_singleton. cbn. congruence.
    + intros _. cbn [app]. rewrite life_take by done. rewrite (fresh_bind s V H). apply fit_start.
  - quiet H (@nil event).
  - quiet H [EvWorkRet (WkReturn e)].
  - quiet H [EvWorkRet (WkPanic v)].
  - quiet H [EvWorkRet WkGoexit].
  - apply (lived_quiet _ _ [ev] H); [done|done|]. intros x ->%elem_of_list_singleton. by destruct (kres_ev _ _ _ _ _ _ _ Hk) as [-> | ->].
  - quiet H (@nil event).
  - quiet H [EvDead].
  - eapply (lived_bind _ _ b []); [exact H|reflexivity|reflexivity|intros ev b' Hev; by apply elem_of_nil in Hev|]. intros Hf. at_ Hb Hf. exact Hf.
  - eapply (lived_bind _ _ b []); [exact H|reflexivity|reflexivity|intros ev b' Hev; by apply elem_of_nil in Hev|]. intros Hf. at_ Hb Hf. cbn in Hf |- *. destruct Hf as (k & t0 & Hs & Hv0 & Hp0). by exists k, t0.
  - eapply (lived_bind _ _ b [ev]); [exact H|reflexivity|reflexivity| |].
    + intros x b' ->%elem_of_list_singleton. destruct (kres_ev _ _ _ _ _ _ _ Hk) as [-> | ->]; cbn; congruence.
    + intros Hf. at_ Hb Hf. destruct Hf as (k & t0 & Hs & -> & Hp). cbn in Hs. cbn [app]. destruct (kres_ev _ _ _ _ _ _ _ Hk) as [-> | ->]; rewrite life_take by done; rewrite Hs; destruct k; by eexists _, true.
  - eapply (lived_bind _ _ b []); [exact H|reflexivity|reflexivity|intros ev b' Hev; by apply elem_of_nil in Hev|]. intros Hf. at_ Hb Hf. cbn in Hf |- *. destruct Hf as (k & t0 & Hs & Hv0 & Hp0). by exists k, t0.
  - eapply (lived_bind _ _ b (gone_evs b VGone p)); [exact H|reflexivity|reflexivity| |].
    + destruct p; cbn; intros ev b' Hev; try (by apply elem_of_nil in Hev). apply elem_of_list_singleton in Hev as ->. cbn. congruence.
    + intros Hf. at_ Hb Hf. destruct Hf as (k & t & Hs & _ & Hp). cbn in Hs. destruct p; cbn [gone_evs app]; try (exists k, t; done).
      rewrite life_take by done. rewrite Hs. destruct k, t; by eexists _, _.
  - eapply (lived_bind _ _ b []); [exact H|reflexivity|reflexivity|intros ev b' Hev; by apply elem_of_nil in Hev|]. intros Hf. at_ Hb Hf. destruct v; cbn in Hf |- *; destruct Hf as (k & t0 & Hs & Hv0 & Hp0); by exists k, t0.
  - eapply (lived_bind _ _ b []); [exact H|reflexivity|reflexivity|intros ev b' Hev; by apply elem_of_nil in Hev|]. intros Hf. at_ Hb Hf. destruct v; cbn in Hf |- *; destruct Hf as (k & t0 & Hs & Hv0 & Hp0); by exists k, t0.
  - eapply (lived_bind _ _ b (wk_evs (ByBind b) w)); [exact H|reflexivity|reflexivity| |].
    + destruct w; cbn; intros ev b' Hev; repeat (apply elem_of_cons in Hev as [->|Hev]; [cbn; congruence|]); by apply elem_of_nil in Hev.
    + intros Hf. at_ Hb Hf. assert (exists t, life_of (x_log s) b = Owned w false t /\ match v with VWait | VKill _ => t = false | _ => True end) as (t & Hs & Hv).
      { destruct v; cbn in Hf; destruct Hf as (k & t & Hs & ? & ->); by exists t. }
      assert (life_of (wk_evs (ByBind b) w ++ x_log s) b = Owned w true t) as ->.
      { destruct w; cbn [wk_evs app]; [|change (life_of (EvKill FromSelf None :: EvWKill (ByBind b) WSelf :: x_log s) b) with (life_of ([EvKill FromSelf None] ++ EvWKill (ByBind b) WSelf :: x_log s) b);
          rewrite life_skip by (by intros ev ->%elem_of_list_singleton)]; rewrite life_take by done; rewrite Hs; destruct t; cbn; rewrite ?bool_decide_eq_true_2 by done; done. }
      destruct v; cbn; by exists true, t.
  - eapply (lived_bind _ _ b []); [exact H|reflexivity|reflexivity|intros ev b' Hev; by apply elem_of_nil in Hev|]. intros Hf. at_ Hb Hf. destruct v; cbn in Hf |- *; destruct Hf as (k & t0 & Hs & Hv0 & Hp0); by exists k, t0.
  - eapply (lived_bind _ _ b (gone_evs b v SGone)); [exact H|reflexivity|reflexivity| |].
    + destruct v; cbn; intros ev b' Hev; try (by apply elem_of_nil in Hev). apply elem_of_list_singleton in Hev as ->. cbn. congruence.
    + intros Hf. at_ Hb Hf. assert (exists k t, life_of (x_log s) b = Owned w k t /\ match v with VWait | VKill _ => t = false | _ => True end) as (k & t & Hs & Hv).
      { destruct v; cbn in Hf; destruct Hf as (k & t & Hs & ? & _); by exists k, t. }
      destruct v; cbn [gone_evs app]; try (exists k, t; done). rewrite life_take by done. rewrite Hs. destruct k, t; by eexists _, _.
  - quiet H [EvEnd n e].
  - quiet H [EvWait e].
  - quiet H [EvErrDying (err_dying me s)].
Qed.
Lemma reach_lived me s : reachable me s -> forall b, lived s b.
Proof. revert s. apply (reach_tr me (fun s => forall b, lived s b)); [intros b; by vm_compute|]. intros s l s' Hr V Hc H HT. by eapply lived_tr. Qed.

Lemma life_ok me s b : reachable me s -> life_of (x_log s) b <> Wrong.
Proof.
  intros Hr. pose proof (reach_lived me s Hr b) as H. unfold lived in H. destruct (x_binds s !! b) as [[w v p]|]; [|congruence].
  destruct v, p; cbn in H; destruct H as (k & t & H); solve [by rewrite H|by rewrite (proj1 H)].
Qed.
Lemma life_bound me s b w : reachable me s -> EvBind b w ∈ x_log s <-> exists k t, life_of (x_log s) b = Owned w k t \/ life_of (x_log s) b = Released w k t.
Proof.
  intros Hr. pose proof (life_ok me s b Hr) as Hok. revert Hok. generalize (x_log s). clear. intros log. induction log as [|ev log IH]; cbn; intros Hok.
  - split; [intros H; by apply elem_of_nil in H|]. intros (? & ? & [?|?]); done.
  - rewrite elem_of_cons. case_bool_decide as Hb.
    + assert (life_of log b <> Wrong) as H0. { intros Hx. rewrite Hx in Hok. done. } specialize (IH H0). rewrite IH.
      destruct (life_of log b) as [|w0 k t|w0 k t|]; try done.
      * destruct ev as [| | |b0 w1| | | | | | |[]| |b0| | |]; try done; cbn in *; simplify_eq; try (destruct src; done).
        split; [intros [[= <-]|(? & ? & [?|?])]; [by exists false, false; left|done|done]|]. intros (? & ? & [[= <- _ _]|?]); [by left|done].
      * assert (exists k' t', next (Owned w0 k t) ev = Owned w0 k' t' \/ next (Owned w0 k t) ev = Released w0 k' t') as (k' & t' & Hn).
        { destruct ev as [| | |b0 w1| | | | |src e|src e|[]| |b0| | |], k, t; cbn in Hok |- *; try done; try (case_bool_decide; [|done]); try (destruct e; [|done]); eauto. }
        assert (forall b1 w1, ev <> EvBind b1 w1) as Hne. { intros b1 w1 ->. by destruct k, t. }
        split.
        -- intros [Hx|(k1 & t1 & [[= <- _ _]|?])]; [by destruct (Hne b w)|by exists k', t'|done].
        -- intros (k1 & t1 & Hx). right. exists k, t. left. destruct Hn as [Hn|Hn]; rewrite Hn in Hx; destruct Hx as [Hx|Hx]; congruence.
    + rewrite IH by done. split; [|by right]. intros [<-|?]; [by destruct Hb|done].
Qed.
Lemma life_dead me s b w k t : reachable me s -> EvDead ∈ x_log s -> life_of (x_log s) b <> Owned w k t.
Proof.
  intros Hr Hd Hl. pose proof (reach_cinv me s Hr) as V. apply (dead_tomb me s Hr) in Hd. apply (c_dead s V) in Hd. pose proof (c_wait s V) as Hw. rewrite Hd in Hw.
  pose proof (reach_lived me s Hr b) as H. unfold lived in H. destruct (x_binds s !! b) as [r|] eqn:Hb; [|congruence].
  pose proof (bound_wg s b r V Hb) as Hle. rewrite Hw in Hle. destruct r as [w0 v p]. unfold bc in Hle. cbn in Hle. destruct v, p; try (cbn in Hle; lia). destruct H as (? & ? & H). congruence.
Qed.
Lemma life_released me s b w k t : reachable me s -> life_of (x_log s) b = Released w k t -> finished (x_log s) w.
Proof.
  intros Hr Hl. assert (EvGone b ∈ x_log s) as Hg.
  { clear Hr. revert Hl. generalize (x_log s). intros log. induction log as [|ev log IH]; cbn; [done|]. case_bool_decide as Hb; [|intros Hl; right; by apply IH].
    destruct (life_of log b) as [|w0 [] []|w0 k0 t0|], ev as [| | |b0 w1| | | | |src e|src e|[]| |b0| | |]; cbn in Hb |- *; try done;
      try (case_bool_decide; done); try (destruct e; done); try (destruct src; done); intros _; simplify_eq; by left. }
  destruct (gone_finished me s b Hr Hg) as (n & e & Hb & He). apply (life_bound me s b _ Hr) in Hb as (k' & t' & Hb).
  assert (w = WExt n) as -> by (destruct Hb; congruence). by exists e.
Qed.
