(** Every goroutine of the runner follows the automaton of C89. *)
From stdpp Require Import gmap strings list.
From Coq Require Import ZArith Lia.
From RecordUpdate Require Import RecordSet.
From Verif Require Import Err Tomb Runner RunnerSpec RunnerInv RunnerLog RunnerGor RunnerHist RunnerThms RunnerLifeSpec.
Import RecordSetNotations.

Definition fit (a : option nat) (e : bool) (p : wpc) (st : stage) : Prop :=
  match a with
  | Some w => st = Returned w e /\ match p with WWait w' => w' = w | WLost => True | WSendDone _ => e = true | _ => False end
  | None =>
    match p with
    | WBegin _ | WTimer _ => st = Planned /\ e = false
    | WStart => st = Calling /\ e = false
    | WSendStarted w => st = Returned w e
    | WWait w => exists k, st = Up w k e
    | WLost => exists w k, st = Up w k e
    | WSendDone _ | WTaken _ => st = Planned \/ st = Failed \/ exists w k, st = Up w k true /\ e = true
    | WGone => exists o, st = Gone o
    end
  end.
(** The loop is about to accept the worker of [g]. *)
Definition at_set (c : core) (g : nat) : option nat := match c_loop c with LDo (ASet g' w) => if bool_decide (g' = g) then Some w else None | _ => None end.
Definition has_ended (c : core) (g : nat) : bool := match c_ended c !! g with Some _ => true | None => false end.
Definition lived (c : core) (g : nat) : Prop :=
  match c_gors c !! g with
  | None => life_of (c_log c) g = NotBegun /\ has_ended c g = false /\ at_set c g = None
  | Some r => exists st, life_of (c_log c) g = At (w_id r) st /\ fit (at_set c g) (has_ended c g) (w_pc r) st
  end.
(** The worker of an info has not been killed by the runner. *)
Definition unkilled (st : stage) (w : nat) : Prop := (exists e, st = Up w false e) \/ st = Gone (Some w).
Definition infos (c : core) : Prop := forall id i g w, c_workers c !! id = Some i -> i_worker i = Some (g, w) ->
  exists st, life_of (c_log c) g = At id st /\ unkilled st w.
Definition lives (c : core) : Prop := (forall g, lived c g) /\ infos c.

Lemma life_skip ev log g : goroutine_of ev <> Some g -> life_of (ev :: log) g = life_of log g.
Proof. intros H. cbn. by rewrite bool_decide_eq_false_2. Qed.
Lemma life_take ev log g : goroutine_of ev = Some g -> life_of (ev :: log) g = next (life_of log g) ev.
Proof. intros H. cbn [life_of]. by rewrite bool_decide_eq_true_2. Qed.
Lemma lived_frame c c' g : lived c g -> life_of (c_log c') g = life_of (c_log c) g -> c_gors c' !! g = c_gors c !! g -> c_ended c' !! g = c_ended c !! g -> at_set c' g = at_set c g -> lived c' g.
Proof. unfold lived, has_ended. intros H -> -> -> ->. done. Qed.
(** Nothing about goroutines happens. *)
Lemma lives_quiet c c' evs : lives c -> c_log c' = evs ++ c_log c -> (forall ev, ev ∈ evs -> goroutine_of ev = None) -> c_gors c' = c_gors c -> c_ended c' = c_ended c ->
  (forall g, at_set c' g = at_set c g) -> c_workers c' = c_workers c -> lives c'.
Proof.
  intros [H I] Hl He Hg Hd Ha Hw. assert (forall g, life_of (c_log c') g = life_of (c_log c) g) as Hx.
  { intros g. rewrite Hl. clear Hl. induction evs as [|ev evs IH]; [done|]. cbn [app]. rewrite life_skip; [|rewrite He by (by left); done]. apply IH. intros x Hin. apply He. by right. }
  split.
  - intros g. apply (lived_frame c); [done|done|by rewrite Hg|by rewrite Hd|done].
  - intros id i g w. rewrite Hw, Hx. apply I.
Qed.
(** One goroutine moves. *)
Definition sub_infos (m' m : gmap string winfo) : Prop := forall id i g w, m' !! id = Some i -> i_worker i = Some (g, w) -> exists i', m !! id = Some i' /\ i_worker i' = Some (g, w).
Lemma sub_refl m : sub_infos m m.
Proof. intros id i g w Hi Hw. by exists i. Qed.
Lemma lives_move c c' g0 : lives c -> sub_infos (c_workers c') (c_workers c) -> (forall g, g <> g0 -> c_gors c' !! g = c_gors c !! g) -> (forall g, g <> g0 -> c_ended c' !! g = c_ended c !! g) ->
  (forall g, g <> g0 -> life_of (c_log c') g = life_of (c_log c) g) -> (forall g, g <> g0 -> at_set c' g = at_set c g) ->
  (forall id st w, life_of (c_log c) g0 = At id st -> unkilled st w -> exists st', life_of (c_log c') g0 = At id st' /\ unkilled st' w) -> lived c' g0 -> lives c'.
Proof.
  intros [H I] Hw Hg Hd Hl Ha Hk H0. split.
  - intros g. destruct (decide (g = g0)) as [->|Hne]; [done|]. apply (lived_frame c); auto.
  - intros id i g w Hi' Hwk'. destruct (Hw _ _ _ _ Hi' Hwk') as (i' & Hi & Hwk). destruct (I id i' g w Hi Hwk) as (st & Hs & Hu). destruct (decide (g = g0)) as [->|Hne]; [by eapply Hk|].
    exists st. by rewrite Hl.
Qed.

(** Kill of the workers in some of the infos. *)
Lemma kill_life m l log g : NoDup l ->
  (forall id i w, m !! id = Some i -> i_worker i = Some (g, w) -> exists st, life_of log g = At id st) ->
  (life_of (kill_all_events m l ++ log) g = life_of log g /\ forall id i w, id ∈ l -> m !! id = Some i -> i_worker i <> Some (g, w)) \/
  (exists id i w, id ∈ l /\ m !! id = Some i /\ i_worker i = Some (g, w) /\ life_of (kill_all_events m l ++ log) g = next (life_of log g) (EvKill g id w)).
Proof.
  intros Hnd Hat. induction l as [|id l IH]; [left; split; [done|]; intros id i w Hin; by apply elem_of_nil in Hin|].
  apply NoDup_cons in Hnd as [Hni Hnd]. cbn [kill_all_events]. rewrite <- app_assoc.
  destruct (m !! id) as [i|] eqn:Hi; cbn [app].
  - unfold kill_events. destruct (i_worker i) as [[g' w]|] eqn:Hw; cbn [app].
    + destruct (decide (g' = g)) as [->|Hne].
      * right. exists id, i, w. split; [by left|]. split; [done|]. split; [done|]. rewrite life_take by done. f_equal.
        destruct (IH Hnd) as [[H _]|(id' & i' & w' & Hin & Hi' & Hw' & _)]; [done|]. destruct (Hat _ _ _ Hi Hw) as (st & Hs). destruct (Hat _ _ _ Hi' Hw') as (st' & Hs').
        assert (id' = id) by congruence. by subst.
      * rewrite life_skip by (cbn; congruence). destruct (IH Hnd) as [[H Hn]|(id' & i' & w' & Hin & Hx)].
        -- left. split; [done|]. intros id' i' w' [->|Hin]%elem_of_cons Hi'; [congruence|by eapply Hn].
        -- right. exists id', i', w'. split; [by right|done].
    + destruct (IH Hnd) as [[H Hn]|(id' & i' & w' & Hin & Hx)].
      * left. split; [done|]. intros id' i' w' [->|Hin]%elem_of_cons Hi'; [congruence|by eapply Hn].
      * right. exists id', i', w'. split; [by right|done].
  - destruct (IH Hnd) as [[H Hn]|(id' & i' & w' & Hin & Hx)].
    + left. split; [done|]. intros id' i' w' [->|Hin]%elem_of_cons Hi'; [congruence|by eapply Hn].
    + right. exists id', i', w'. split; [by right|done].
Qed.
Lemma kill_next id st g w log : life_of log g = At id st -> unkilled st w -> exists st', next (life_of log g) (EvKill g id w) = At id st' /\
  ((exists e, st = Up w false e /\ st' = Up w true e) \/ (st = Gone (Some w) /\ st' = Gone None)).
Proof.
  intros -> [(e & ->)| ->]; cbn; rewrite !bool_decide_eq_true_2 by done; eexists; (split; [done|]); eauto.
Qed.
Lemma fit_kill a e p st st' w : fit a e p st -> ((exists e, st = Up w false e /\ st' = Up w true e) \/ (st = Gone (Some w) /\ st' = Gone None)) -> fit a e p st'.
Proof.
  intros Hf Hk. destruct a as [w0|]; [destruct Hf as [-> _]; naive_solver|].
  destruct p; cbn in Hf |- *; destruct Hk as [(e' & -> & ->)|[-> ->]]; naive_solver.
Qed.
Lemma lived_killed c c' g id w : lived c g -> c_gors c' = c_gors c -> c_ended c' = c_ended c -> at_set c' g = at_set c g ->
  (exists st, life_of (c_log c) g = At id st /\ unkilled st w) -> life_of (c_log c') g = next (life_of (c_log c) g) (EvKill g id w) -> lived c' g.
Proof.
  unfold lived, has_ended. intros H -> -> -> (st & Hs & Hu) ->. destruct (kill_next id st g w _ Hs Hu) as (st' & -> & Hk).
  destruct (c_gors c !! g) as [r|]; [|destruct H; congruence]. destruct H as (st0 & Hl & Hf). rewrite Hs in Hl. injection Hl as -> ->. exists st'. split; [done|]. by eapply fit_kill.
Qed.
Lemma lives_kill c c' l : lives c -> NoDup l -> c_log c' = kill_all_events (c_workers c) l ++ c_log c -> c_gors c' = c_gors c -> c_ended c' = c_ended c -> (forall g, at_set c' g = at_set c g) ->
  (forall id i g w, c_workers c' !! id = Some i -> i_worker i = Some (g, w) -> id ∉ l /\ exists i', c_workers c !! id = Some i' /\ i_worker i' = Some (g, w)) -> lives c'.
Proof.
  intros [H I] Hnd Hl Hg Hd Ha Hw.
  assert (forall g, (life_of (c_log c') g = life_of (c_log c) g) \/ exists id i w, id ∈ l /\ c_workers c !! id = Some i /\ i_worker i = Some (g, w) /\ life_of (c_log c') g = next (life_of (c_log c) g) (EvKill g id w)) as Hk.
  { intros g. rewrite Hl. destruct (kill_life (c_workers c) l (c_log c) g Hnd) as [[Hx _]|Hx]; [|by left|by right]. intros id i w Hi Hwk. destruct (I _ _ _ _ Hi Hwk) as (st & Hs & _). by exists st. }
  split.
  - intros g. destruct (Hk g) as [Hx|(id & i & w & Hin & Hi & Hwk & Hx)].
    + apply (lived_frame c); [done|done|by rewrite Hg|by rewrite Hd|done].
    + apply (lived_killed c c' g id w); [done|done|done|done|by eapply I|done].
  - intros id i g w Hi' Hwk'. destruct (Hw _ _ _ _ Hi' Hwk') as (Hni & i' & Hi & Hwk). destruct (I _ _ _ _ Hi Hwk) as (st & Hs & Hu).
    destruct (Hk g) as [Hx|(id2 & i2 & w2 & Hin & Hi2 & Hwk2 & Hx)]; [exists st; by rewrite Hx|].
    destruct (I _ _ _ _ Hi2 Hwk2) as (st2 & Hs2 & _). rewrite Hs in Hs2. injection Hs2 as -> _. done.
Qed.

Lemma at_set_none c g : (forall g' w, c_loop c <> LDo (ASet g' w)) -> at_set c g = None.
Proof. intros H. unfold at_set. destruct (c_loop c) as [|[]| |]; try done. by destruct (H g0 w). Qed.
Lemma at_set_loop c c' g : c_loop c' = c_loop c -> at_set c' g = at_set c g.
Proof. unfold at_set. by intros ->. Qed.
(** Nothing about goroutines happens, and the loop goes from one place to another, neither being the acceptance of a worker. *)
Ltac quiet H evs := apply (lives_quiet _ _ evs H); [reflexivity|intros ev Hev; repeat (apply elem_of_cons in Hev as [->|Hev]; [reflexivity|]); by apply elem_of_nil in Hev|reflexivity|reflexivity|
  intros g0; try (by apply at_set_loop); rewrite !at_set_none by (cbn; congruence); reflexivity|reflexivity].

(** One goroutine moves on. *)
Lemma lives_gor c c' g r r' : lives c -> c_gors c !! g = Some r -> w_id r' = w_id r -> c_gors c' !! g = Some r' -> (forall g', g' <> g -> c_gors c' !! g' = c_gors c !! g') ->
  sub_infos (c_workers c') (c_workers c) -> (forall g', g' <> g -> at_set c' g' = at_set c g') -> (forall g', g' <> g -> c_ended c' !! g' = c_ended c !! g') ->
  (forall g', g' <> g -> life_of (c_log c') g' = life_of (c_log c) g') ->
  (forall st, life_of (c_log c) g = At (w_id r) st -> fit (at_set c g) (has_ended c g) (w_pc r) st -> exists st', life_of (c_log c') g = At (w_id r) st' /\
    fit (at_set c' g) (has_ended c' g) (w_pc r') st' /\ forall w, unkilled st w -> unkilled st' w) -> lives c'.
Proof.
  intros L Hg Hid Hg' Hgs Hw Ha Hd Hl Hm. pose proof (proj1 L g) as H0. unfold lived in H0. rewrite Hg in H0. destruct H0 as (st & Hs & Hf).
  destruct (Hm st Hs Hf) as (st' & Hs' & Hf' & Hu). apply (lives_move c c' g); [done|done|done|done|done|done| |].
  - intros id st0 w Hx Hux. rewrite Hs in Hx. injection Hx as <- <-. exists st'. auto.
  - unfold lived. rewrite Hg', Hid. by exists st'.
Qed.
Lemma life_here ev log g id st : life_of log g = At id st -> goroutine_of ev = Some g -> id_of ev = id -> life_of (ev :: log) g = arrow id st ev.
Proof. intros Hs Hg Hi. rewrite life_take by done. rewrite Hs. unfold next. rewrite bool_decide_eq_true_2 by done. done. Qed.
Lemma unk_not st w : unkilled st w -> st <> Planned /\ st <> Calling /\ st <> Failed.
Proof. intros [(e & ->)| ->]; done. Qed.

Lemma fit_accept w e p k : match p with WWait w' => w' = w | WLost => True | WSendDone _ => e = true | _ => False end -> fit None e p (Up w k e).
Proof. destruct p; cbn; try done; [intros ->; by exists k|intros ->; right; right; by exists w, k|]. intros _; by exists w, k. Qed.
Lemma done_arrow g id e t b st : fit None b (WTaken e) st -> exists o, arrow id st (EvDone g id e t) = At id (Gone o) /\ forall w, unkilled st w -> unkilled (Gone o) w.
Proof.
  intros [-> |[-> |(w & k & -> & ->)]]; [exists None; split; [done|]; intros w Hunk%unk_not; naive_solver|exists None; split; [done|]; intros w Hunk%unk_not; naive_solver|].
  eexists. split; [reflexivity|]. intros w' [(e' & [= -> -> _])|?]; [by right|done].
Qed.
Lemma end_arrow a g id e p st : (exists w, p = WSendStarted w \/ p = WWait w) -> fit a false p st ->
  exists st', arrow id st (EvEnd g id e) = At id st' /\ fit a true p st' /\ forall w, unkilled st w -> unkilled st' w.
Proof.
  intros (w & Hp) Hf. destruct a as [w0|].
  - destruct Hf as [-> Hf]. exists (Returned w0 true). split; [done|]. split; [by destruct Hp as [-> | ->]|]. intros w' [(? & ?)|?]; done.
  - destruct Hp as [-> | ->]; cbn in Hf.
    + subst. exists (Returned w true). split; [done|]. split; [done|]. intros w' [(? & ?)|?]; done.
    + destruct Hf as (k & ->). exists (Up w k true). split; [done|]. split; [by exists k|]. intros w' [(? & [= -> -> _])|?]; [left; by eexists|done].
Qed.
Lemma fit_exit w a e st : fit a true (WWait w) st -> fit a true (WSendDone e) st.
Proof. destruct a; cbn; [intros [-> ->]; done|]. intros (k & ->). right; right. by exists w, k. Qed.
Lemma fit_lost w a e st : fit a e (WWait w) st -> fit a e WLost st.
Proof. destruct a; cbn; [intros [-> ->]; done|]. intros (k & ->). by exists w, k. Qed.
Lemma noset c g id f x p : cinv c -> c_gors c !! g = Some (mkWGor id f x p) -> match p with WBegin _ | WTimer _ | WStart | WSendStarted _ | WTaken _ | WGone => True | _ => False end -> at_set c g = None.
Proof.
  intros V Hg Hp. pose proof (ci_loop c V) as Hl. unfold at_set. destruct (c_loop c) as [|[]| |]; try done. destruct Hl as (r & Hr & Hx).
  case_bool_decide as Hc; [|done]. subst. rewrite Hg in Hr. injection Hr as <-. cbn in Hx. exfalso. destruct Hx as [-> |[-> |(e & ->)]]; done.
Qed.
Ltac gor_step L Hg := match type of Hg with c_gors ?c !! ?g = _ =>
  eapply (lives_gor c _ g); [exact L|exact Hg| |apply lookup_insert|intros g' Hne; cbn; by rewrite lookup_insert_ne|apply sub_refl|intros g' Hne; by apply at_set_loop|done|
    intros g' Hne; cbn -[life_of]; rewrite ?life_skip by (cbn; congruence); done|]; [done|] end.

Lemma lives_trans P c c' : cinv c -> lives c -> ctrans P c c' -> lives c'.
Proof.
  intros V L HT. destruct HT as [Hd|Hd|d Hd|i|d Hd|ce|Hl Hf Hw Hd|i id f Hl Hf|i id Hl Hf|g id f x w Hl Hf Hg|g id f x e Hl Hf Hg|Hl|i id f Hl Hd|i id f n Hl Hd Hn r|i id f Hl Hd Hn|i r Hl|id Hl Hn|id i Hl Hi
    |g id f x p w i Hl Hg Hi Hd Hst|g id f x p w i Hl Hg Hi Hd|g id f x e i Hl Hg Hi He Hr|g id f x y i Hl Hg Hi Hfa|g id f x e i f' Hl Hg Hi Hr Hst|Hl|Hl Hf t|g id f x d Hg Hd|g id f x d Hg Hd|g id f x d Hg Hd|g id f x d Hg Hd
    |g id f x r Hg|g id f x p e Hg Hp He|g id f x w e Hg He|g id f x w Hg].
  - done.
  - quiet L [EvKilled].
  - quiet L (@nil event).
  - quiet L [EvCtx i].
  - quiet L (@nil event).
  - quiet L [EvClient ce].
  - quiet L [EvStopAll].
  - quiet L (@nil event).
  - quiet L [EvStopReq i id].
  - (* recvstarted *) eapply (lives_gor c _ g); [exact L|exact Hg| |apply lookup_insert|intros g' Hne; cbn; by rewrite lookup_insert_ne|apply sub_refl| |done|done|]; [done| |].
    + intros g' Hne. unfold at_set. cbn. rewrite Hl. by rewrite bool_decide_eq_false_2.
    + intros st Hs Hfit. exists st. split; [done|]. split; [|done]. rewrite (at_set_none c) in Hfit by congruence. unfold at_set. cbn. rewrite bool_decide_eq_true_2 by done. cbn in *. done.
  - (* recvdone *) eapply (lives_gor c _ g); [exact L|exact Hg| |apply lookup_insert|intros g' Hne; cbn; by rewrite lookup_insert_ne|apply sub_refl| |done|done|]; [done| |].
    + intros g' Hne. rewrite !at_set_none by (cbn; congruence). done.
    + intros st Hs Hfit. exists st. split; [done|]. split; [|done]. rewrite (at_set_none c) in Hfit by congruence. rewrite at_set_none by (cbn; congruence). exact Hfit.
  - (* killall *) eapply (lives_kill c _ (elements (dom (c_workers c)))); [done|apply NoDup_elements|reflexivity|done|done|intros g; rewrite !at_set_none by (cbn; congruence); done|].
    intros id i g w Hi Hwk. cbn in Hi. rewrite lookup_fmap in Hi. apply fmap_Some in Hi as (i' & _ & ->). done.
  - quiet L [EvAnswer i id f None].
  - quiet L [EvAnswer i id f r].
  - (* a new worker *)
    assert (c_gors c !! c_next c = None) as Hfresh. { destruct (c_gors c !! c_next c) as [r|] eqn:Hr; [|done]. pose proof (ci_fresh c V _ _ Hr). lia. }
    pose proof (proj1 L (c_next c)) as H0. unfold lived in H0. rewrite Hfresh in H0. destruct H0 as (Hs & Hen & Hat).
    apply (lives_move c _ (c_next c)); [done| |intros g' Hne; cbn; by rewrite lookup_insert_ne|done|intros g' Hne; cbn; rewrite bool_decide_eq_false_2 by congruence; done|
      intros g' Hne; rewrite !at_set_none by (cbn; congruence); done|intros id' st w Hx; congruence|].
    + intros id' i' g' w' Hi' Hw'. cbn in Hi'. destruct (decide (id = id')) as [<-|Hne]; [rewrite lookup_insert in Hi'; by injection Hi' as <-|]. rewrite lookup_insert_ne in Hi' by done. by exists i'.
    + unfold lived. cbn -[life_of at_set has_ended fit]. rewrite lookup_insert. exists Planned. split; [rewrite life_take by done; rewrite !life_skip by done; by rewrite Hs|]. rewrite at_set_none by (cbn; congruence). done.
  - quiet L (@nil event).
  - quiet L (@nil event).
  - (* stop *) eapply (lives_kill c _ [id]); [done|apply NoDup_singleton|cbn; rewrite Hi, app_nil_r; reflexivity|done|done|intros g; rewrite !at_set_none by (cbn; congruence); done|].
    intros id' i' g w Hi' Hwk. cbn in Hi'. destruct (decide (id = id')) as [<-|Hne]; [rewrite lookup_insert in Hi'; by injection Hi' as <-|]. rewrite lookup_insert_ne in Hi' by done.
    split; [rewrite elem_of_list_singleton; congruence|by exists i'].
  - (* accept *)
    pose proof (proj1 L g) as H0. unfold lived in H0. rewrite Hg in H0. destruct H0 as (st & Hs & Hfit). assert (at_set c g = Some w) as Hat by (unfold at_set; rewrite Hl; by rewrite bool_decide_eq_true_2).
    rewrite Hat in Hfit. destruct Hfit as [-> Hp]. cbn [w_id w_pc] in *.
    assert (life_of (EvSet g id w :: c_log c) g = At id (Up w false (has_ended c g))) as Hs'. { rewrite (life_here _ _ _ _ _ Hs) by done. cbn. by rewrite bool_decide_eq_true_2. }
    split.
    + intros g'. destruct (decide (g' = g)) as [->|Hne].
      * unfold lived. cbn -[life_of at_set has_ended fit]. rewrite Hg. eexists. split; [exact Hs'|]. rewrite at_set_none by (cbn; congruence). by apply (fit_accept w).
      * apply (lived_frame c); [apply L|cbn; by rewrite bool_decide_eq_false_2 by congruence|done|done|]. rewrite at_set_none by (cbn; congruence). unfold at_set. rewrite Hl. by rewrite bool_decide_eq_false_2.
    + intros id' i' g' w' Hi' Hw'. cbn in Hi'. destruct (decide (id = id')) as [<-|Hne].
      * rewrite lookup_insert in Hi'. injection Hi' as <-. cbn in Hw'. injection Hw' as <- <-. eexists. split; [exact Hs'|]. left. by eexists.
      * rewrite lookup_insert_ne in Hi' by done. destruct (proj2 L _ _ _ _ Hi' Hw') as (st' & Hst' & Hu). exists st'. split; [|done]. cbn -[life_of]. rewrite life_skip; [done|]. cbn. congruence.
  - (* accept and kill *)
    pose proof (proj1 L g) as H0. unfold lived in H0. rewrite Hg in H0. destruct H0 as (st & Hs & Hfit). assert (at_set c g = Some w) as Hat by (unfold at_set; rewrite Hl; by rewrite bool_decide_eq_true_2).
    rewrite Hat in Hfit. destruct Hfit as [-> Hp]. cbn [w_id w_pc] in *.
    assert (life_of (EvKill g id w :: EvSet g id w :: c_log c) g = At id (Up w true (has_ended c g))) as Hs'.
    { erewrite life_here; [|erewrite life_here; [|exact Hs|done|done]; cbn; rewrite (bool_decide_eq_true_2 (w = w)) by done; reflexivity|done|done]. cbn. by rewrite bool_decide_eq_true_2. }
    split.
    + intros g'. destruct (decide (g' = g)) as [->|Hne].
      * unfold lived. cbn -[life_of at_set has_ended fit]. rewrite Hg. eexists. split; [exact Hs'|]. rewrite at_set_none by (cbn; congruence). by apply (fit_accept w).
      * apply (lived_frame c); [apply L|cbn; by rewrite !bool_decide_eq_false_2 by congruence|done|done|]. rewrite at_set_none by (cbn; congruence). unfold at_set. rewrite Hl. by rewrite bool_decide_eq_false_2.
    + intros id' i' g' w' Hi' Hw'. cbn in Hi'. destruct (decide (id = id')) as [<-|Hne].
      * rewrite lookup_insert in Hi'. by injection Hi' as <-.
      * rewrite lookup_insert_ne in Hi' by done. destruct (proj2 L _ _ _ _ Hi' Hw') as (st' & Hst' & Hu). exists st'. split; [|done]. cbn -[life_of].
        assert (g' <> g). { intros ->. rewrite Hs in Hst'. congruence. } rewrite !life_skip; [done| |]; cbn; congruence.
  - (* the end, removed *)
    eapply (lives_gor c _ g); [exact L|exact Hg| |apply lookup_insert|intros g' Hne; cbn; by rewrite lookup_insert_ne| | |done| |].
    + done.
    + intros id' i' g' w' Hi' Hw'. cbn in Hi'. apply lookup_delete_Some in Hi' as [_ Hi']. by exists i'.
    + intros g' Hne. rewrite !at_set_none by (cbn; congruence). done.
    + intros g' Hne. cbn -[life_of]. rewrite !life_skip; [done|cbn; congruence|done].
    + intros st Hs Hfit. rewrite at_set_none in Hfit by congruence. rewrite at_set_none by (cbn; congruence). destruct (done_arrow g id e (c_now c) _ _ Hfit) as (o & Ho & Hu).
      exists (Gone o). split; [|split; [by eexists|done]]. cbn -[life_of]. rewrite life_skip by done. by rewrite (life_here _ _ _ _ _ Hs).
  - (* the end, fatal *)
    eapply (lives_gor c _ g); [exact L|exact Hg| |apply lookup_insert|intros g' Hne; cbn; by rewrite lookup_insert_ne| | |done| |].
    + done.
    + intros id' i' g' w' Hi' Hw'. cbn in Hi'. apply lookup_delete_Some in Hi' as [_ Hi']. by exists i'.
    + intros g' Hne. rewrite !at_set_none; [done|congruence|cbn; by destruct (c_dying c)].
    + intros g' Hne. cbn -[life_of]. destruct (c_dying c); cbn -[life_of]; rewrite ?life_skip; try done; cbn; congruence.
    + intros st Hs Hfit. rewrite at_set_none in Hfit by congruence. rewrite at_set_none by (cbn; by destruct (c_dying c)). destruct (done_arrow g id (Some y) (c_now c) _ _ Hfit) as (o & Ho & Hu).
      exists (Gone o). split; [|split; [by eexists|done]]. cbn -[life_of]. destruct (c_dying c); cbn -[life_of]; rewrite ?(life_skip EvStopAll) by done;
        rewrite ?(life_skip (EvRemoved _ _)) by done; by rewrite (life_here _ _ _ _ _ Hs).
  - (* the end, restart *)
    assert (c_gors c !! c_next c = None) as Hfresh. { destruct (c_gors c !! c_next c) as [r|] eqn:Hr0; [|done]. pose proof (ci_fresh c V _ _ Hr0). lia. }
    pose proof (ci_fresh c V _ _ Hg) as Hlt. pose proof (proj1 L (c_next c)) as H0. unfold lived in H0. rewrite Hfresh in H0. destruct H0 as (Hs0 & Hen0 & Hat0).
    set (c1 := set_loop (LDo ABcast) (put g (mkWGor id f x WGone) c <| c_log := EvDone g id e (c_now c) :: c_log c |>)).
    assert (lives c1) as L1.
    { eapply (lives_gor c _ g); [exact L|exact Hg| |apply lookup_insert|intros g' Hne; cbn; by rewrite lookup_insert_ne|apply sub_refl| |done| |].
      + done.
      + intros g' Hne. rewrite !at_set_none by (cbn; congruence). done.
      + intros g' Hne. cbn -[life_of]. rewrite !life_skip; [done|cbn; congruence].
      + intros st Hs Hfit. rewrite at_set_none in Hfit by congruence. rewrite at_set_none by (cbn; congruence). destruct (done_arrow g id e (c_now c) _ _ Hfit) as (o & Ho & Hu).
        exists (Gone o). split; [|split; [by eexists|done]]. cbn -[life_of]. by rewrite (life_here _ _ _ _ _ Hs). }
    assert (life_of (c_log c1) (c_next c) = NotBegun) as Hs1. { cbn -[life_of]. rewrite life_skip; [done|]. cbn. intros [= Hx]. lia. }
    apply (lives_move c1 _ (c_next c)); [done| |intros g' Hne; cbn; by rewrite lookup_insert_ne|done|intros g' Hne; cbn -[life_of]; rewrite life_skip by (cbn; congruence); done|
      intros g' Hne; rewrite !at_set_none by (cbn; congruence); done|intros id' st w Hx; congruence|].
    + intros id' i' g' w' Hi' Hw'. cbn in Hi' |- *. destruct (decide (id = id')) as [<-|Hne]; [rewrite lookup_insert in Hi'; injection Hi' as <-; by exists i|]. rewrite lookup_insert_ne in Hi' by done. by exists i'.
    + unfold lived. cbn -[life_of at_set has_ended fit]. rewrite lookup_insert. exists Planned. cbn -[life_of] in Hs1. split; [rewrite life_take by done; by rewrite Hs1|]. rewrite at_set_none by (cbn; congruence). done.
  - quiet L (@nil event).
  - (* return *) apply (lives_quiet c _ (if t_dead t then [EvDead] else []) L); [done| |done|done|intros g; rewrite !at_set_none by (cbn; congruence); done|done].
    intros ev Hev. destruct (t_dead t); [|by apply elem_of_nil in Hev]. by apply elem_of_list_singleton in Hev as ->.
  - gor_step L Hg. intros st Hs Hfit. exists st. rewrite (at_set_loop c) by done. rewrite (noset _ _ _ _ _ _ V Hg) in * by done. done.
  - gor_step L Hg. intros st Hs Hfit. rewrite (at_set_loop c) by done. rewrite (noset _ _ _ _ _ _ V Hg) in * by done. destruct Hfit as [-> He]. exists Calling. cbn -[life_of]. rewrite (life_here _ _ _ _ _ Hs) by done.
    split; [done|]. split; [done|]. intros w Hunk%unk_not; naive_solver.
  - gor_step L Hg. intros st Hs Hfit. rewrite (at_set_loop c) by done. rewrite (noset _ _ _ _ _ _ V Hg) in * by done. destruct Hfit as [-> He]. exists Calling. cbn -[life_of]. rewrite (life_here _ _ _ _ _ Hs) by done.
    split; [done|]. split; [done|]. intros w Hunk%unk_not; naive_solver.
  - gor_step L Hg. intros st Hs Hfit. rewrite (at_set_loop c) by done. rewrite (noset _ _ _ _ _ _ V Hg) in * by done. destruct Hfit as [-> He]. exists Planned. split; [done|]. split; [by left|]. done.
  - gor_step L Hg. intros st Hs Hfit. rewrite (at_set_loop c) by done. rewrite (noset _ _ _ _ _ _ V Hg) in * by done. destruct Hfit as [-> He]. cbn in He. cbn -[life_of]. rewrite (life_here _ _ _ _ _ Hs) by done.
    destruct r as [w|e]; eexists; (split; [reflexivity|]); (split; [|intros ? Hunk%unk_not; naive_solver]); cbn; [unfold has_ended in *; cbn; by rewrite He|by right; left].
  - (* the worker finishes *)
    eapply (lives_gor c _ g); [exact L|exact Hg| |exact Hg|done|apply sub_refl|intros g' Hne; by apply at_set_loop|intros g' Hne; cbn; by rewrite lookup_insert_ne|
      intros g' Hne; cbn -[life_of]; rewrite life_skip; [done|cbn; congruence]|]; [done|].
    intros st Hs Hfit. assert (has_ended c g = false) as Hen by (unfold has_ended; by rewrite He). rewrite Hen in Hfit.
    assert (has_ended (emit (EvEnd g id e) (c <| c_ended := <[g:=e]> (c_ended c) |>)) g = true) as -> by (unfold has_ended; cbn; by rewrite lookup_insert).
    rewrite (at_set_loop c) by done. destruct (end_arrow (at_set c g) g id e p st Hp Hfit) as (st' & Ha & Hf' & Hu). exists st'. cbn -[life_of]. by rewrite (life_here _ _ _ _ _ Hs).
  - gor_step L Hg. intros st Hs Hfit. assert (has_ended c g = true) as Hen by (unfold has_ended; by rewrite He). exists st. split; [done|]. split; [|done].
    cbn in Hfit |- *. rewrite (at_set_loop c) by done. unfold has_ended in *; cbn in *. rewrite He in *. by apply (fit_exit w).
  - gor_step L Hg. intros st Hs Hfit. exists st. split; [done|]. split; [|done]. rewrite (at_set_loop c) by done. by apply (fit_lost w).
Qed.
Lemma reach_lives P c : creach P c -> cinv c /\ lives c.
Proof.
  intros H. apply (creach_ind P lives); [|intros c1 c2 V I _ HT; by eapply lives_trans|done]. split; [intros g; by vm_compute|]. intros id i g w Hi. cbn in Hi; by rewrite lookup_empty in Hi.
Qed.
