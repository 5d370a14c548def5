From stdpp Require Import gmap strings list.
From Coq Require Import ZArith Lia.
From RecordUpdate Require Import RecordSet.
From Verif Require Import Err Workers WorkersSpec.
Import RecordSetNotations.
Local Open Scope Z_scope.

(** Facts about an event, from the log before it. *)
Definition good (V : setup) (ev : event) (post : list event) : Prop :=
  match ev with
  | EvCall i c t => forall c' t', ~ EvCall i c' t' ∈ post
  | EvKill i t => exists c t0, called post i c t0 /\ kills c /\ forall t', ~ EvKill i t' ∈ post
  | EvRet i r t => exists c t0, called post i c t0 /\ promise V i c t0 post r t /\ (kills c -> exists t1, EvKill i t1 ∈ post) /\ forall r' t', ~ EvRet i r' t' ∈ post
  | EvChan i own => own = v_own V /\ exists t0, called post i CDead t0
  | EvClosed i => ended post /\ EvChan i false ∈ post
  | EvEnd e => forall e', ~ EvEnd e' ∈ post
  | EvFail i => True
  end.
Fixpoint goods (V : setup) (log : list event) : Prop := match log with [] => True | ev :: post => good V ev post /\ goods V post end.
Lemma goods_at V pre ev post : goods V (pre ++ ev :: post) -> good V ev post.
Proof. induction pre as [|x pre IH]; intros [H1 H2]; auto. Qed.

Definition fails_early (c : call) : Prop := c = CCheckNilOrKill false.
Definition untouched (log : list event) (i : nat) : Prop :=
  forall c t r own, ~ EvCall i c t ∈ log /\ ~ EvKill i t ∈ log /\ ~ EvFail i ∈ log /\ ~ EvRet i r t ∈ log /\ ~ EvChan i own ∈ log /\ ~ EvClosed i ∈ log.
Definition pcfact (V : setup) (log : list event) (i : nat) (c : call) (p : cpc) (h : option bool) (t0 : Z) : Prop :=
  match p with
  | PKill => kills c /\ (failed log i <-> fails_early c) /\ (forall t, ~ EvKill i t ∈ log) /\ (forall r t, ~ EvRet i r t ∈ log) /\ h = None
  | PWait => c = CStop /\ (exists t, EvKill i t ∈ log) /\ (forall r t, ~ EvRet i r t ∈ log) /\ h = None
  | PSelect d => c <> CStop /\ c <> CDead /\ c <> CCheckNilOrKill true /\ (failed log i <-> fails_early c) /\ (forall r t, ~ EvRet i r t ∈ log) /\ is_Some h /\
      (c = CCheckAlive -> d = t0 + v_aliveDelay V) /\ (c = CCheckKilled -> d = t0 + v_killTimeout V) /\ (kills c -> EvKill i (d - v_killTimeout V) ∈ log)
  | PRet => (c = CDead -> EvChan i (v_own V) ∈ log /\ (v_own V = false -> is_Some h) /\ (h = Some true -> EvClosed i ∈ log)) /\ (c <> CDead -> exists r t, EvRet i r t ∈ log)
  end.
Record inv (V : setup) (s : state) : Prop := mkInv {
  n_end : forall e, w_ended s = Some e <-> EvEnd e ∈ w_log s;
  n_none : forall i, w_calls s !! i = None -> untouched (w_log s) i /\ w_helper s !! i = None;
  n_call : forall i c p, w_calls s !! i = Some (c, p) -> exists t0, called (w_log s) i c t0 /\ pcfact V (w_log s) i c p (w_helper s !! i) t0;
  n_help : forall i, w_helper s !! i = Some true -> ended (w_log s);
  n_dead : forall i b, w_helper s !! i = Some b -> forall p, w_calls s !! i = Some (CDead, p) -> EvChan i false ∈ w_log s;
  n_good : goods V (w_log s)
}.

(** Events of other calls do not matter. *)
Definition about (ev : event) : option nat :=
  match ev with EvCall i _ _ | EvKill i _ | EvFail i | EvRet i _ _ | EvChan i _ | EvClosed i => Some i | EvEnd _ => None end.
Lemma untouched_other log i ev : about ev <> Some i -> untouched log i -> untouched (ev :: log) i.
Proof. intros Ha H c t r own. destruct (H c t r own) as (?&?&?&?&?&?). rewrite !elem_of_cons. split_and!; intros [<-|?]; done. Qed.
Lemma pc_other V log i c p h t0 ev : about ev <> Some i -> pcfact V log i c p h t0 -> pcfact V (ev :: log) i c p h t0.
Proof.
  intros Ha. unfold pcfact, failed. destruct p.
  - rewrite !elem_of_cons. intros (H1 & H2 & H3 & H4 & H5). split_and!; auto.
    + rewrite <- H2. split; [|by right]. intros [<-|?]; done.
    + intros t. rewrite elem_of_cons. intros [<-|?]; [done|by eapply H3].
    + intros r t. rewrite elem_of_cons. intros [<-|?]; [done|by eapply H4].
  - intros (H1 & (t & H2) & H4 & H5). split_and!; auto. { exists t. by right. } intros r t'. rewrite elem_of_cons. intros [<-|?]; [done|by eapply H4].
  - rewrite !elem_of_cons. intros (H1 & H2 & H2' & H3 & H4 & H5 & H6 & H7 & H8). split_and!; auto.
    + rewrite <- H3. split; [|by right]. intros [<-|?]; done.
    + intros r t. rewrite elem_of_cons. intros [<-|?]; [done|by eapply H4].
  - intros [H1 H2]. split.
    + intros Hc. destruct (H1 Hc) as (?&?&H3). split; [by right|]. split; [done|]. intros Hh. right. auto.
    + intros Hc. destruct (H2 Hc) as (r & t & ?). exists r, t. by right.
Qed.


Lemma untouched_others log i evs : (forall ev, ev ∈ evs -> about ev <> Some i) -> untouched log i -> untouched (evs ++ log) i.
Proof. intros Ha H. induction evs as [|ev evs IH]; [done|]. apply untouched_other; [apply Ha; by left|]. apply IH. intros ev' ?. apply Ha. by right. Qed.
Lemma pc_others V log i c p h t0 evs : (forall ev, ev ∈ evs -> about ev <> Some i) -> pcfact V log i c p h t0 -> pcfact V (evs ++ log) i c p h t0.
Proof. intros Ha H. induction evs as [|ev evs IH]; [done|]. apply pc_other; [apply Ha; by left|]. apply IH. intros ev' ?. apply Ha. by right. Qed.

(** Adding events about call [i], which moves to [(c, p)] with helper [h]. *)
Lemma inv_upd V s i c p h evs s' : inv V s ->
  (forall ev, ev ∈ evs -> about ev = Some i) -> w_log s' = evs ++ w_log s -> w_ended s' = w_ended s -> w_calls s' = <[i := (c, p)]> (w_calls s) ->
  (forall j, j <> i -> w_helper s' !! j = w_helper s !! j) -> w_helper s' !! i = h -> goods V (evs ++ w_log s) ->
  (exists t0, called (evs ++ w_log s) i c t0 /\ pcfact V (evs ++ w_log s) i c p h t0) -> (h = Some true -> ended (w_log s)) ->
  (forall b, h = Some b -> c = CDead -> EvChan i false ∈ evs ++ w_log s) -> inv V s'.
Proof.
  intros [N1 N2 N3 N4 N5 N6] Ha El Ee Ec Eh Ehi Hg Hpc Hh Hd.
  assert (Hother : forall j ev, j <> i -> ev ∈ evs -> about ev <> Some j) by (intros j ev ? Hev; rewrite (Ha _ Hev); congruence).
  constructor.
  - intros e. rewrite Ee, N1, El, elem_of_app. split; [by right|]. intros [Hev|?]; [|done]. by apply Ha in Hev.
  - intros j. rewrite Ec. intros [Hj Hne]%lookup_insert_None. destruct (N2 j Hj) as [Hu Hn]. rewrite El. split; [apply untouched_others; auto|]. by rewrite Eh by done.
  - intros j c' p'. rewrite Ec, El. destruct (decide (j = i)) as [->|Hne].
    + rewrite lookup_insert. intros [= <- <-]. by rewrite Ehi.
    + rewrite lookup_insert_ne by done. intros Hj. destruct (N3 j c' p' Hj) as (t0 & H1 & H2). rewrite Eh by done. exists t0.
      split; [apply elem_of_app; by right|]. apply pc_others; auto.
  - intros j Hj. rewrite El. destruct (decide (j = i)) as [->|Hne].
    + rewrite Ehi in Hj. destruct (Hh Hj) as (e & ?). exists e. apply elem_of_app; by right.
    + rewrite Eh in Hj by done. destruct (N4 j Hj) as (e & ?). exists e. apply elem_of_app; by right.
  - intros j b Hj p'. rewrite Ec, El. destruct (decide (j = i)) as [->|Hne].
    + rewrite lookup_insert. intros [= -> _]. rewrite Ehi in Hj. by eapply Hd.
    + rewrite lookup_insert_ne by done. rewrite Eh in Hj by done. intros Hp. apply elem_of_app. right. by eapply N5.
  - by rewrite El.
Qed.

Lemma inv_init V : inv V init.
Proof.
  constructor; simpl.
  - intros e. split; [done|]. by intros ?%elem_of_nil.
  - intros i _. split; [|done]. intros c t r own. split_and!; by intros ?%elem_of_nil.
  - done.
  - done.
  - done.
  - done.
Qed.
Ltac mem := rewrite ?elem_of_cons, ?elem_of_nil; naive_solver.
Ltac noone := let Hx := fresh in intros *; intros Hx; rewrite ?elem_of_cons in Hx; repeat match type of Hx with _ \/ _ => destruct Hx as [Hx|Hx] end; first [discriminate Hx | exfalso; match goal with U : _ |- _ => eapply U; exact Hx end].
Ltac evs := let ev := fresh in let H := fresh in intros ev H; rewrite ?elem_of_cons, ?elem_of_nil in H; repeat destruct H as [->|H]; done.
Lemma step_call V s i c s' : inv V s -> step V s (LCall i c) = Some s' -> inv V s'.
Proof.
  intros I. cbn [step]. destruct (w_calls s !! i) eqn:Ei; [done|]. intros Hs.
  destruct (n_none _ _ I i Ei) as [Hu Hh].
  assert (U1 : forall c' t', ~ EvCall i c' t' ∈ w_log s) by (intros c' t'; apply (Hu c' t' None true)).
  assert (U2 : forall t', ~ EvKill i t' ∈ w_log s) by (intros t'; apply (Hu c t' None true)).
  assert (U3 : ~ EvFail i ∈ w_log s) by (apply (Hu c 0 None true)).
  assert (U4 : forall r t', ~ EvRet i r t' ∈ w_log s) by (intros r t'; apply (Hu c t' r true)).
  pose proof (n_good _ _ I) as G.
  assert (Hne : forall j : nat, j <> i -> forall (m : gmap nat bool) b, <[i := b]> m !! j = m !! j) by (intros; by apply lookup_insert_ne).
  destruct c as [| | | | | | |[]].
  - injection Hs as <-. eapply (inv_upd _ _ i CStop PKill _ [_] _ I); try reflexivity; simpl.
    + evs.
    + done.
    + exists (w_now s). split; [by left|]. simpl. rewrite Hh. split_and!; auto; try noone.
      split; [|done]. unfold failed. noone.
    + by rewrite Hh.
    + by rewrite Hh.
  - destruct (v_own V) eqn:Ho; injection Hs as <-.
    + eapply (inv_upd _ _ i CDead PRet _ [_; _] _ I); try reflexivity; simpl.
      * evs.
      * split_and!; auto. exists (w_now s). by left.
      * exists (w_now s). split; [right; by left|]. simpl. rewrite Hh, Ho. split; [|done]. intros _. split; [by left|]. done.
      * by rewrite Hh.
      * by rewrite Hh.
    + eapply (inv_upd _ _ i CDead PRet _ [_; _] _ I); try reflexivity; simpl.
      * evs.
      * intros j Hj. by apply Hne.
      * split_and!; auto. exists (w_now s). by left.
      * exists (w_now s). split; [right; by left|]. simpl. rewrite lookup_insert, Ho. split; [|done]. intros _. split; [by left|]. split; [by eexists|done].
      * by rewrite lookup_insert.
      * intros _ _ _. by left.
  - injection Hs as <-. eapply (inv_upd _ _ i CCheckAlive (PSelect _) _ [_] _ I); try reflexivity; simpl.
    + evs.
    + intros j Hj. by apply Hne.
    + done.
    + exists (w_now s). split; [by left|]. simpl. rewrite lookup_insert. split_and!; auto; try noone; try done.
      split; [|done]. unfold failed. noone.
    + by rewrite lookup_insert.
    + done.
  - injection Hs as <-. eapply (inv_upd _ _ i CCheckKilled (PSelect _) _ [_] _ I); try reflexivity; simpl.
    + evs.
    + intros j Hj. by apply Hne.
    + done.
    + exists (w_now s). split; [by left|]. simpl. rewrite lookup_insert. split_and!; auto; try noone; try done.
      split; [|done]. unfold failed. noone.
    + by rewrite lookup_insert.
    + done.
  - injection Hs as <-. eapply (inv_upd _ _ i CCheckKill PKill _ [_] _ I); try reflexivity; simpl.
    + evs.
    + done.
    + exists (w_now s). split; [by left|]. simpl. rewrite Hh. split_and!; auto; try noone.
      split; [|done]. unfold failed. noone.
    + by rewrite Hh.
    + by rewrite Hh.
  - injection Hs as <-. eapply (inv_upd _ _ i CCleanKill PKill _ [_] _ I); try reflexivity; simpl.
    + evs.
    + done.
    + exists (w_now s). split; [by left|]. simpl. rewrite Hh. split_and!; auto; try noone.
      split; [|done]. unfold failed. noone.
    + by rewrite Hh.
    + by rewrite Hh.
  - injection Hs as <-. eapply (inv_upd _ _ i CDirtyKill PKill _ [_] _ I); try reflexivity; simpl.
    + evs.
    + done.
    + exists (w_now s). split; [by left|]. simpl. rewrite Hh. split_and!; auto; try noone.
      split; [|done]. unfold failed. noone.
    + by rewrite Hh.
    + by rewrite Hh.
  - injection Hs as <-. eapply (inv_upd _ _ i (CCheckNilOrKill true) PRet _ [_; _] _ I); try reflexivity; simpl.
    + evs.
    + split_and!; auto. exists (CCheckNilOrKill true), (w_now s). split; [by left|]. split; [|split; [done|]].
      * split; [done|]. unfold failed. noone.
      * noone.
    + exists (w_now s). split; [right; by left|]. simpl. rewrite Hh. split; [done|]. intros _. eexists _, _. by left.
    + by rewrite Hh.
    + by rewrite Hh.
  - injection Hs as <-. eapply (inv_upd _ _ i (CCheckNilOrKill false) PKill _ [_; _] _ I); try reflexivity; simpl.
    + evs.
    + done.
    + exists (w_now s). split; [right; by left|]. simpl. rewrite Hh. split_and!; auto; try noone.
      split; [done|]. intros _. by left.
    + by rewrite Hh.
    + by rewrite Hh.
Qed.
Lemma step_kill V s i s' : inv V s -> step V s (LKill i) = Some s' -> inv V s'.
Proof.
  intros I. cbn [step]. destruct (w_calls s !! i) as [[c p]|] eqn:Ei; [|done]. destruct p; try done. intros Hs.
  destruct (n_call _ _ I i c PKill Ei) as (t0 & Hc & Hk & Hf & H3 & H4 & Hh). pose proof (n_good _ _ I) as G.
  assert (Hg : goods V (EvKill i (w_now s) :: w_log s)) by (split; [exists c, t0; auto|done]).
  destruct (decide (c = CStop)) as [->|Hn].
  - injection Hs as <-. eapply (inv_upd _ _ i CStop PWait _ [_] _ I); try reflexivity; simpl.
    + evs.
    + done.
    + exists t0. split; [by right|]. simpl. rewrite Hh. split_and!; auto; [|noone]. eexists. by left.
    + by rewrite Hh.
    + by rewrite Hh.
  - assert (s' = select i c (v_killTimeout V) (emit (EvKill i (w_now s)) s)) as -> by (destruct c as [| | | | | | |[]]; first [done|by injection Hs as <-]).
    eapply (inv_upd _ _ i c (PSelect _) _ [_] _ I); try reflexivity; simpl.
    + evs.
    + intros j ?. by apply lookup_insert_ne.
    + done.
    + exists t0. split; [by right|]. simpl. rewrite lookup_insert. split_and!; auto; try noone; try done; try (by intros ->).
      * rewrite <- Hf. unfold failed. rewrite elem_of_cons. split; [|by right]. by intros [|].
      * intros _. replace (w_now s + v_killTimeout V - v_killTimeout V) with (w_now s) by lia. by left.
    + by rewrite lookup_insert.
    + intros _ _ ->. done.
Qed.
Lemma step_waited V s i s' : inv V s -> step V s (LWaited i) = Some s' -> inv V s'.
Proof.
  intros I. cbn [step]. destruct (w_calls s !! i) as [[c p]|] eqn:Ei; [|done]. destruct p; try done.
  destruct (w_ended s) as [e|] eqn:Ee; [|done]. intros [= <-].
  destruct (n_call _ _ I i c PWait Ei) as (t0 & Hc & -> & Hk & H4 & Hh). pose proof (n_good _ _ I) as G.
  eapply (inv_upd _ _ i CStop PRet _ [_] _ I); try reflexivity; simpl.
  - evs.
  - split; [|done]. exists CStop, t0. split; [done|]. split; [|auto]. by apply (n_end _ _ I).
  - exists t0. split; [by right|]. simpl. split; [done|]. intros _. eexists _, _. by left.
  - by rewrite Hh.
  - by rewrite Hh.
Qed.
Lemma step_helper V s i s' : inv V s -> step V s (LHelper i) = Some s' -> inv V s'.
Proof.
  intros I. cbn [step]. destruct (w_helper s !! i) as [[]|] eqn:Eh; try done. destruct (w_ended s) as [e|] eqn:Ee; [|done]. intros Hs.
  destruct (w_calls s !! i) as [[c p]|] eqn:Ei; [|destruct (n_none _ _ I i Ei) as [_ ?]; congruence].
  destruct (n_call _ _ I i c p Ei) as (t0 & Hc & Hp). pose proof (n_good _ _ I) as G.
  assert (Hend : ended (w_log s)) by (exists e; by apply (n_end _ _ I)).
  destruct (decide (c = CDead)) as [->|Hn].
  - pose proof (n_dead _ _ I i _ Eh p Ei) as Hch.
    injection Hs as <-. eapply (inv_upd _ _ i CDead p _ [_] _ I); try reflexivity; simpl.
    + evs.
    + by rewrite insert_id.
    + intros j ?. by apply lookup_insert_ne.
    + split; [|done]. done.
    + exists t0. split; [by right|]. rewrite lookup_insert. rewrite Eh in Hp. destruct p.
      * by destruct Hp as [? _].
      * by destruct Hp as [? _].
      * by destruct Hp as (_ & ? & _).
      * destruct Hp as [Hp _]. split; [|done]. intros _. destruct (Hp eq_refl) as (? & ? & _). split; [by right|]. split; [by eexists|]. intros _. by left.
    + done.
    + intros _ _ _. by right.
  - assert (s' = s <| w_helper ::= <[i := true]> |>) as -> by (destruct c; first [done|by injection Hs as <-]).
    eapply (inv_upd _ _ i c p _ [] _ I); try reflexivity; simpl.
    + evs.
    + by rewrite insert_id.
    + intros j ?. by apply lookup_insert_ne.
    + done.
    + exists t0. split; [done|]. rewrite lookup_insert. rewrite Eh in Hp. destruct p.
      * by destruct Hp as (_ & _ & _ & _ & ?).
      * by destruct Hp as (_ & _ & _ & ?).
      * destruct Hp as (? & ? & ? & ? & ? & ? & ? & ? & ?). unfold pcfact. split_and!; first [assumption | by eexists].
      * destruct Hp as [Hp ?]. by split.
    + done.
    + done.
Qed.
Lemma step_end V s e s' : inv V s -> step V s (LEnd e) = Some s' -> inv V s'.
Proof.
  intros I. cbn [step]. destruct (w_ended s) eqn:Ee; [done|]. intros [= <-]. destruct I as [N1 N2 N3 N4 N5 N6].
  assert (Hno : forall e', ~ EvEnd e' ∈ w_log s) by (intros e' H; apply N1 in H; congruence).
  constructor; simpl.
  - intros e'. rewrite elem_of_cons. split; [intros [= ->]; by left|]. intros [[= ->]|?]; [done|]. by destruct (Hno e').
  - intros i Hi. destruct (N2 i Hi). split; [by apply untouched_other|done].
  - intros i c p Hi. destruct (N3 i c p Hi) as (t0 & ? & ?). exists t0. split; [by right|]. by apply pc_other.
  - intros i Hi. destruct (N4 i Hi) as (x & ?). exists x. by right.
  - intros i b Hi p Hp. right. by eapply N5.
  - by split.
Qed.

Lemma step_selwait V s i s' : inv V s -> step V s (LSelWait i) = Some s' -> inv V s'.
Proof.
  intros I. cbn [step]. destruct (w_calls s !! i) as [[c p]|] eqn:Ei; [|done]. destruct p as [| |d|]; try done.
  destruct (w_helper s !! i) as [[]|] eqn:Eh; try done. destruct (w_ended s) as [e|] eqn:Ee; [|done]. intros Hs.
  destruct (n_call _ _ I i c _ Ei) as (t0 & Hc & H1 & H2 & H2' & H3 & H4 & H5 & H6 & H7 & H8). pose proof (n_good _ _ I) as G.
  assert (Hend : EvEnd e ∈ w_log s) by by apply (n_end _ _ I).
  assert (Hend' : ended (w_log s)) by by exists e.
  assert (HR : forall log, (exists r t, EvRet i r t ∈ log) -> pcfact V log i c PRet (Some true) t0) by (intros log ?; split; [done|done]).
  assert (Hnf : ~ fails_early c -> ~ failed (w_log s) i) by naive_solver.
  destruct c as [| | | | | | |[]]; try done.
  - injection Hs as <-. eapply (inv_upd _ _ i CCheckAlive PRet _ [_; _] _ I); try reflexivity; simpl.
    + evs.
    + split_and!; auto. exists CCheckAlive, t0. split; [by right|]. split; [|split; [done|noone]].
      split; [done|]. left. split; [by left|]. exists e. by right.
    + exists t0. split; [right; by right|]. rewrite Eh. apply HR. eexists _, _. by left.
    + done.
    + done.
  - injection Hs as <-. eapply (inv_upd _ _ i CCheckKilled PRet _ [_] _ I); try reflexivity; simpl.
    + evs.
    + split_and!; auto. exists CCheckKilled, t0. split; [done|]. split; [|split; [done|noone]]. left. split; [done|]. by apply Hnf.
    + exists t0. split; [by right|]. rewrite Eh. apply HR. eexists _, _. by left.
    + done.
    + done.
  - injection Hs as <-. eapply (inv_upd _ _ i CCheckKill PRet _ [_] _ I); try reflexivity; simpl.
    + evs.
    + split_and!; auto. exists CCheckKill, t0. split; [done|]. split; [|split; [eauto|noone]]. left. split; [done|]. by apply Hnf.
    + exists t0. split; [by right|]. rewrite Eh. apply HR. eexists _, _. by left.
    + done.
    + done.
  - unfold checked in Hs. destruct e as [e|]; injection Hs as <-.
    + eapply (inv_upd _ _ i CCleanKill PRet _ [_; _] _ I); try reflexivity; simpl.
      * evs.
      * split_and!; auto. exists CCleanKill, t0. split; [by right|]. split; [|split; [|noone]].
        { split; [done|]. right. split; [by left|]. left. exists e. by right. } { intros _. eexists. right. by apply H8. }
      * exists t0. split; [right; by right|]. rewrite Eh. apply HR. eexists _, _. by left.
      * done.
      * done.
    + eapply (inv_upd _ _ i CCleanKill PRet _ [_] _ I); try reflexivity; simpl.
      * evs.
      * split_and!; auto. exists CCleanKill, t0. split; [done|]. split; [|split; [eauto|noone]]. split; [done|]. left. split; [done|]. by apply Hnf.
      * exists t0. split; [by right|]. rewrite Eh. apply HR. eexists _, _. by left.
      * done.
      * done.
  - injection Hs as <-. eapply (inv_upd _ _ i CDirtyKill PRet _ [_] _ I); try reflexivity; simpl.
    + evs.
    + split_and!; auto. exists CDirtyKill, t0. split; [done|]. split; [|split; [eauto|noone]]. split; [done|]. left. split; [done|]. by apply Hnf.
    + exists t0. split; [by right|]. rewrite Eh. apply HR. eexists _, _. by left.
    + done.
    + done.
  - assert (Hf : failed (w_log s) i) by by apply H3.
    unfold checked in Hs. destruct e as [e|]; injection Hs as <-.
    + eapply (inv_upd _ _ i (CCheckNilOrKill false) PRet _ [_; _] _ I); try reflexivity; simpl.
      * evs.
      * split_and!; auto. exists (CCheckNilOrKill false), t0. split; [by right|]. split; [|split; [|noone]].
        { split; [done|]. split; [by left|]. left. exists (Some e). by right. } { intros _. eexists. right. by apply H8. }
      * exists t0. split; [right; by right|]. rewrite Eh. apply HR. eexists _, _. by left.
      * done.
      * done.
    + eapply (inv_upd _ _ i (CCheckNilOrKill false) PRet _ [_] _ I); try reflexivity; simpl.
      * evs.
      * split_and!; auto. exists (CCheckNilOrKill false), t0. split; [done|]. split; [|split; [eauto|noone]]. split; [done|]. split; [done|]. by left.
      * exists t0. split; [by right|]. rewrite Eh. apply HR. eexists _, _. by left.
      * done.
      * done.
Qed.
Lemma step_timer V s i s' : inv V s -> step V s (LSelTimer i) = Some s' -> inv V s'.
Proof.
  intros I. cbn [step]. destruct (w_calls s !! i) as [[c p]|] eqn:Ei; [|done]. destruct p as [| |d|]; try done.
  destruct (d <=? w_now s) eqn:Ed; [|done]. apply Z.leb_le in Ed. intros Hs.
  destruct (n_call _ _ I i c _ Ei) as (t0 & Hc & H1 & H2 & H2' & H3 & H4 & [b H5] & H6 & H7 & H8). pose proof (n_good _ _ I) as G.
  assert (HR : forall log, (exists r t, EvRet i r t ∈ log) -> pcfact V log i c PRet (Some b) t0) by (intros log ?; split; [done|done]).
  assert (Hnf : ~ fails_early c -> ~ failed (w_log s) i) by naive_solver.
  assert (Hh : Some b = Some true -> ended (w_log s)) by (intros [= ->]; by eapply (n_help _ _ I)).
  assert (Hk : forall ev, kills c -> exists t1, EvKill i t1 ∈ ev :: w_log s /\ t1 + v_killTimeout V <= w_now s).
  { intros ev Hk. eexists. split; [right; by apply H8|]. lia. }
  assert (Hk' : forall ev, kills c -> exists t1, EvKill i t1 ∈ ev :: w_log s).
  { intros ev Hc'. destruct (Hk ev Hc') as (t1 & ? & _). by exists t1. }
  destruct c as [| | | | | | |[]]; try done.
  - injection Hs as <-. eapply (inv_upd _ _ i CCheckAlive PRet _ [_] _ I); try reflexivity; simpl.
    + evs.
    + split_and!; auto. exists CCheckAlive, t0. split; [done|]. split; [|split; [done|noone]].
      split; [done|]. right. split; [by apply Hnf|]. specialize (H6 eq_refl). lia.
    + exists t0. split; [by right|]. rewrite H5. apply HR. eexists _, _. by left.
    + by rewrite H5.
    + done.
  - injection Hs as <-. eapply (inv_upd _ _ i CCheckKilled PRet _ [_; _] _ I); try reflexivity; simpl.
    + evs.
    + split_and!; auto. exists CCheckKilled, t0. split; [by right|]. split; [|split; [done|noone]]. right. split; [done|]. split; [by left|]. specialize (H7 eq_refl). lia.
    + exists t0. split; [right; by right|]. rewrite H5. apply HR. eexists _, _. by left.
    + by rewrite H5.
    + done.
  - injection Hs as <-. eapply (inv_upd _ _ i CCheckKill PRet _ [_; _] _ I); try reflexivity; simpl.
    + evs.
    + split_and!; auto. exists CCheckKill, t0. split; [by right|]. split; [|split; [by auto|noone]]. right. split; [done|]. split; [by left|]. by apply Hk.
    + exists t0. split; [right; by right|]. rewrite H5. apply HR. eexists _, _. by left.
    + by rewrite H5.
    + done.
  - unfold checked in Hs. injection Hs as <-. eapply (inv_upd _ _ i CCleanKill PRet _ [_; _; _] _ I); try reflexivity; simpl.
    + evs.
    + split_and!; auto. exists CCleanKill, t0. split; [right; by right|]. split; [|split; [|noone]].
      * split; [done|]. right. split; [by left|]. right. destruct (Hk (EvFail i)) as (t1 & ? & ?); [done|]. exists t1. split; [by right|done].
      * intros _. destruct (Hk' (EvFail i)) as (t1 & ?); [done|]. exists t1. by right.
    + exists t0. split; [do 3 right; done|]. rewrite H5. apply HR. eexists _, _. by left.
    + by rewrite H5.
    + done.
  - injection Hs as <-. eapply (inv_upd _ _ i CDirtyKill PRet _ [_; _] _ I); try reflexivity; simpl.
    + evs.
    + split_and!; auto. exists CDirtyKill, t0. split; [by right|]. split; [|split; [by auto|noone]]. split; [done|]. right. split; [by left|]. by apply Hk.
    + exists t0. split; [right; by right|]. rewrite H5. apply HR. eexists _, _. by left.
    + by rewrite H5.
    + done.
  - unfold checked in Hs. injection Hs as <-. eapply (inv_upd _ _ i (CCheckNilOrKill false) PRet _ [_; _; _] _ I); try reflexivity; simpl.
    + evs.
    + split_and!; auto. exists (CCheckNilOrKill false), t0. split; [right; by right|]. split; [|split; [|noone]].
      * split; [done|]. split; [by left|]. right. destruct (Hk (EvFail i)) as (t1 & ? & ?); [done|]. exists t1. split; [by right|done].
      * intros _. destruct (Hk' (EvFail i)) as (t1 & ?); [done|]. exists t1. by right.
    + exists t0. split; [do 3 right; done|]. rewrite H5. apply HR. eexists _, _. by left.
    + by rewrite H5.
    + done.
Qed.
Lemma inv_step V s l s' : inv V s -> step V s l = Some s' -> inv V s'.
Proof.
  intros I Hs. destruct l.
  - by eapply step_call. - by eapply step_kill. - by eapply step_waited. - by eapply step_helper.
  - by eapply step_selwait. - by eapply step_timer. - by eapply step_end.
  - revert Hs. cbn [step]. destruct (0 <=? d); [|done]. intros [= <-]. by destruct I; constructor.
Qed.
Lemma inv_run V ls : forall s s', inv V s -> run V s ls = Some s' -> inv V s'.
Proof.
  induction ls as [|l ls IH]; intros s s' I; simpl; [by intros [= <-]|]. destruct (step V s l) eqn:E; [|done]. intros Hr. eapply IH; [|done]. by eapply inv_step.
Qed.
Lemma inv_reachable V s : reachable V s -> inv V s.
Proof. intros [ls Hr]. eapply inv_run; [apply inv_init|done]. Qed.

(** * C54 *)
Lemma call_unique V log i c t c' t' : goods V log -> called log i c t -> called log i c' t' -> c = c' /\ t = t'.
Proof.
  induction log as [|ev log IH]; intros G H1 H2; [by apply elem_of_nil in H1|]. destruct G as [G1 G2].
  apply elem_of_cons in H1 as [H1|H1]; apply elem_of_cons in H2 as [H2|H2]; subst.
  - by injection H2 as <- <-.
  - by destruct (G1 c' t').
  - by destruct (G1 c t).
  - by apply IH.
Qed.
Lemma end_unique V log e e' : goods V log -> EvEnd e ∈ log -> EvEnd e' ∈ log -> e = e'.
Proof.
  induction log as [|ev log IH]; intros G H1 H2; [by apply elem_of_nil in H1|]. destruct G as [G1 G2].
  apply elem_of_cons in H1 as [H1|H1]; apply elem_of_cons in H2 as [H2|H2]; subst.
  - by injection H2 as <-.
  - by destruct (G1 e').
  - by destruct (G1 e).
  - by apply IH.
Qed.
Lemma app_l (A : Type) (x : A) pre y post : x ∈ post -> x ∈ pre ++ y :: post.
Proof. intros. apply elem_of_app. right. by right. Qed.
(** A call that returned kept its promise. *)
Lemma returned V s i c t0 pre r t post : reachable V s -> w_log s = pre ++ EvRet i r t :: post -> called (w_log s) i c t0 ->
  promise V i c t0 post r t /\ (kills c -> exists t1, EvKill i t1 ∈ post) /\ forall r' t', ~ EvRet i r' t' ∈ post.
Proof.
  intros Hr El Hc. pose proof (inv_reachable _ _ Hr) as I. pose proof (n_good _ _ I) as G. pose proof G as G'. rewrite El in G'. apply goods_at in G'.
  destruct G' as (c' & t0' & Hc' & Hp & Hk & Hu).
  destruct (call_unique V (w_log s) i c t0 c' t0') as [-> ->]; [done|done| |done]. rewrite El. by apply app_l.
Qed.
Lemma stop_returns V s i t0 pre r t post : reachable V s -> w_log s = pre ++ EvRet i r t :: post -> called (w_log s) i CStop t0 ->
  EvEnd r ∈ post /\ exists t1, EvKill i t1 ∈ post.
Proof. intros Hr El Hc. destruct (returned _ _ _ _ _ _ _ _ _ Hr El Hc) as (? & Hk & _). split; [done|]. by apply Hk. Qed.
Lemma killed_by V s i t : reachable V s -> EvKill i t ∈ w_log s -> exists c t0, called (w_log s) i c t0 /\ kills c.
Proof.
  intros Hr H. pose proof (n_good _ _ (inv_reachable _ _ Hr)) as G. apply elem_of_list_split in H as (pre & post & El). rewrite El in G. apply goods_at in G.
  destruct G as (c & t0 & ? & ? & _). exists c, t0. split; [|done]. rewrite El. by apply app_l.
Qed.
(** Once the code has nothing left to do. *)
Lemma rest_call V s i c t0 : reachable V s -> at_rest V s -> called (w_log s) i c t0 -> c <> CDead ->
  (exists r t, EvRet i r t ∈ w_log s) \/ w_ended s = None /\ (exists p, w_calls s !! i = Some (c, p) /\ (p = PWait /\ c = CStop \/ exists d, p = PSelect d /\ w_now s < d)).
Proof.
  intros Hr Hrest Hc Hn. pose proof (inv_reachable _ _ Hr) as I.
  destruct (w_calls s !! i) as [[c' p]|] eqn:Ei.
  2: { destruct (n_none _ _ I i Ei) as [Hu _]. by destruct (Hu c t0 None true) as [? _]. }
  destruct (n_call _ _ I i c' p Ei) as (t0' & Hc' & Hp).
  destruct (call_unique V (w_log s) i c t0 c' t0') as [<- <-]; [by apply I|done|done|].
  destruct p as [| |d|].
  - pose proof (Hrest (LKill i) Logic.I) as Hx. cbn [step] in Hx. rewrite Ei in Hx. by destruct c.
  - pose proof (Hrest (LWaited i) Logic.I) as Hx. cbn [step] in Hx. rewrite Ei in Hx. destruct (w_ended s); [done|]. right. split; [done|]. exists PWait. split; [done|]. left. split; [done|]. by destruct Hp.
  - pose proof (Hrest (LSelTimer i) Logic.I) as Hx. cbn [step] in Hx. rewrite Ei in Hx. destruct (d <=? w_now s) eqn:Ed; [by destruct c|]. apply Z.leb_gt in Ed.
    destruct Hp as (H1 & H2 & H2' & H3 & H4 & [b H5] & _).
    pose proof (Hrest (LHelper i) Logic.I) as Hy. cbn [step] in Hy. rewrite H5, Ei in Hy.
    pose proof (Hrest (LSelWait i) Logic.I) as Hz. cbn [step] in Hz. rewrite Ei, H5 in Hz.
    destruct (w_ended s); [destruct b; by destruct c|]. right. split; [done|]. exists (PSelect d). split; [done|]. right. by exists d.
  - left. by apply Hp.
Qed.
Lemma stop_at_rest V s i t0 : reachable V s -> at_rest V s -> called (w_log s) i CStop t0 -> ended (w_log s) -> exists r t, EvRet i r t ∈ w_log s.
Proof.
  intros Hr Hrest Hc [e He]. destruct (rest_call _ _ _ _ _ Hr Hrest Hc) as [|[Hx _]]; [done|done|].
  apply (n_end _ _ (inv_reachable _ _ Hr)) in He. congruence.
Qed.
Lemma stop_kills V s i t0 : reachable V s -> at_rest V s -> called (w_log s) i CStop t0 -> exists t, EvKill i t ∈ w_log s.
Proof.
  intros Hr Hrest Hc. pose proof (inv_reachable _ _ Hr) as I.
  destruct (rest_call _ _ _ _ _ Hr Hrest Hc) as [(r & t & Hret)|(_ & p & Hi & Hp)]; [done| |].
  - apply elem_of_list_split in Hret as (pre & post & El). destruct (stop_returns _ _ _ _ _ _ _ _ Hr El Hc) as (_ & t1 & ?). exists t1. rewrite El. by apply app_l.
  - destruct (n_call _ _ I i _ _ Hi) as (t0' & _ & Hpc). destruct Hp as [[-> _]|(d & -> & _)]; [by destruct Hpc as (_ & ? & _)|by destruct Hpc as [? _]].
Qed.
Lemma dead_chan V s i own : reachable V s -> EvChan i own ∈ w_log s -> own = v_own V /\ exists t0, called (w_log s) i CDead t0.
Proof.
  intros Hr H. pose proof (n_good _ _ (inv_reachable _ _ Hr)) as G. apply elem_of_list_split in H as (pre & post & El). rewrite El in G. apply goods_at in G.
  destruct G as (? & t0 & ?). split; [done|]. exists t0. rewrite El. by apply app_l.
Qed.
Lemma dead_returns V s i t0 : reachable V s -> called (w_log s) i CDead t0 -> EvChan i (v_own V) ∈ w_log s.
Proof.
  intros Hr Hc. pose proof (inv_reachable _ _ Hr) as I. destruct (w_calls s !! i) as [[c' p]|] eqn:Ei.
  2: { destruct (n_none _ _ I i Ei) as [Hu _]. by destruct (Hu CDead t0 None true) as [? _]. }
  destruct (n_call _ _ I i c' p Ei) as (t0' & Hc' & Hp).
  destruct (call_unique V (w_log s) i CDead t0 c' t0') as [<- <-]; [by apply I|done|done|].
  destruct p; [by destruct Hp as [[] _]|by destruct Hp as [? _]|by destruct Hp as (_ & ? & _)|]. by destruct Hp as [Hp _]; apply Hp.
Qed.
Lemma dead_closed V s i pre post : reachable V s -> w_log s = pre ++ EvClosed i :: post -> ended post /\ EvChan i false ∈ post.
Proof. intros Hr El. pose proof (n_good _ _ (inv_reachable _ _ Hr)) as G. rewrite El in G. by apply goods_at in G. Qed.
Lemma dead_at_rest V s i t0 : reachable V s -> at_rest V s -> v_own V = false -> called (w_log s) i CDead t0 -> ended (w_log s) -> EvClosed i ∈ w_log s.
Proof.
  intros Hr Hrest Ho Hc [e He]. pose proof (inv_reachable _ _ Hr) as I. apply (n_end _ _ I) in He. destruct (w_calls s !! i) as [[c' p]|] eqn:Ei.
  2: { destruct (n_none _ _ I i Ei) as [Hu _]. by destruct (Hu CDead t0 None true) as [? _]. }
  destruct (n_call _ _ I i c' p Ei) as (t0' & Hc' & Hp).
  destruct (call_unique V (w_log s) i CDead t0 c' t0') as [<- <-]; [by apply I|done|done|].
  destruct p; [by destruct Hp as [[] _]|by destruct Hp as [? _]|by destruct Hp as (_ & ? & _)|].
  destruct Hp as [Hp _]. destruct (Hp eq_refl) as (_ & Hb & Hcl). destruct (Hb Ho) as [b Hh].
  pose proof (Hrest (LHelper i) Logic.I) as Hx. cbn [step] in Hx. rewrite Hh, Ei, He in Hx. destruct b; [|done]. by apply Hcl.
Qed.
Lemma end_once V s pre e post : reachable V s -> w_log s = pre ++ EvEnd e :: post -> forall e', ~ EvEnd e' ∈ post.
Proof. intros Hr El. pose proof (n_good _ _ (inv_reachable _ _ Hr)) as G. rewrite El in G. by apply goods_at in G. Qed.

(** * C65 *)
(** Every check returns by its timeout; and [at_rest] once the worker ended everything has returned. *)
Lemma check_at_rest V s i c t0 : reachable V s -> at_rest V s -> called (w_log s) i c t0 -> c <> CDead -> c <> CStop ->
  (forall j t1, EvKill j t1 ∈ w_log s -> t1 + v_killTimeout V <= w_now s) -> t0 + v_killTimeout V <= w_now s -> t0 + v_aliveDelay V <= w_now s ->
  exists r t, EvRet i r t ∈ w_log s.
Proof.
  intros Hr Hrest Hc H1 H2 H3 H4 H5. pose proof (inv_reachable _ _ Hr) as I.
  destruct (rest_call _ _ _ _ _ Hr Hrest Hc H1) as [|(_ & p & Hi & Hp)]; [done|].
  destruct Hp as [[_ ?]|(d & -> & Hd)]; [done|]. exfalso.
  destruct (n_call _ _ I i _ _ Hi) as (t0' & Hc' & _ & _ & H6 & _ & _ & _ & Ha & Hk & Hkk).
  destruct (call_unique V (w_log s) i c t0 c t0') as [_ <-]; [by apply I|done|done|].
  destruct c as [| | | | | | |[]]; try done.
  - specialize (Ha eq_refl). lia.
  - specialize (Hk eq_refl). lia.
  - specialize (H3 _ _ (Hkk Logic.I)). lia.
  - specialize (H3 _ _ (Hkk Logic.I)). lia.
  - specialize (H3 _ _ (Hkk Logic.I)). lia.
  - specialize (H3 _ _ (Hkk Logic.I)). lia.
Qed.
(** A worker that finished in time. *)
Lemma check_ended V s i c t0 : reachable V s -> at_rest V s -> called (w_log s) i c t0 -> c <> CDead -> ended (w_log s) -> exists r t, EvRet i r t ∈ w_log s.
Proof.
  intros Hr Hrest Hc H1 [e He]. destruct (rest_call _ _ _ _ _ Hr Hrest Hc H1) as [|[Hx _]]; [done|].
  apply (n_end _ _ (inv_reachable _ _ Hr)) in He. congruence.
Qed.
Lemma check_nil V s i isnil t0 pre r t post : reachable V s -> w_log s = pre ++ EvRet i r t :: post -> called (w_log s) i (CCheckNilOrKill isnil) t0 ->
  (failed post i <-> isnil = false).
Proof. intros Hr El Hc. destruct (returned _ _ _ _ _ _ _ _ _ Hr El Hc) as [Hp _]. destruct isnil; destruct Hp as [_ Hp]; [done|]. split; [done|]. intros _. by destruct Hp. Qed.

(** For examples *)
Definition quiet (s : state) : bool :=
  forallb (fun x : nat * (call * cpc) => match x.2.2 with PRet => true | _ => false end) (map_to_list (w_calls s)) && forallb (fun x : nat * bool => x.2 || negb (bool_decide (is_Some (w_ended s)))) (map_to_list (w_helper s)).
Lemma rest_2 V s : quiet s = true -> at_rest V s.
Proof.
  unfold quiet. intros [H1 H2]%andb_prop. rewrite forallb_forall in H1, H2.
  assert (Hc : forall i c p, w_calls s !! i = Some (c, p) -> p = PRet).
  { intros i c p Hi. specialize (H1 (i, (c, p))). simpl in H1. rewrite <- elem_of_list_In, elem_of_map_to_list in H1. specialize (H1 Hi). by destruct p. }
  assert (Hh : forall i b, w_helper s !! i = Some b -> b = true \/ w_ended s = None).
  { intros i b Hi. specialize (H2 (i, b)). simpl in H2. rewrite <- elem_of_list_In, elem_of_map_to_list in H2. specialize (H2 Hi). destruct b; [by left|]. simpl in H2. destruct (w_ended s); [|by right]. done. }
  intros l Hl. destruct l; try done; cbn [step].
  - destruct (w_calls s !! i) as [[c p]|] eqn:E; [|done]. by rewrite (Hc _ _ _ E).
  - destruct (w_calls s !! i) as [[c p]|] eqn:E; [|done]. by rewrite (Hc _ _ _ E).
  - destruct (w_helper s !! i) as [b|] eqn:E; [|done]. destruct (Hh _ _ E) as [-> | ->]; [done|]. by destruct b.
  - destruct (w_calls s !! i) as [[c p]|] eqn:E; [|done]. by rewrite (Hc _ _ _ E).
  - destruct (w_calls s !! i) as [[c p]|] eqn:E; [|done]. by rewrite (Hc _ _ _ E).
Qed.
