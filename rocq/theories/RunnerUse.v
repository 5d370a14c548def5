(** The callers of the Runner: replies, the mutex and the condition variable, removal signals. *)
From stdpp Require Import gmap strings list.
From Coq Require Import ZArith Lia.
From RecordUpdate Require Import RecordSet.
From Verif Require Import Err Tomb Runner RunnerSpec RunnerInv RunnerLog RunnerGor RunnerHist RunnerThms RunnerCalls.
Import RecordSetNotations.
Notation EvC ce := (EvClient ce).

Lemma own_noact P c l c' : own l = true -> l <> KAct -> cstep P c l = Some c' ->
  c_workers c' = c_workers c /\ c_signals c' = c_signals c /\
  (c_loop c' = c_loop c \/ (c_loop c = LTop /\ (c_loop c' = LDo AKillAll \/ (exists g w, c_loop c' = LDo (ASet g w)) \/ (exists g, c_loop c' = LDo (ADone g)) \/
     (c_loop c' = LEnded /\ finished c = true)))).
Proof.
  intros Ho Hn Hs. destruct l; try done; cbn in Hs.
  - injection Hs as <-. unfold kill_tomb. destruct (t_dying _); cbn; auto.
  - destruct (0 <=? d)%Z; [|done]. injection Hs as <-. cbn. auto.
  - injection Hs as <-. cbn. auto.
  - destruct (at_select c) eqn:Ha; [|done]. apply select_inv in Ha as [Ha _]. cbn in Hs. destruct (_ && _); [|done]. injection Hs as <-. cbn. auto 10.
  - destruct (c_gors c !! g) as [[? ? ? []]|]; try done. destruct (at_select c) eqn:Ha; [|done]. apply select_inv in Ha as [Ha _]. injection Hs as <-. cbn. split_and!; eauto 10.
  - destruct (c_gors c !! g) as [[? ? ? []]|]; try done. destruct (at_select c) eqn:Ha; [|done]. apply select_inv in Ha as [Ha _]. injection Hs as <-. cbn. split_and!; eauto 10.
  - destruct (c_loop c) eqn:Ha; try done. destruct (finished c) eqn:Hf; [|done]. injection Hs as <-. cbn. destruct (t_dead _); cbn; split_and!; eauto 10.
  - destruct (c_gors c !! g) as [[? ? ? []]|]; try done. destruct (0 <? d)%Z; injection Hs as <-; cbn; auto.
  - destruct (c_gors c !! g) as [[? ? ? []]|]; try done. destruct (_ <=? _)%Z; [|done]. injection Hs as <-. cbn; auto.
  - destruct (c_gors c !! g) as [[? ? ? []]|]; try done. destruct (t_dying _); [|done]. injection Hs as <-. cbn; auto.
  - destruct (c_gors c !! g) as [[? ? ? []]|]; try done. injection Hs as <-. cbn; auto.
  - destruct (c_gors c !! g) as [[? ? ? []]|]; try done. injection Hs as <-. cbn; auto.
  - destruct (c_gors c !! g) as [[? ? ? []]|]; try done; destruct (c_ended c !! g); try done; injection Hs as <-; cbn; auto.
  - destruct (c_gors c !! g) as [[? ? ? []]|]; try done; destruct (c_ended c !! g); try done; injection Hs as <-; cbn; auto.
  - destruct (c_gors c !! g) as [[? ? ? []]|]; try done; injection Hs as <-; cbn; auto.
Qed.

(** The actions of the loop, with the explicit successor of [ctrans]. *)
Definition act_loop (P : rcfg) (c : core) (a : lact) (c' : core) : Prop :=
  match a with
  | AKillAll => c_loop c' = LDo ABcast /\ c_workers c' = stop_info <$> c_workers c /\ c_signals c' = c_signals c
  | AStart i id f => c_signals c' = c_signals c /\ exists r, c_loop c' = LDo (AReply i r) /\ EvAnswer i id f r ∈ c_log c' /\
      (c_workers c' = c_workers c \/ (act_locks P c a = true /\ exists n, i_worker n = None /\ c_workers c !! id = None /\ c_workers c' = <[id := n]> (c_workers c)))
  | AReply _ _ => c_loop c' = LDo ABcast /\ c_workers c' = c_workers c /\ c_signals c' = c_signals c
  | AKill id => c_loop c' = LDo ABcast /\ c_signals c' = c_signals c /\
      (c_workers c' = c_workers c \/ exists n, c_workers c !! id = Some n /\ c_workers c' = <[id := stop_info n]> (c_workers c))
  | ASet g w => c_loop c' = LDo ABcast /\ c_signals c' = c_signals c
  | ADone g => exists id n, c_workers c !! id = Some n /\
      ((act_locks P c a = true /\ (c_loop c' = LDo ABcast \/ c_loop c' = LDo AKillAll) /\ c_workers c' = delete id (c_workers c) /\ c_signals c' = {[i_done n]} ∪ c_signals c /\ EvRemoved id (i_done n) ∈ c_log c') \/
       (c_loop c' = LDo ABcast /\ c_workers c' = <[id := n <| i_delay := r_delay P |>]> (c_workers c) /\ c_signals c' = c_signals c))
  | ABcast => c_loop c' = LTop /\ c_workers c' = c_workers c /\ c_signals c' = c_signals c
  end.
Lemma cstep_act P c a c' : cinv c -> c_loop c = LDo a -> cstep P c KAct = Some c' -> act_loop P c a c'.
Proof.
  intros V Hl Hs. cbn in Hs. rewrite Hl in Hs. destruct a; cbn.
  - injection Hs as <-. rewrite kill_all_spec. by cbn.
  - injection Hs as <-. unfold start_worker. destruct (c_dying c) eqn:Hd; cbn.
    + split; [done|]. exists None. split_and!; [done|by left|by left].
    + destruct (c_workers c !! id) as [n|] eqn:Hn; cbn.
      * split; [done|]. eexists. split_and!; [done|by left|by left].
      * split; [done|]. exists None. split_and!; [done|right; right; by left|]. right. split; [done|]. eexists. split_and!; [|done|reflexivity]. done.
  - by injection Hs as <-.
  - injection Hs as <-. unfold kill_worker. destruct (c_workers c !! id) as [n|] eqn:Hn; cbn; [|auto]. split; [done|].
    destruct (i_worker n) as [[g w]|]; cbn; (split; [done|]); right; exists n; (split; [done|]); done.
  - pose proof (ci_loop c V) as W. rewrite Hl in W. destruct W as (r & Hg & Hp). rewrite Hg in Hs. injection Hs as <-.
    destruct (proj2 (ci_act c V (w_id r))) as [n Hn]. { exists g, r. split_and!; [done|done|]. destruct Hp as [Hp|[Hp|[e Hp]]]; congruence. }
    unfold set_worker. rewrite Hn. cbn. split; [done|]. destruct (_ || _); [|done]. unfold kill_worker. cbn. rewrite lookup_insert. done.
  - pose proof (ci_loop c V) as W. rewrite Hl in W. destruct W as ([id f x p] & e & Hg & Hp). cbn in Hp. subst p. rewrite Hg in Hs. injection Hs as <-.
    destruct (proj2 (ci_act c V id)) as [n Hn]. { exists g. eexists. split_and!; [exact Hg|done|done]. }
    exists id, n. split; [done|]. rewrite Hg, Hn. unfold worker_done. cbn. rewrite Hn.
    assert (i_done n ∉ c_signals c) as Hsig by (by apply (ci_done c V id n)).
    destruct e as [y|]; cbn.
    + destruct (r_isFatal P y); cbn.
      { left. split; [done|]. destruct (c_dying c); cbn; unfold remove_worker; cbn; rewrite bool_decide_eq_false_2 by done; cbn; (split; [auto|]); (split; [done|]); (split; [done|]); [by left|right; by left]. }
      destruct (r_shouldRestart P y); cbn.
      * destruct (i_start n); cbn; [right; done|]. left. unfold remove_worker; cbn; rewrite bool_decide_eq_false_2 by done. cbn. split_and!; auto. by left.
      * left. split; [done|]. unfold remove_worker; cbn; rewrite bool_decide_eq_false_2 by done. cbn. split_and!; auto. by left.
    + destruct (i_stopping n); cbn.
      * destruct (i_start n); cbn; [right; done|]. left. unfold remove_worker; cbn; rewrite bool_decide_eq_false_2 by done. cbn. split_and!; auto. by left.
      * left. split; [done|]. unfold remove_worker; cbn; rewrite bool_decide_eq_false_2 by done. cbn. split_and!; auto. by left.
  - by injection Hs as <-.
Qed.

(** ** Replies to StartWorker *)
Lemma loopinv_trans P s s' : reachable P s -> loopinv s -> strans P s s' -> loopinv s'.
Proof.
  intros Hr [V5 V6 V7] HT. pose proof (a_inv P _ (reach_all P s Hr)) as C.
  assert (forall i p s2, rlog s ⊆ rlog s2 -> c_loop (s_core s2) = c_loop (s_core s) -> s_calls s2 = <[i := p]> (s_calls s) ->
    (forall id f, s_calls s !! i <> Some (CReply id f)) -> (forall id f, p <> CReply id f) -> loopinv s2) as Hfr.
  { intros i p s2 Hsub E1 E2 N1 N2. split; rewrite E1, E2.
    - intros j id f Hj. apply lookup_insert_Some in Hj as [[-> Hj]|[Hne Hj]]; [by destruct (N2 id f)|]. by apply V5.
    - intros j id f Hj. apply V6 in Hj. rewrite lookup_insert_ne; [done|]. intros ->. by destruct (N1 id f).
    - intros j r Hj. destruct (V7 _ _ Hj) as (id & f & H1 & H2). exists id, f. split; [|by apply Hsub]. rewrite lookup_insert_ne; [done|]. intros ->. by destruct (N1 id f). }
  assert (forall s2, rlog s ⊆ rlog s2 -> c_loop (s_core s2) = c_loop (s_core s) -> s_calls s2 = s_calls s -> loopinv s2) as Hfr2.
  { intros s2 Hsub E1 E2. split; rewrite E1, E2; [done|done|]. intros i r Hi. destruct (V7 _ _ Hi) as (id & f & H1 & H2). exists id, f. split; [done|by apply Hsub]. }
  destruct HT; unfold return_, tell; try (by apply (Hfr2 _)); try (by eapply (Hfr i); [|cbn; done|cbn; done|rewrite H; done|done]; try apply sub_cons; done).
  - assert (l = KAct \/ l <> KAct) as [->|Hne] by (destruct l; auto; by right).
    + destruct (c_loop (s_core s)) as [|a| |] eqn:Hl; try (cbn in H0; by rewrite Hl in H0).
      pose proof (cstep_act P _ a _ C Hl H0) as Ha. destruct a; cbn in Ha.
      * destruct Ha as (E & _). split; cbn; rewrite E; try done. intros i id f Hi. apply V5 in Hi as [|[? ?]]; congruence.
      * destruct Ha as (_ & r & E & Hans & _). split; cbn; rewrite E; try done.
        -- intros i id' f' Hi. right. apply V5 in Hi as [Hi|[? ?]]; [|done]. injection Hi as -> -> ->. eauto.
        -- intros i r' [= <- <-]. exists id, f. split; [by apply V6|done].
      * by destruct (H1 eq_refl c r).
      * destruct Ha as (E & _). split; cbn; rewrite E; try done. intros i id' f Hi. apply V5 in Hi as [|[? ?]]; congruence.
      * destruct Ha as (E & _). split; cbn; rewrite E; try done. intros i id' f Hi. apply V5 in Hi as [|[? ?]]; congruence.
      * destruct Ha as (id0 & n & _ & [(_ & E & _)|(E & _)]).
        -- split; cbn; destruct E as [E|E]; rewrite E; try done; intros i id' f Hi; apply V5 in Hi as [|[? ?]]; congruence.
        -- split; cbn; rewrite E; try done. intros i id' f Hi. apply V5 in Hi as [|[? ?]]; congruence.
      * by destruct (H2 eq_refl).
    + destruct (own_noact P _ _ _ H Hne H0) as (_ & _ & [E|(Htop & E)]).
      * apply Hfr2; cbn; [|done|done]. by eapply adds_sub, own_quiet.
      * assert (forall i id f, s_calls s !! i <> Some (CReply id f)) as N. { intros i id f Hi. apply V5 in Hi as [|[? ?]]; congruence. }
        split; cbn.
        -- intros i id f Hi. by destruct (N i id f).
        -- intros i id f Hi. destruct E as [E|[(? & ? & E)|[(? & E)|(E & _)]]]; congruence.
        -- intros i r Hi. destruct E as [E|[(? & ? & E)|[(? & E)|(E & _)]]]; congruence.
  - split; cbn; try done. intros j id' f' Hj. apply lookup_insert_Some in Hj as [[_ [=]]|[Hne Hj]]. apply V5 in Hj as [Hj|[r' Hj]]; congruence.
  - split; cbn; try done. intros j id' f' Hj. apply V5 in Hj as [Hj|[r' Hj]]; congruence.
  - apply (Hfr i (first_pc k)); cbn; [apply sub_cons|done|done|by rewrite H|by destruct k].
  - split; cbn; try done.
    + intros j id' f' Hj. left. apply lookup_insert_Some in Hj as [[<- [= <- <-]]|[Hne Hj]]; [done|]. apply V5 in Hj as [Hj|[r' Hj]]; congruence.
    + intros j id' f' [= <- <- <-]. by rewrite lookup_insert.
  - assert (forall i id f, s_calls s !! i <> Some (CReply id f)) as N. { intros j id' f' Hi. apply V5 in Hi as [|[? ?]]; congruence. }
    split; cbn; try done. intros j id' f' Hj. apply lookup_insert_Some in Hj as [[_ [=]]|[Hne Hj]]. by destruct (N j id' f').
  - eapply (Hfr i CRet); cbn; [apply sub_cons|done|done| |done]. intros id' f'. destruct H as [[r H]|[H|H]]; congruence.
  - assert (forall id' f', s_calls s !! i <> Some (CReply id' f')) as N. { intros id' f'. destruct H as [[H _]|[(H & _)|(H & _)]]; congruence. }
    destruct r; cbn; [eapply (Hfr i CRet); cbn; [apply sub_cons|done..]|]. destruct k; [eapply (Hfr i CRet); cbn; [apply sub_cons|done..]|eapply (Hfr i (CKill id g w d)); cbn; done].
  - apply Hfr2; cbn; [apply sub_cons|done|done].
  - apply Hfr2; cbn; [apply sub_cons|done|done].
  - apply Hfr2; cbn; [apply sub_cons|done|done].
  - apply Hfr2; cbn; [apply sub_cons|done|done].
Qed.
Lemma reach_loopinv P s : reachable P s -> loopinv s.
Proof. revert s. apply (reach_ind P loopinv); [split; cbn; done|]. intros s s' Hr V _ HT. by eapply loopinv_trans. Qed.

(** ** The mutex and the condition variable *)
Record muinv (s : state) : Prop := {
  mu_held : forall i, s_mu s = Some i -> exists t, s_waits s !! i = Some t /\ (t_pc t = TLocked \/ t_pc t = TChecked) /\ get_worker (s_core s) (t_id t) = None;
  mu_owner : forall i t, s_waits s !! i = Some t -> t_pc t = TLocked \/ t_pc t = TChecked -> s_mu s = Some i;
  mu_wait : forall i t, s_waits s !! i = Some t -> t_pc t = TWaiting ->
    get_worker (s_core s) (t_id t) = None \/ c_loop (s_core s) = LDo ABcast \/ c_loop (s_core s) = LDo AKillAll
}.
Lemma get_worker_eq c c' id : c_workers c' !! id = c_workers c !! id -> get_worker c' id = get_worker c id.
Proof. unfold get_worker. by intros ->. Qed.
Lemma get_worker_delay c c' id n d id' : c_workers c !! id = Some n -> c_workers c' = <[id := n <| i_delay := d |>]> (c_workers c) -> get_worker c' id' = get_worker c id'.
Proof.
  intros Hn E. unfold get_worker. rewrite E. destruct (decide (id = id')) as [<-|Hne]; [by rewrite lookup_insert, Hn|by rewrite lookup_insert_ne].
Qed.
(** [muinv] is preserved when the runner's state and the mutex do not change and the waiters only change harmlessly. *)
Lemma muinv_frame s s' : muinv s -> s_mu s' = s_mu s -> (forall id, get_worker (s_core s') id = get_worker (s_core s) id) ->
  (c_loop (s_core s') = c_loop (s_core s) \/ (c_loop (s_core s) <> LDo ABcast /\ c_loop (s_core s) <> LDo AKillAll)) ->
  (forall i t, s_waits s !! i = Some t -> exists t', s_waits s' !! i = Some t' /\ t_id t' = t_id t /\ t_pc t' = t_pc t) ->
  (forall i t, s_waits s' !! i = Some t -> exists t', s_waits s !! i = Some t' /\ t_id t' = t_id t /\ t_pc t' = t_pc t) -> muinv s'.
Proof.
  intros [M1 M2 M3] E1 E2 E3 W1 W2. split.
  - intros i Hi. rewrite E1 in Hi. destruct (M1 _ Hi) as (t & Ht & Hp & Hg). destruct (W1 _ _ Ht) as (t' & Ht' & A1 & A2). exists t'. rewrite A1, A2, E2. auto.
  - intros i t Ht Hp. rewrite E1. destruct (W2 _ _ Ht) as (t' & Ht' & A1 & A2). apply (M2 i t'); [done|]. by rewrite A2.
  - intros i t Ht Hp. destruct (W2 _ _ Ht) as (t' & Ht' & A1 & A2). rewrite E2, <- A1. rewrite <- A2 in Hp. destruct E3 as [->|[E3 E4]]; [by apply (M3 i)|destruct (M3 i t' Ht' Hp) as [?|[?|?]]; auto; done].
Qed.
Lemma wake_waits (m : gmap nat waiter) i t : fmap wake m !! i = Some t -> exists t0, m !! i = Some t0 /\ t = wake t0.
Proof. rewrite lookup_fmap. destruct (m !! i) as [t0|]; [|done]. intros [= <-]. eauto. Qed.
Lemma wake_pc t : t_pc (wake t) = match t_pc t with TWaiting => TWoken | p => p end.
Proof. by destruct t as [? [] ? ?]. Qed.
Lemma muinv_bcast s : muinv s -> muinv (broadcast s).
Proof.
  intros [M1 M2 M3]. split; cbn.
  - intros i Hi. destruct (M1 _ Hi) as (t & Ht & Hp & Hg). exists (wake t). rewrite lookup_fmap, Ht, wake_id, wake_pc. split_and!; [done| |done]. destruct Hp as [->| ->]; auto.
  - intros i t Ht Hp. apply wake_waits in Ht as (t0 & Ht & ->). apply (M2 i t0 Ht). rewrite wake_pc in Hp. destruct (t_pc t0); destruct Hp; try done; auto.
  - intros i t Ht Hp. apply wake_waits in Ht as (t0 & Ht & ->). rewrite wake_pc in Hp. by destruct (t_pc t0).
Qed.
Lemma muinv_trans P s s' : reachable P s -> muinv s -> strans P s s' -> muinv s'.
Proof.
  intros Hr V HT. pose proof (a_inv P _ (reach_all P s Hr)) as C. pose proof V as [M1 M2 M3].
  destruct HT; unfold return_, tell; try (by apply (muinv_frame s); cbn; eauto).
  - assert (l = KAct \/ l <> KAct) as [->|Hne] by (destruct l; auto; by right).
    + destruct (c_loop (s_core s)) as [|a| |] eqn:Hl; try (cbn in H0; by rewrite Hl in H0).
      pose proof (cstep_act P _ a _ C Hl H0) as Ha. specialize (H3 eq_refl a eq_refl).
      destruct (act_locks P (s_core s) a) eqn:Hlk.
      * specialize (H3 eq_refl). split; cbn.
        -- congruence.
        -- intros i t Ht Hp. rewrite H3. rewrite <- H3. by eapply M2.
        -- intros i t Ht Hp. destruct a; cbn in Ha.
           ++ right. left. by destruct Ha.
           ++ destruct Ha as (_ & r & _ & _ & Ha). left. destruct (M3 _ _ Ht Hp) as [Hg|[?|?]]; [|congruence..]. destruct Ha as [E|(_ & n & Hn & Hid & E)].
              ** rewrite <- Hg. apply get_worker_eq. by rewrite E.
              ** destruct (decide (id = t_id t)) as [<-|Hne]; [|rewrite <- Hg; apply get_worker_eq; by rewrite E, lookup_insert_ne]. unfold get_worker. by rewrite E, lookup_insert, Hn.
           ++ done.
           ++ right. left. by destruct Ha.
           ++ right. left. by destruct Ha.
           ++ destruct Ha as (id & n & _ & [(_ & E & _)|(E & _)]); [right; destruct E; auto|auto].
           ++ done.
      * assert (forall id, get_worker c' id = get_worker (s_core s) id) as Eg.
        { intros id. destruct a; cbn in Hlk; try done; cbn in Ha.
           - destruct Ha as (_ & r & _ & _ & [E|(Hlk' & _)]); [apply get_worker_eq; by rewrite E|]. rewrite Hlk in Hlk'. done.
           - destruct Ha as (_ & E & _). apply get_worker_eq. by rewrite E.
           - destruct Ha as (id0 & n & Hn & [(Hlk' & _)|(_ & E & _)]); [|by eapply get_worker_delay]. rewrite Hlk in Hlk'. done.
           - destruct Ha as (_ & E & _). apply get_worker_eq. by rewrite E. }
        split; cbn.
        -- intros i Hi. setoid_rewrite Eg. by apply M1.
        -- exact M2.
        -- intros i t Ht Hp. rewrite Eg. destruct (M3 _ _ Ht Hp) as [?|[[= ->]|[= ->]]]; [auto| |done]. by destruct (H2 eq_refl).
    + destruct (own_noact P _ _ _ H Hne H0) as (E & _ & El).
      assert (forall id, get_worker c' id = get_worker (s_core s) id) as Eg by (intros id; apply get_worker_eq; by rewrite E).
      split; cbn.
      * intros i Hi. setoid_rewrite Eg. by apply M1.
      * exact M2.
      * intros i t Ht Hp. rewrite Eg. destruct (M3 _ _ Ht Hp) as [?|Hlo]; [auto|]. destruct El as [->|[El _]]; [auto|]. destruct Hlo; congruence.
  - apply (muinv_frame s); cbn; [done|done|done| |eauto|eauto]. right. rewrite H. done.
  - (* bcast *) apply muinv_bcast in V. split; cbn; [exact (mu_held _ V)|exact (mu_owner _ V)|].
    intros i t Ht Hp. apply wake_waits in Ht as (t0 & Ht & ->). rewrite wake_pc in Hp. by destruct (t_pc t0).
  - apply (muinv_frame s); cbn; [done|done|done| |eauto|eauto]. right. rewrite H0. done.
  - apply (muinv_frame s); cbn; [done|done|done| |eauto|eauto]. right. rewrite H0. done.
  - (* blocks *) split; cbn.
    + intros j [= <-]. rewrite lookup_insert. eexists. split_and!; [done|by left|done].
    + intros j t Ht Hp. apply lookup_insert_Some in Ht as [[<- <-]|[Hne Ht]]; [done|]. apply M2 in Ht; [congruence|done].
    + intros j t Ht Hp. apply lookup_insert_Some in Ht as [[<- <-]|[Hne Ht]]; [done|]. by apply (M3 j).
  - destruct r; cbn; [|destruct k; cbn]; apply (muinv_frame s); cbn; eauto.
  - apply (muinv_frame (broadcast (s <| s_waits ::= alter (fun t => t <| t_stopped := true |>) i |>))); cbn; [|done|done|auto|eauto|eauto].
    apply muinv_bcast. apply (muinv_frame s); cbn; [done|done|done|auto| |].
    + intros j t Ht. destruct (decide (i = j)) as [<-|Hne]; [rewrite lookup_alter, Ht; cbn; by eexists|rewrite lookup_alter_ne, Ht by done; by eexists].
    + intros j t Ht. destruct (decide (i = j)) as [<-|Hne].
      * rewrite lookup_alter in Ht. destruct (s_waits s !! i) as [t0|]; [|done]. injection Ht as <-. by eexists.
      * rewrite lookup_alter_ne in Ht by done. eauto.
  - (* wtstop *) assert (s_mu s = Some i) as Hmu by (eapply M2; [exact H|by left]). split; cbn; [done| |].
    + intros j t Ht Hp. apply lookup_insert_Some in Ht as [[<- <-]|[Hne Ht]]; [by destruct Hp|]. apply M2 in Ht; [congruence|done].
    + intros j t Ht Hp. apply lookup_insert_Some in Ht as [[<- <-]|[Hne Ht]]; [done|]. by apply (M3 j).
  - assert (s_mu s = Some i) as Hmu by (eapply M2; [exact H|by left]). split; cbn.
    + intros j Hj. assert (j = i) as -> by congruence. rewrite lookup_insert. destruct (M1 _ Hj) as (t & Ht & _ & Hg). rewrite H in Ht. injection Ht as <-. eexists. split_and!; [done|by right|done].
    + intros j t Ht Hp. apply lookup_insert_Some in Ht as [[<- <-]|[Hne Ht]]; [done|]. by apply M2 in Ht.
    + intros j t Ht Hp. apply lookup_insert_Some in Ht as [[<- <-]|[Hne Ht]]; [done|]. by apply (M3 j).
  - assert (s_mu s = Some i) as Hmu by (eapply M2; [exact H|by right]). split; cbn; [done| |].
    + intros j t Ht Hp. apply lookup_insert_Some in Ht as [[<- <-]|[Hne Ht]]; [by destruct Hp|]. apply M2 in Ht; [congruence|done].
    + intros j t Ht Hp. apply lookup_insert_Some in Ht as [[<- <-]|[Hne Ht]]; [|by apply (M3 j)].
      left. destruct (M1 _ Hmu) as (t & Ht & _ & Hg). rewrite H in Ht. by injection Ht as <-.
  - split; cbn.
    + congruence.
    + intros j t Ht Hp. apply lookup_insert_Some in Ht as [[<- <-]|[Hne Ht]]; [by destruct Hp|]. by apply M2 in Ht.
    + intros j t Ht Hp. apply lookup_insert_Some in Ht as [[<- <-]|[Hne Ht]]; [done|]. by apply (M3 j).
  - split; cbn.
    + intros j [= <-]. rewrite lookup_insert. eexists. split_and!; [done|by left|done].
    + intros j t Ht Hp. apply lookup_insert_Some in Ht as [[<- <-]|[Hne Ht]]; [done|]. apply M2 in Ht; [congruence|done].
    + intros j t Ht Hp. apply lookup_insert_Some in Ht as [[<- <-]|[Hne Ht]]; [done|]. by apply (M3 j).
Qed.
Lemma reach_muinv P s : reachable P s -> muinv s.
Proof. revert s. apply (reach_ind P muinv); [split; cbn; done|]. intros s s' Hr V _ HT. by eapply muinv_trans. Qed.

(** ** Waiters that gave up *)
Record exitinv (s : state) : Prop := {
  ex_exit : forall i t, s_waits s !! i = Some t -> t_pc t = TExit -> t_chan t <> None \/ t_stopped t = true;
  ex_stop : forall i t, s_waits s !! i = Some t -> t_stopped t = true -> s_calls s !! i = Some CRet
}.
Lemma exitinv_frame s s' : exitinv s -> (forall i, s_calls s !! i = Some CRet -> s_calls s' !! i = Some CRet) ->
  (forall i t, s_waits s' !! i = Some t -> (exists t', s_waits s !! i = Some t' /\ (t_pc t = TExit -> t_pc t' = TExit) /\ t_chan t = t_chan t' /\ t_stopped t = t_stopped t') \/ (t_stopped t = false /\ (t_pc t = TExit -> t_chan t <> None))) -> exitinv s'.
Proof.
  intros [E1 E2] H1 H2. split.
  - intros i t Ht Hp. destruct (H2 _ _ Ht) as [(t' & Ht' & A1 & -> & ->)|[A1 A2]]; [eauto|auto].
  - intros i t Ht Hp. destruct (H2 _ _ Ht) as [(t' & Ht' & A1 & A2 & A3)|[A1 A2]]; [|congruence]. apply H1. eapply E2; [done|congruence].
Qed.
Lemma exitinv_trans P s s' : exitinv s -> strans P s s' -> exitinv s'.
Proof.
  intros V HT. pose proof V as [E1 E2].
  assert (forall i p (m : gmap nat cpc), (m !! i <> Some CRet) -> forall j, m !! j = Some CRet -> <[i := p]> m !! j = Some CRet) as Hi.
  { intros i p m Hn j Hj. rewrite lookup_insert_ne; congruence. }
  assert (forall s' i p, s_calls s !! i <> Some CRet -> s_calls s' = <[i := p]> (s_calls s) -> s_waits s' = s_waits s -> exitinv s') as Hfr.
  { intros s1 i p Hn A1 A2. apply (exitinv_frame s); [done| |].
    - intros j Hj. rewrite A1. by apply Hi.
    - intros j t Ht. rewrite A2 in Ht. left. eauto 10. }
  assert (forall s', s_calls s' = s_calls s -> s_waits s' = s_waits s -> exitinv s') as Hfr2.
  { intros s1 A1 A2. apply (exitinv_frame s); [done| |].
    - intros j Hj. by rewrite A1.
    - intros j t Ht. rewrite A2 in Ht. left. eauto 10. }
  destruct HT; unfold return_, tell; try (by apply Hfr2); try (eapply (Hfr _ i); [|done..]; rewrite H; done).
  - eapply (Hfr _ i); [|done..]. rewrite H0. done.
  - (* bcast *) apply (exitinv_frame s); cbn; [done|done|]. intros j t Ht. left. apply wake_waits in Ht as (t0 & Ht & ->). exists t0. rewrite wake_pc, wake_chan. split_and!; [done| |done|by destruct t0 as [? [] ? ?]].
    by destruct (t_pc t0).
  - (* blocks *) apply (exitinv_frame s); cbn; [done|apply Hi; rewrite H; done|]. intros j t Ht. apply lookup_insert_Some in Ht as [[<- <-]|[Hne Ht]]; [right; done|left; eauto 10].
  - eapply (Hfr _ i); [|done..]. destruct H as [[r H]|[H|H]]; congruence.
  - assert (s_calls s !! i <> Some CRet) as Hn by (destruct H as [[H _]|[(H & _)|(H & _)]]; congruence).
    destruct r; cbn; [eapply (Hfr _ i); done|]. destruct k; cbn; eapply (Hfr _ i); done.
  - (* abort *) split; cbn.
    + intros j t Ht Hp. apply wake_waits in Ht as (t0 & Ht & ->). rewrite wake_pc in Hp. rewrite wake_chan. assert (t_stopped (wake t0) = t_stopped t0) as -> by (by destruct t0 as [? [] ? ?]).
      destruct (decide (i = j)) as [<-|Hne].
      * rewrite lookup_alter in Ht. destruct (s_waits s !! i) as [t1|]; [|done]. injection Ht as <-. by right.
      * rewrite lookup_alter_ne in Ht by done. eapply E1; [exact Ht|]. by destruct (t_pc t0).
    + intros j t Ht Hp. apply wake_waits in Ht as (t0 & Ht & ->). assert (t_stopped (wake t0) = t_stopped t0) as Es by (by destruct t0 as [? [] ? ?]). rewrite Es in Hp.
      destruct (decide (i = j)) as [<-|Hne]; [by rewrite lookup_insert|]. rewrite lookup_alter_ne in Ht by done. rewrite lookup_insert_ne by done. by eapply E2.
  - (* wtstop *) split; cbn.
    + intros j t Ht Hp. apply lookup_insert_Some in Ht as [[<- <-]|[Hne Ht]]; [by right|by eapply E1].
    + intros j t Ht Hp. apply lookup_insert_Some in Ht as [[<- <-]|[Hne Ht]]; [by eapply E2|by eapply E2].
  - apply (exitinv_frame s); cbn; [done|done|]. intros j t Ht. apply lookup_insert_Some in Ht as [[<- <-]|[Hne Ht]]; left; [|eauto 10]. eexists. split_and!; [exact H|done..].
  - apply (exitinv_frame s); cbn; [done|done|]. intros j t Ht. apply lookup_insert_Some in Ht as [[<- <-]|[Hne Ht]]; left; [|eauto 10]. eexists. split_and!; [exact H|done..].
  - split; cbn.
    + intros j t Ht Hp. apply lookup_insert_Some in Ht as [[<- <-]|[Hne Ht]]; [by left|by eapply E1].
    + intros j t Ht Hp. apply lookup_insert_Some in Ht as [[<- <-]|[Hne Ht]]; [by eapply E2|by eapply E2].
  - apply (exitinv_frame s); cbn; [done|done|]. intros j t Ht. apply lookup_insert_Some in Ht as [[<- <-]|[Hne Ht]]; left; [|eauto 10]. eexists. split_and!; [exact H|done..].
Qed.
Lemma reach_exitinv P s : reachable P s -> exitinv s.
Proof. revert s. apply (reach_ind P exitinv); [split; cbn; done|]. intros s s' Hr V _ HT. by eapply exitinv_trans. Qed.
