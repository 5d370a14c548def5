(** Proofs for C82: what is so in every state. *)
From stdpp Require Import gmap strings list relations.
From RecordUpdate Require Import RecordSet.
From Verif Require Import Err Tomb Tree TreeSpec TreeProofs TreeFinish FairTree Reports ReportsSpec ReportsProofs.
From Verif Require Snapshot Engine EngineSpec EngineLog EngineObs EngineMore EngineMore2 Runner RunnerSpec RunnerHist RunnerLog RunnerThms RunnerGor.
Import RecordSetNotations.

Lemma true_mono tr F : forall a b n t, true_report0 tr a b n t -> true_report0 (tr ++ [F]) a b n t.
Proof.
  fix IH 5. intros a b n t H. destruct H as [a b n hd tb kids F0 nd H1 H2 H3 H4 H5 H6 H7 H8 H9].
  apply (true_intro0 _ a b n hd tb kids F0 nd); [done| | |done|done| |done|done|].
  - destruct H2 as [x H2]. exists x. by apply lookup_app_l_Some.
  - by apply lookup_app_l_Some.
  - intros j F' Hj Hl. apply (H6 j F' Hj). destruct H2 as [x H2]. apply lookup_lt_Some in H2. rewrite lookup_app_l in Hl by lia. done.
  - intros k t Hk. destruct (H9 k t Hk) as (c & a' & b' & A1 & A2 & A3 & A4). exists c, a', b'. split_and!; [done..|]. by apply IH.
Qed.

Definition frame_ok (tr : list forest) (R : rstate) (i : nat) (f : frame) (cur : list nat) (a : nat) : Prop :=
  (exists F nd, tr !! a = Some F /\ f_nodes F !! fr_node f = Some nd /\ fr_head f = head_of nd /\
    (match nd with NEngine _ _ | NRunner _ _ => forall k, k ∈ reporters nd <-> k ∈ cur \/ k ∈ fr_todo f \/ k ∈ (fr_kids f).*1 | _ => True end) /\
    (forall k, k ∈ fr_todo f -> is_Some (f_link F !! (fr_node f, k))) /\
    (forall k t, (k, t) ∈ fr_kids f -> exists c a' b', a <= a' /\ b' < length tr /\ f_link F !! (fr_node f, k) = Some c /\ true_report0 tr a' b' c t)) /\
  NoDup (cur ++ (fr_kids f).*1) /\ (forall k, k ∈ cur ++ (fr_kids f).*1 -> k ∉ fr_todo f) /\
  (forall j F, a <= j -> tr !! j = Some F -> exists nd, f_nodes F !! fr_node f = Some nd /\ table_of nd = fr_table f /\ ok_at (fr_locks f) nd) /\
  (exists nd, f_nodes (r_forest R) !! fr_node f = Some nd /\ ok_at (fr_locks f) nd) /\
  (fr_locks f = true -> r_lock R !! fr_node f = Some i).
Fixpoint stack_ok (tr : list forest) (R : rstate) (i lo n0 : nat) (st : list (nat * frame)) (n a : nat) : Prop :=
  match st with
  | [] => n = n0 /\ lo <= a
  | (k, f) :: st' => exists a' F, a' <= a /\ frame_ok tr R i f [k] a' /\ tr !! a' = Some F /\ f_link F !! (fr_node f, k) = Some n /\
      stack_ok tr R i lo n0 st' (fr_node f) a'
  end.
Definition pc_ok (tr : list forest) (R : rstate) (i lo n0 : nat) (p : rpc) : Prop :=
  match p with
  | Entering n st => stack_ok tr R i lo n0 st n (length tr - 1) /\ is_Some (f_nodes (r_forest R) !! n)
  | Inside f st => exists a, frame_ok tr R i f [] a /\ stack_ok tr R i lo n0 st (fr_node f) a
  | Returned n t => n = n0 /\ exists a b, lo <= a /\ true_report0 tr a b n t
  end.
Definition frames (p : rpc) : list frame :=
  match p with Entering _ st => st.*2 | Inside f st => f :: st.*2 | Returned _ _ => [] end.
Definition locked (p : rpc) : list nat := fr_node <$> filter (fun f => fr_locks f = true) (frames p).
Record rinv (ls : list rlabel) (tr : list forest) (R : rstate) : Prop := {
  i_len : length tr = S (length ls);
  i_last : tr !! length ls = Some (r_forest R);
  i_reach : freachable (r_forest R);
  i_all : forall j F, tr !! j = Some F -> freachable F;
  i_calls : forall i p, r_calls R !! i = Some p -> exists pre n0 post, ls = pre ++ RCall i n0 :: post /\ pc_ok tr R i (S (length pre)) n0 p;
  i_nodup : forall i p, r_calls R !! i = Some p -> NoDup (locked p);
  i_lock : forall n i, r_lock R !! n = Some i -> exists p, r_calls R !! i = Some p /\ n ∈ locked p;
  i_links : forall j F n k c, tr !! j = Some F -> f_link F !! (n, k) = Some c -> f_link (r_forest R) !! (n, k) = Some c
}.

Definition keeps (R R' : rstate) (i : nat) (f : frame) : Prop :=
  (forall nd, f_nodes (r_forest R) !! fr_node f = Some nd -> ok_at (fr_locks f) nd ->
    exists nd', f_nodes (r_forest R') !! fr_node f = Some nd' /\ ok_at (fr_locks f) nd' /\ table_of nd' = table_of nd) /\
  (fr_locks f = true -> r_lock R !! fr_node f = Some i -> r_lock R' !! fr_node f = Some i).
Lemma frame_keeps ls tr R R' i f cur a : rinv ls tr R -> frame_ok tr R i f cur a -> keeps R R' i f -> frame_ok (tr ++ [r_forest R']) R' i f cur a.
Proof.
  intros V ((F & nd & B1 & B2 & B3 & B4 & B5 & B6) & A2 & A3 & A4 & (ndn & A5 & A6) & A7) [K1 K2].
  destruct (K1 ndn A5 A6) as (nd' & N1 & N2 & N3).
  assert (a <= length ls) as Ha. { apply lookup_lt_Some in B1. rewrite (i_len _ _ _ V) in B1. lia. }
  split; [|split_and!; [done|done| | |]].
  - exists F, nd. split_and!; [by apply lookup_app_l_Some|done..|]. intros k t Hk. destruct (B6 k t Hk) as (c & a' & b' & C1 & C2 & C3 & C4).
    exists c, a', b'. rewrite app_length. split_and!; [done|lia|done|by apply true_mono].
  - intros j F' Hj Hl. apply lookup_app_Some in Hl as [Hl|[_ Hl]]; [by apply (A4 j F')|].
    apply list_lookup_singleton_Some in Hl as [_ <-]. exists nd'. split_and!; [done| |done]. rewrite N3.
    destruct (A4 (length ls) _ Ha (i_last _ _ _ V)) as (nd2 & C1 & C2 & _). congruence.
  - eauto.
  - auto.
Qed.
Lemma stack_keeps ls tr R R' i lo n0 st : rinv ls tr R -> (forall k f, (k, f) ∈ st -> keeps R R' i f) -> forall n a a1, a <= a1 -> stack_ok tr R i lo n0 st n a ->
  stack_ok (tr ++ [r_forest R']) R' i lo n0 st n a1.
Proof.
  intros V. induction st as [|[k f] st IH]; intros Hk n a a1 Ha H; cbn in *; [lia|].
  destruct H as (a' & F & H1 & H2 & H3 & H4 & H5). exists a', F. split_and!; [lia| | |done|].
  - eapply frame_keeps; [done|done|]. apply (Hk k). by left.
  - by apply lookup_app_l_Some.
  - eapply IH; [|done|done]. intros k' f' Hin. apply (Hk k'). by right.
Qed.
Lemma pc_keeps ls tr R R' i lo n0 p : rinv ls tr R -> (forall f, f ∈ frames p -> keeps R R' i f) ->
  (forall n, is_Some (f_nodes (r_forest R) !! n) -> is_Some (f_nodes (r_forest R') !! n)) -> pc_ok tr R i lo n0 p -> pc_ok (tr ++ [r_forest R']) R' i lo n0 p.
Proof.
  intros V Hk Hn H. destruct p as [n st|f st|n t]; cbn in *.
  - destruct H as [H1 H2]. split; [|auto]. eapply stack_keeps; [done| | |done]; [|rewrite app_length; cbn; lia]. intros k f Hin. apply Hk. by apply (elem_of_list_fmap_1 snd st (k, f)).
  - destruct H as (a & H1 & H2). exists a. split.
    + eapply frame_keeps; [done|done|]. apply Hk. by left.
    + eapply stack_keeps; [done| | |done]; [|done]. intros k g Hin. apply Hk. right. by apply (elem_of_list_fmap_1 snd st (k, g)).
  - destruct H as (-> & a & b & H1 & H2). split; [done|]. exists a, b. split; [done|]. by apply true_mono.
Qed.
Lemma locked_in p f : f ∈ frames p -> fr_locks f = true -> fr_node f ∈ locked p.
Proof. intros H1 H2. unfold locked. apply elem_of_list_fmap_1, elem_of_list_filter. done. Qed.
Lemma stack_frame tr R i lo n0 st n a k f : stack_ok tr R i lo n0 st n a -> (k, f) ∈ st -> exists a', frame_ok tr R i f [k] a'.
Proof.
  revert n a. induction st as [|[k' f'] st IH]; intros n a H Hin; [by apply elem_of_nil in Hin|]. cbn in H. destruct H as (a' & F & H1 & H2 & H3 & H4 & H5).
  apply elem_of_cons in Hin as [[= <- <-]|Hin]; eauto.
Qed.
Lemma frame_in ls tr R i p f : rinv ls tr R -> r_calls R !! i = Some p -> f ∈ frames p -> exists cur a, frame_ok tr R i f cur a.
Proof.
  intros V Hc Hf. destruct (i_calls _ _ _ V i p Hc) as (pre & n0 & post & _ & H). destruct p as [n st|g st|n t]; cbn in *.
  - destruct H as [H _]. apply elem_of_list_fmap in Hf as ([k f'] & -> & Hin). destruct (stack_frame _ _ _ _ _ _ _ _ _ _ H Hin) as [a' Ha]. eauto.
  - destruct H as (a & H1 & H2). apply elem_of_cons in Hf as [-> |Hf]; [eauto|].
    apply elem_of_list_fmap in Hf as ([k f'] & -> & Hin). destruct (stack_frame _ _ _ _ _ _ _ _ _ _ H2 Hin) as [a' Ha]. eauto.
  - by apply elem_of_nil in Hf.
Qed.
Lemma fstep_some F l F' n : fstep F l = Some F' -> is_Some (f_nodes F !! n) -> is_Some (f_nodes F' !! n).
Proof. intros Hs [nd Hn]. destruct (fstep_nodes _ _ _ _ _ Hs Hn) as (? & nd' & H & _). eauto. Qed.
Lemma freach_fstep F l F' : freachable F -> fok l -> fstep F l = Some F' -> freachable F'.
Proof. intros (ls & Hok & Hrun) Hl Hs. exists (ls ++ [l]). split; [|by eapply frun_snoc]. apply Forall_app. split; [done|]. by constructor. Qed.
Lemma reporter_linked F n nd k : freachable F -> f_nodes F !! n = Some nd -> k ∈ reporters nd -> is_Some (f_link F !! (n, k)).
Proof.
  intros Hr Hn Hk. pose proof (finv_reach F Hr) as V. apply (v_known F V n nd k Hn). pose proof (v_ok F V n nd Hn) as Hok. destruct nd as [E s|P s|me s|kk f]; cbn in Hk |- *.
  - apply elem_of_list_omap in Hk as (m & _ & Hm). destruct (EngineSpec.registered (Engine.s_log s) m) as [[g [|w]]|] eqn:E1; try done.
    destruct (Engine.e_reporter E w); [|done]. injection Hm as ->. destruct (EngineMore2.registered_event _ _ _ _ E1) as [t Ht].
    exists m, w. by eapply EngineMore2.register_ret.
  - apply elem_of_list_omap in Hk as ([id i] & Hi & Hw). apply elem_of_map_to_list in Hi. cbn in Hw. destruct (Runner.i_worker i) as [[g w]|] eqn:E1; [|done]. injection Hw as ->.
    pose proof (RunnerHist.a_gor P _ (RunnerThms.reach_all P s (ok_runner P s Hok))) as G. exists id, w.
    apply (RunnerGor.gl_setret _ G). by eapply (RunnerGor.gl_reg _ G).
  - by apply elem_of_nil in Hk.
  - by apply elem_of_nil in Hk.
Qed.
Lemma ok_at_unique b b' nd : ok_at b nd -> ok_at b' nd -> b = b'.
Proof. destruct nd; cbn; [intros [? _] [? _]|intros [? _] [? _]|intros|intros]; congruence. Qed.
Lemma rinv_init : rinv [] [finit] rinit.
Proof.
  split; try done.
  - exists []. split; [constructor|done].
  - intros [|j] F Hj; [|done]. injection Hj as <-. exists []. split; [constructor|done].
  - intros [|j] F n k c Hj; [by injection Hj as <-|done].
Qed.
Lemma links_app ls tr R F : rinv ls tr R -> (forall n k c, f_link (r_forest R) !! (n, k) = Some c -> f_link F !! (n, k) = Some c) ->
  forall j F0 n k c, (tr ++ [F]) !! j = Some F0 -> f_link F0 !! (n, k) = Some c -> f_link F !! (n, k) = Some c.
Proof.
  intros V Hl j F0 n k c Hj Hc. apply lookup_app_Some in Hj as [Hj|[_ Hj]].
  - apply Hl. by eapply (i_links _ _ _ V).
  - apply list_lookup_singleton_Some in Hj as [_ <-]. done.
Qed.
Lemma all_app ls tr R F : rinv ls tr R -> freachable F -> forall j F0, (tr ++ [F]) !! j = Some F0 -> freachable F0.
Proof. intros V Hl j F0 Hj. apply lookup_app_Some in Hj as [Hj|[_ Hj]]; [by eapply (i_all _ _ _ V)|]. apply list_lookup_singleton_Some in Hj as [_ <-]. done. Qed.
Lemma leave_some F m F' : leave F m = Some F' -> (F' = F /\ exists nd, f_nodes F !! m = Some nd /\ report_label nd = None) \/
  exists nd l, f_nodes F !! m = Some nd /\ report_label nd = Some l /\ fstep F (FStep m l []) = Some F'.
Proof.
  unfold leave. destruct (f_nodes F !! m) as [nd|] eqn:Hn; [|done]. destruct (report_label nd) as [l|] eqn:Hl; intros H; [eauto 8|]. left. injection H as <-. eauto.
Qed.

Lemma rinv_step ls tr R l R' : rinv ls tr R -> rok l -> rstep R l = Some R' -> rinv (ls ++ [l]) (tr ++ [r_forest R']) R'.
Proof.
  intros V Hok Hs. pose proof (i_len _ _ _ V) as Hlen. pose proof (i_last _ _ _ V) as Hlast.
  assert (Hl1 : length (tr ++ [r_forest R']) = S (length (ls ++ [l]))) by (rewrite !app_length; cbn; lia).
  assert (Hl2 : (tr ++ [r_forest R']) !! length (ls ++ [l]) = Some (r_forest R')).
  { rewrite app_length. cbn. rewrite lookup_app_r by lia. by replace (length ls + 1 - length tr) with 0 by lia. }
  destruct l as [l|i n|i ks|i k|i]; cbn [rstep] in Hs.
  - (* RForest *)
    destruct (blocked R l) eqn:Hb; [done|]. destruct (fstep (r_forest R) l) as [F'|] eqn:Hf; [|done]. injection Hs as <-. cbn in *.
    assert (Hk : forall i p f, r_calls R !! i = Some p -> f ∈ frames p -> keeps R (R <| r_forest := F' |>) i f).
    { intros i p f Hc Hin. destruct (frame_in _ _ _ _ _ _ V Hc Hin) as (cur & a & _ & _ & _ & _ & _ & Hlk). split; [|done]. intros nd Hn Ho. cbn.
      apply (fstep_table _ _ _ _ _ _ Hf Hn Ho). intros Hlo x cs ->. cbn in Hb. rewrite Hn, (Hlk Hlo) in Hb. done. }
    split; try done.
    + eapply freach_fstep; [apply V|done|done].
    + apply (all_app _ _ _ _ V). eapply freach_fstep; [apply V|done|done].
    + cbn. intros i p Hc. destruct (i_calls _ _ _ V i p Hc) as (pre & n0 & post & -> & Hp). exists pre, n0, (post ++ [RForest l]). split; [by rewrite <- app_assoc|].
      apply (pc_keeps _ _ _ _ _ _ _ _ V (fun f => Hk i p f Hc)); [|done]. intros n. cbn. by apply (fstep_some _ _ _ _ Hf).
    + apply V.
    + apply V.
    + apply (links_app _ _ _ _ V). intros n k c. by apply fstep_link with l.
  - (* RCall *)
    destruct (r_calls R !! i) eqn:Hi; [done|]. destruct (f_nodes (r_forest R) !! n) as [nd|] eqn:Hn; [|done]. destruct (ready nd); [|done]. injection Hs as <-. cbn in *.
    split; try done.
    + apply V.
    + apply (all_app _ _ _ _ V). apply V.
    + cbn. intros j p Hc. apply lookup_insert_Some in Hc as [[<- <-]|[Hne Hc]].
      * exists ls, n, []. split; [done|]. split; [|eauto]. cbn. split; [done|]. rewrite app_length in *. cbn in *. lia.
      * destruct (i_calls _ _ _ V j p Hc) as (pre & n0 & post & -> & Hp). exists pre, n0, (post ++ [RCall i n]). split; [by rewrite <- app_assoc|].
        assert (Hpk := pc_keeps _ _ R (R <| r_calls ::= <[i:=Entering n []]> |>) j (S (length pre)) n0 p V). apply Hpk; [intros f _; split; cbn; eauto|cbn; auto|done].
    + cbn. intros j p Hc. apply lookup_insert_Some in Hc as [[<- <-]|[Hne Hc]]; [constructor|]. by eapply V.
    + cbn. intros m j Hm. destruct (i_lock _ _ _ V m j Hm) as (p & Hp & Hin). exists p. rewrite lookup_insert_ne; [done|]. intros ->. congruence.
    + by apply (links_app _ _ _ _ V).
  - (* REnter *)
    destruct (r_calls R !! i) as [[n st| |]|] eqn:Hi; try done. destruct (enter R n ks) as [f|] eqn:He; [|done]. injection Hs as <-.
    set (R' := R <| r_calls ::= <[i:=Inside f st]> |> <| r_lock ::= if fr_locks f then <[n:=i]> else id |>) in *.
    assert (HF : r_forest R' = r_forest R) by done. rewrite HF in *.
    unfold enter in He. destruct (f_nodes (r_forest R) !! n) as [nd|] eqn:Hn; [|done].
    assert (exists b todo, f = frame_of n nd b todo /\ ok_at b nd /\ (b = true -> r_lock R !! n = None) /\
      (match nd with NEngine _ _ | NRunner _ _ => todo = reporters nd | _ => True end) /\ (forall k, k ∈ todo -> is_Some (f_link (r_forest R) !! (n, k)))) as (b & todo & -> & Hob & Hfree & Htodo & Hlinks).
    { assert (Hrl : forall k, k ∈ reporters nd -> is_Some (f_link (r_forest R) !! (n, k))). { intros k. apply reporter_linked; [apply V|done]. }
      destruct nd as [E s|P s|me s|kk ff].
      - destruct (Engine.s_running s) eqn:Hr.
        + destruct (bool_decide _) eqn:Hd; [|done]. apply bool_decide_eq_true in Hd. injection He as <-. exists true, (reporters (NEngine E s)). split_and!; try done.
        + destruct (t_dead (Engine.s_tomb s)) eqn:Hd; [|done]. injection He as <-. exists false, (reporters (NEngine E s)). split_and!; try done.
      - destruct (bool_decide (r_lock R !! n = None)) eqn:Hd; [|done]. apply bool_decide_eq_true in Hd. cbn in He. destruct (bool_decide _) eqn:Hm; [|done].
        apply bool_decide_eq_true in Hm. injection He as <-. exists true, (reporters (NRunner P s)). split_and!; try done.
      - destruct (forallb _ ks) eqn:Hfa; [|done]. injection He as <-. exists false, ks. split_and!; try done. intros k Hk. rewrite forallb_forall in Hfa.
        apply elem_of_list_In, Hfa in Hk. by apply bool_decide_eq_true in Hk.
      - destruct (forallb _ ks) eqn:Hfa; [|done]. injection He as <-. exists false, ks. split_and!; try done. intros k Hk. rewrite forallb_forall in Hfa.
        apply elem_of_list_In, Hfa in Hk. by apply bool_decide_eq_true in Hk. }
    assert (Hlock : forall m j, r_lock R !! m = Some j -> r_lock R' !! m = Some j).
    { intros m j Hm. unfold R'. cbn. destruct b; [|done]. cbn. rewrite lookup_insert_ne; [done|]. intros <-. by rewrite (Hfree eq_refl) in Hm. }
    assert (Hk : forall j f, keeps R R' j f). { intros j f. split; [eauto|]. intros _. apply Hlock. }
    split; try done.
    + apply V.
    + apply (all_app _ _ _ _ V). apply V.
    + intros j p Hc. unfold R' in Hc. cbn in Hc. apply lookup_insert_Some in Hc as [[<- <-]|[Hne Hc]].
      * destruct (i_calls _ _ _ V i _ Hi) as (pre & n0 & post & -> & Hp & _). exists pre, n0, (post ++ [REnter i ks]). split; [by rewrite <- app_assoc|].
        exists (length tr). assert (Hnew : (tr ++ [r_forest R]) !! length tr = Some (r_forest R)) by (rewrite lookup_app_r by done; by rewrite Nat.sub_diag). split.
        -- split; [|split_and!].
           ++ exists (r_forest R), nd. cbn. split_and!; [done|done|done| |done|].
              ** destruct nd; try done; intros k; rewrite Htodo; (split; [tauto|]); intros [Hx|[Hx|Hx]]; [by apply elem_of_nil in Hx|done|by apply elem_of_nil in Hx|by apply elem_of_nil in Hx|done|by apply elem_of_nil in Hx].
              ** intros k t Hx. by apply elem_of_nil in Hx.
           ++ constructor.
           ++ intros k Hx. by apply elem_of_nil in Hx.
           ++ intros m F Hm Hmf. assert (m = length tr) as ->. { apply lookup_lt_Some in Hmf. rewrite app_length in Hmf. cbn in Hmf. lia. } rewrite Hnew in Hmf. injection Hmf as <-. cbn. eauto.
           ++ exists nd. done.
           ++ cbn. intros ->. unfold R'. cbn. by rewrite lookup_insert.
        -- rewrite <- HF. eapply stack_keeps; [done|auto| |done]. lia.
      * destruct (i_calls _ _ _ V j p Hc) as (pre & n0 & post & -> & Hp). exists pre, n0, (post ++ [REnter i ks]). split; [by rewrite <- app_assoc|].
        rewrite <- HF. by eapply pc_keeps.
    + intros j p Hc. unfold R' in Hc. cbn in Hc. apply lookup_insert_Some in Hc as [[<- <-]|[Hne Hc]]; [|by eapply V].
      pose proof (i_nodup _ _ _ V _ _ Hi) as Hnd. unfold locked in *. cbn [frames] in *. rewrite filter_cons. cbn [frame_of fr_locks]. destruct (decide (b = true)) as [Hbt|]; [|done].
      cbn. constructor; [|done]. intros Hin. apply elem_of_list_fmap in Hin as (g & Hg1 & Hg2). apply elem_of_list_filter in Hg2 as [Hg2 Hg3].
      destruct (frame_in _ _ _ _ _ g V Hi Hg3) as (cur & a & _ & _ & _ & _ & _ & Hlk). rewrite <- Hg1, (Hfree Hbt) in Hlk. by specialize (Hlk Hg2).
    + intros m j Hm. unfold R' in Hm. cbn in Hm. assert (r_lock R !! m = Some j \/ (b = true /\ m = n /\ j = i)) as [Hm'|(Hb & -> & ->)].
      { destruct b; [|by left]. apply lookup_insert_Some in Hm as [[<- <-]|[_ Hm]]; auto. }
      * destruct (i_lock _ _ _ V m j Hm') as (p & Hp & Hin). unfold R'. cbn. destruct (decide (i = j)) as [<-|Hne].
        -- rewrite Hi in Hp. injection Hp as <-. exists (Inside (frame_of n nd b todo) st). rewrite lookup_insert. split; [done|]. unfold locked in *. cbn [frames] in *. rewrite filter_cons.
           destruct (decide _); [by right|done].
        -- exists p. by rewrite lookup_insert_ne.
      * exists (Inside (frame_of n nd b todo) st). split; [unfold R'; cbn; by rewrite lookup_insert|]. apply (locked_in (Inside (frame_of n nd b todo) st) (frame_of n nd b todo)); [by left|done].
    + by apply (links_app _ _ _ _ V).
  - (* RAsk *)
    destruct (r_calls R !! i) as [[|f st|]|] eqn:Hi; try done. destruct (bool_decide (k ∈ fr_todo f)) eqn:Hk; [|done]. apply bool_decide_eq_true in Hk. cbn in Hs.
    destruct (f_link (r_forest R) !! (fr_node f, k)) as [c|] eqn:Hc; [|done]. injection Hs as <-.
    set (f' := mkFrame (fr_node f) (fr_locks f) (fr_head f) (fr_table f) (list_difference (fr_todo f) [k]) (fr_kids f)) in *.
    set (R' := R <| r_calls ::= <[i:=Entering c ((k, f') :: st)]> |>) in *.
    assert (HF : r_forest R' = r_forest R) by done. rewrite HF in *.
    assert (Hkeep : forall j f, keeps R R' j f) by (intros j g; split; cbn; eauto).
    assert (Hlk : locked (Entering c ((k, f') :: st)) = locked (Inside f st)).
    { unfold locked. cbn [frames]. rewrite fmap_cons, !filter_cons. cbn. by destruct (decide _). }
    split; try done.
    + apply V.
    + apply (all_app _ _ _ _ V). apply V.
    + intros j p Hp. unfold R' in Hp. cbn in Hp. apply lookup_insert_Some in Hp as [[<- <-]|[Hne Hp]].
      * destruct (i_calls _ _ _ V i _ Hi) as (pre & n0 & post & -> & a & Hf & Hst). exists pre, n0, (post ++ [RAsk i k]). split; [by rewrite <- app_assoc|].
        pose proof (frame_keeps _ _ _ _ _ _ _ _ V Hf (Hkeep i f)) as Hf2. rewrite HF in Hf2. cbn.
        destruct Hf2 as ((F & nd & B1 & B2 & B3 & B4 & B5 & B6) & A2 & A3 & A4 & A5 & A6).
        assert (Ha : a < length tr). { destruct Hf as ((F' & _ & B1' & _) & _). by eapply lookup_lt_Some. }
        destruct (B5 k Hk) as [c' Hc']. pose proof (links_app _ _ _ _ V (fun _ _ _ H => H) _ _ _ _ _ B1 Hc') as Hcc. assert (c' = c) as -> by congruence. clear Hcc.
        split; [|destruct (v_link _ (finv_reach _ (i_reach _ _ _ V)) _ _ _ Hc) as (_ & ndc & Hndc & _); eauto].
        exists a, F. split_and!; [rewrite app_length; cbn; lia| |done|done|].
        -- split; [|split_and!; [| |done..]].
           ++ exists F, nd. cbn. split_and!; [done..| | |done].
              ** destruct nd; try done; intros k'; rewrite (B4 k'), elem_of_list_difference; rewrite elem_of_list_singleton; destruct (decide (k' = k)) as [-> |]; set_solver.
              ** intros k' Hk'. apply B5. by apply elem_of_list_difference in Hk' as [? _].
           ++ cbn. constructor; [|done]. intros Hin. by apply (A3 k).
           ++ intros k' Hk'. cbn. rewrite elem_of_list_difference, elem_of_list_singleton. intros [Hk1 Hk2]. cbn in Hk'. apply elem_of_cons in Hk' as [?|Hk']; [done|]. by apply (A3 k').
        -- rewrite <- HF. eapply stack_keeps; [done|auto| |done]. lia.
      * destruct (i_calls _ _ _ V j p Hp) as (pre & n0 & post & -> & Hpc). exists pre, n0, (post ++ [RAsk i k]). split; [by rewrite <- app_assoc|].
        rewrite <- HF. by eapply pc_keeps.
    + intros j p Hp. unfold R' in Hp. cbn in Hp. apply lookup_insert_Some in Hp as [[<- <-]|[Hne Hp]]; [|by eapply V]. rewrite Hlk. by eapply V.
    + intros m j Hm. destruct (i_lock _ _ _ V m j Hm) as (p & Hp & Hin). unfold R'. cbn. destruct (decide (i = j)) as [<- |Hne].
      * rewrite lookup_insert. eexists. split; [done|]. rewrite Hlk. rewrite Hi in Hp. by injection Hp as <-.
      * exists p. by rewrite lookup_insert_ne.
    + by apply (links_app _ _ _ _ V).
  - (* RLeave *)
    destruct (r_calls R !! i) as [[|f st|]|] eqn:Hi; try done. destruct (fr_todo f) as [|] eqn:Htodo; [|done]. destruct (leave (r_forest R) (fr_node f)) as [F'|] eqn:Hlv; [|done]. injection Hs as <-.
    set (t := RT (fr_head f) (fr_table f) (fr_kids f)) in *.
    set (p' := match st with [] => Returned (fr_node f) t | (k, g) :: st' => Inside (mkFrame (fr_node g) (fr_locks g) (fr_head g) (fr_table g) (fr_todo g) (fr_kids g ++ [(k, t)])) st' end) in *.
    set (R' := R <| r_forest := F' |> <| r_lock ::= if fr_locks f then delete (fr_node f) else id |> <| r_calls ::= <[i:=p']> |>) in *.
    assert (HF : r_forest R' = F') by done. rewrite HF in *.
    destruct (i_calls _ _ _ V i _ Hi) as (pre & n0 & post & Hls & a & Hf & Hst).
    pose proof (i_nodup _ _ _ V _ _ Hi) as Hnd. unfold locked in Hnd. cbn [frames] in Hnd. rewrite filter_cons in Hnd.
    assert (Hclash : forall j p g, r_calls R !! j = Some p -> g ∈ frames p -> (j = i -> g ∈ st.*2) -> fr_locks g = true -> fr_node g <> fr_node f).
    { intros j p g Hp Hg Hji Hlg Heq. destruct (frame_in _ _ _ _ _ _ V Hp Hg) as (cur & a' & _ & _ & _ & _ & (nd1 & N1 & N2) & L1).
      destruct Hf as (_ & _ & _ & _ & (nd2 & N3 & N4) & L2). rewrite Heq in *. rewrite N3 in N1. injection N1 as <-. pose proof (ok_at_unique _ _ _ N2 N4) as Hb. rewrite Hlg in Hb. symmetry in Hb.
      specialize (L1 Hlg). specialize (L2 Hb). rewrite L2 in L1. injection L1 as <-. specialize (Hji eq_refl).
      rewrite decide_True in Hnd by done. cbn in Hnd. apply NoDup_cons in Hnd as [Hnd _]. apply Hnd. rewrite <- Heq. apply elem_of_list_fmap_1, elem_of_list_filter. done. }
    assert (Hkeep : forall j p g, r_calls R !! j = Some p -> g ∈ frames p -> (j = i -> g ∈ st.*2) -> keeps R R' j g).
    { intros j p g Hp Hg Hji. specialize (Hclash j p g Hp Hg Hji). split.
      - intros nd Hn Ho. rewrite HF. destruct (leave_some _ _ _ Hlv) as [[-> _]|(nd0 & l & Hn0 & Hl0 & Hf0)]; [eauto|]. apply (fstep_table _ _ _ _ _ _ Hf0 Hn Ho).
        intros Hb x cs [= Heq _ _]. by destruct (Hclash Hb).
      - intros Hb Hl. unfold R'. cbn. destruct (fr_locks f); [|done]. rewrite lookup_delete_ne; [done|]. intros Heq. by apply (Hclash Hb). }
    assert (Hlinkm : forall n k c, f_link (r_forest R) !! (n, k) = Some c -> f_link F' !! (n, k) = Some c).
    { destruct (leave_some _ _ _ Hlv) as [[-> _]|(nd0 & l & _ & _ & Hf0)]; [done|]. intros n k c. by apply fstep_link with (FStep (fr_node f) l []). }
    assert (Hnodes : forall n, is_Some (f_nodes (r_forest R) !! n) -> is_Some (f_nodes F' !! n)).
    { destruct (leave_some _ _ _ Hlv) as [[-> _]|(nd0 & l & _ & _ & Hf0)]; [done|]. intros n. by apply fstep_some with (FStep (fr_node f) l []). }
    assert (Hin2 : forall k g, (k, g) ∈ st -> g ∈ st.*2). { intros k g Hin. by apply (elem_of_list_fmap_1 snd st (k, g)). }
    assert (Ha : a < length tr). { destruct Hf as ((F0 & _ & B1' & _) & _). by eapply lookup_lt_Some. }
    assert (Ht : true_report0 tr a (length ls) (fr_node f) t).
    { destruct Hf as ((F & nd & B1 & B2 & B3 & B4 & B5 & B6) & A2 & A3 & A4 & A5 & A6). apply (true_intro0 _ a (length ls) (fr_node f) _ _ _ F nd); [lia|eauto|done|done|done| | |done|].
      - intros j F0 Hj Hj'. destruct (A4 j F0 (proj1 Hj) Hj') as (nd0 & ? & ? & _). eauto.
      - destruct nd; try done; intros k; rewrite (B4 k), Htodo; set_solver.
      - intros k t' Hin. destruct (B6 k t' Hin) as (c & a' & b' & C1 & C2 & C3 & C4). exists c, a', b'. split_and!; [done|lia|done|done]. }
    assert (Hlkd : forall m, m ∈ locked p' <-> m ∈ fr_node <$> filter (fun f => fr_locks f = true) st.*2).
    { intros m. unfold p'. destruct st as [|[k g] st']; [done|]. unfold locked. cbn [frames]. rewrite fmap_cons, !filter_cons. cbn. destruct (decide (fr_locks g = true)); rewrite ?fmap_cons; reflexivity. }
    split; try done.
    + destruct (leave_some _ _ _ Hlv) as [[-> _]|(nd0 & l & _ & _ & Hf0)]; [apply V|]. eapply freach_fstep; [apply V| |done]. done.
    + apply (all_app _ _ _ _ V). destruct (leave_some _ _ _ Hlv) as [[-> _]|(nd0 & l & _ & _ & Hf0)]; [apply V|]. eapply freach_fstep; [apply V| |done]. done.
    + intros j p Hp. unfold R' in Hp. cbn in Hp. apply lookup_insert_Some in Hp as [[<- <-]|[Hne Hp]].
      * exists pre, n0, (post ++ [RLeave i]). split; [by rewrite Hls, <- app_assoc|]. unfold p'. destruct st as [|[k g] st'].
        -- cbn in Hst |- *. destruct Hst as [Hn0 Hlo]. split; [done|]. exists a, (length ls). split; [done|]. by apply true_mono.
        -- cbn in Hst. destruct Hst as (a' & F & C1 & C2 & C3 & C4 & C5). cbn. exists a'.
           assert (Kg : keeps R R' i g). { apply (Hkeep i (Inside f ((k, g) :: st')) g Hi); [right; by left|by left]. }
           split.
           ++ pose proof (frame_keeps _ _ _ _ _ _ _ _ V C2 Kg) as ((F1 & nd & B1 & B2 & B3 & B4 & B5 & B6) & A2 & A3 & A4 & A5 & A6).
              assert (F1 = F) as ->. { rewrite lookup_app_l in B1; [congruence|]. lia. }
              split; [|split_and!; [| |done..]].
              ** exists F, nd. cbn. split_and!; [done..| |done|].
                 --- destruct nd; try done; intros k'; rewrite (B4 k'), fmap_app; cbn; set_solver.
                 --- intros k' t' Hin. apply elem_of_app in Hin as [Hin|Hin]; [by apply B6|]. apply elem_of_list_singleton in Hin. injection Hin as -> ->.
                     exists (fr_node f), a, (length ls). rewrite app_length. cbn. split_and!; [done|lia|done|]. by apply true_mono.
              ** cbn. rewrite fmap_app. cbn. apply NoDup_app. apply NoDup_cons in A2 as [A21 A22]. split_and!; [done| |by apply NoDup_singleton].
                 intros x Hx Hx2. apply elem_of_list_singleton in Hx2 as ->. done.
              ** cbn. intros k' Hk'. apply A3. rewrite fmap_app in Hk'. cbn in Hk' |- *. set_solver.
           ++ rewrite <- HF. eapply stack_keeps; [done| | |done]; [|lia]. intros k' f' Hin. apply (Hkeep i (Inside f ((k, g) :: st')) f' Hi); [right; right; by apply (elem_of_list_fmap_1 snd st' (k', f'))|intros _; right; by apply (elem_of_list_fmap_1 snd st' (k', f'))].
      * destruct (i_calls _ _ _ V j p Hp) as (pre' & n0' & post' & Hls' & Hpc). exists pre', n0', (post' ++ [RLeave i]). split; [by rewrite Hls', <- app_assoc|].
        rewrite <- HF. eapply pc_keeps; [done| |done|done]. intros g Hg. apply (Hkeep j p g Hp Hg). congruence.
    + intros j p Hp. unfold R' in Hp. cbn in Hp. apply lookup_insert_Some in Hp as [[<- <-]|[Hne Hp]]; [|by eapply V].
      assert (NoDup (fr_node <$> filter (fun f => fr_locks f = true) st.*2)) as Hnd2. { destruct (decide (fr_locks f = true)); [cbn in Hnd; by apply NoDup_cons in Hnd as [_ ?]|done]. }
      unfold p'. destruct st as [|[k g] st']; [constructor|]. unfold locked. cbn [frames]. rewrite fmap_cons, !filter_cons in Hnd2. rewrite filter_cons. cbn in *. destruct (decide (fr_locks g = true)); rewrite ?fmap_cons in *; exact Hnd2.
    + intros m j Hm. unfold R' in Hm. cbn in Hm. assert (r_lock R !! m = Some j /\ (fr_locks f = true -> m <> fr_node f)) as [Hm1 Hm2].
      { destruct (fr_locks f); [|done]. apply lookup_delete_Some in Hm as [??]. done. }
      destruct (i_lock _ _ _ V m j Hm1) as (p & Hp & Hin). unfold R'. cbn. destruct (decide (i = j)) as [<- |Hne].
      * rewrite lookup_insert. eexists. split; [done|]. apply Hlkd. rewrite Hi in Hp. injection Hp as <-. unfold locked in Hin. cbn [frames] in Hin. rewrite filter_cons in Hin.
        destruct (decide (fr_locks f = true)) as [Hb|]; [|done]. rewrite fmap_cons in Hin. apply elem_of_cons in Hin as [Hin|?]; [|done]. by destruct (Hm2 Hb).
      * exists p. by rewrite lookup_insert_ne.
    + by apply (links_app _ _ _ _ V).
Qed.

Lemma forests_app ls : forall R R1 l R', rrun R ls = Some R1 -> rstep R1 l = Some R' -> forests R (ls ++ [l]) = forests R ls ++ [r_forest R'].
Proof.
  induction ls as [|x ls IH]; intros R R1 l R' Hr Hs; cbn in *; [injection Hr as ->; by rewrite Hs|]. destruct (rstep R x) as [R2|]; [|done]. cbn. f_equal. by eapply IH.
Qed.
Lemma rrun_app ls1 : forall R ls2, rrun R (ls1 ++ ls2) = match rrun R ls1 with Some R' => rrun R' ls2 | None => None end.
Proof. induction ls1 as [|l ls1 IH]; intros R ls2; cbn; [done|]. destruct (rstep R l); [apply IH|done]. Qed.
Lemma rinv_run ls : forall R, Forall rok ls -> rrun rinit ls = Some R -> rinv ls (forests rinit ls) R.
Proof.
  induction ls as [|l ls IH] using rev_ind; intros R Hok Hr.
  - injection Hr as <-. apply rinv_init.
  - rewrite rrun_app in Hr. destruct (rrun rinit ls) as [R1|] eqn:E; [|done]. cbn in Hr. destruct (rstep R1 l) as [R'|] eqn:Hs; [|done]. injection Hr as <-.
    apply Forall_app in Hok as [Hok1 Hok2]. apply Forall_cons in Hok2 as [Hok2 _]. rewrite (forests_app _ _ _ _ _ E Hs). eapply rinv_step; eauto.
Qed.
Lemma forests_at ls : forall R j F, forests R ls !! j = Some F -> exists R', rrun R (take j ls) = Some R' /\ r_forest R' = F.
Proof.
  induction ls as [|l ls IH]; intros R j F H; cbn in H.
  - destruct j; cbn in H; [|done]. injection H as <-. by exists R.
  - destruct j as [|j]; cbn in H; [injection H as <-; by exists R|]. cbn. destruct (rstep R l) as [R1|]; [|done]. by apply IH.
Qed.
Lemma forests_reach ls j F : Forall rok ls -> forests rinit ls !! j = Some F -> freachable F.
Proof. intros Hok H. apply forests_at in H as (R' & Hr & <-). apply (rinv_run (take j ls)); [by apply Forall_take|done]. Qed.
Lemma report_true ls R i n t : Forall rok ls -> rrun rinit ls = Some R -> r_calls R !! i = Some (Returned n t) ->
  exists pre post a b, ls = pre ++ RCall i n :: post /\ length pre < a /\ true_report (forests rinit ls) a b n t.
Proof.
  intros Hok Hr Hc. destruct (i_calls _ _ _ (rinv_run _ _ Hok Hr) _ _ Hc) as (pre & n0 & post & Hls & <- & a & b & Hlo & Ht). exists pre, post, a, b. split_and!; [done|done|]. apply true_convert; [|done]. intros j F. by apply forests_reach.
Qed.
Lemma projection R : rreachable R -> freachable (r_forest R).
Proof. intros (ls & Hok & Hr). apply (rinv_run _ _ Hok Hr). Qed.
