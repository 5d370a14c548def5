(** Proofs for C82: reports come to an end. *)
From stdpp Require Import gmap strings list relations.
From RecordUpdate Require Import RecordSet.
From Coq Require Import Wellfounded.
From Verif Require Import Err Tomb Tree TreeSpec TreeProofs TreeFinish FairTree Reports ReportsSpec ReportsProofs ReportsInv ReportsExample.
From Verif Require Snapshot Engine EngineSpec EngineLog EngineObs EngineMicro EngineMore EngineMore2 Runner RunnerSpec RunnerHist RunnerLog RunnerThms RunnerGor RunnerUse RunnerAnswers.
Import RecordSetNotations.

(** ** Multisets of numbers *)
Definition smaller (l' l : list nat) : Prop := exists x M ys, l ≡ₚ x :: M /\ l' ≡ₚ ys ++ M /\ Forall (fun y => y < x) ys.
Lemma smaller_perm l1 l2 : l1 ≡ₚ l2 -> Acc smaller l1 -> Acc smaller l2.
Proof. intros Hp [H]. constructor. intros l (x & M & ys & H1 & H2 & H3). apply H. exists x, M, ys. split_and!; [by rewrite Hp|done..]. Qed.
Lemma smaller_cons l x M : smaller l (x :: M) -> (exists M', l ≡ₚ x :: M' /\ smaller M' M) \/ exists ys, l ≡ₚ ys ++ M /\ Forall (fun y => y < x) ys.
Proof.
  intros (y & N & ys & H1 & H2 & H3). destruct (decide (x = y)) as [<-|Hne].
  - right. exists ys. split; [|done]. apply Permutation_cons_inv in H1. by rewrite H1.
  - left. assert (x ∈ N) as Hx. { assert (x ∈ x :: M) as Hx by left. rewrite H1 in Hx. by apply elem_of_cons in Hx as [?|?]. }
    apply elem_of_Permutation in Hx as [N' HN]. exists (ys ++ N'). split; [by rewrite H2, HN, <- Permutation_middle|].
    exists y, N', ys. split_and!; [|done|done]. apply (Permutation_cons_inv (a := x)). rewrite H1, HN. constructor.
Qed.
Lemma acc_cons x M : (forall y, y < x -> forall M, Acc smaller M -> Acc smaller (y :: M)) -> Acc smaller M -> Acc smaller (x :: M).
Proof.
  intros IH HM. induction HM as [M HM IHM]. constructor. intros l Hl. destruct (smaller_cons _ _ _ Hl) as [(M' & Hp & Hs)|(ys & Hp & Hys)].
  - eapply smaller_perm; [by symmetry|]. by apply IHM.
  - eapply smaller_perm; [by symmetry|]. clear Hp Hl. induction Hys as [|y ys Hy _ IHys]; [by constructor|]. cbn. by apply IH.
Qed.
Lemma smaller_wf : wf smaller.
Proof.
  intros l. induction l as [|x l IH].
  - constructor. intros l (x & M & ys & H & _). by apply Permutation_nil_cons in H.
  - revert l IH. induction (lt_wf x) as [x _ IHx]. intros M HM. by apply acc_cons.
Qed.
Lemma smaller_drop ds M x ys : forall l l', l ≡ₚ x :: ds ++ M -> l' ≡ₚ ys ++ M -> Forall (fun y => y < x) ys -> tc smaller l' l.
Proof.
  induction ds as [|d ds IH]; intros l l' H1 H2 H3.
  - apply tc_once. exists x, M, ys. done.
  - apply (tc_r l' (x :: ds ++ M) l); [by apply IH|]. exists d, (x :: ds ++ M), []. split_and!; [rewrite H1; cbn; constructor|done|constructor].
Qed.
Lemma acc_tc l : Acc smaller l -> Acc (tc smaller) l.
Proof.
  intros H. induction H as [l _ IH]. constructor. intros l' Ht. induction Ht as [l' l Ht|l' z l Ht _ IHt]; [by apply IH|]. apply (Acc_inv (IHt IH)). by apply tc_once.
Qed.
Lemma difference_perm (l : list nat) k : k ∈ l -> exists d, l ≡ₚ k :: repeat k d ++ list_difference l [k].
Proof.
  intros Hk. enough (exists d, l ≡ₚ repeat k d ++ list_difference l [k]) as [[|d] Hd].
  - exfalso. rewrite Hd in Hk. cbn in Hk. apply elem_of_list_difference in Hk as [_ Hk]. apply Hk. by left.
  - by exists d.
  - clear Hk. induction l as [|x l [d IH]]; [by exists 0|]. cbn. destruct (decide_rel _ x [k]) as [Hx|Hx].
    + apply elem_of_list_singleton in Hx as ->. exists (S d). cbn. by rewrite <- IH.
    + exists d. rewrite <- Permutation_middle. by rewrite <- IH.
Qed.
Lemma fmap_repeat (f : nat -> nat) k d : f <$> repeat k d = repeat (f k) d.
Proof. induction d as [|d IH]; [done|]. cbn. f_equal. exact IH. Qed.
Lemma smaller_ins M N x ys l l' : l ≡ₚ (x :: M) ++ N -> l' ≡ₚ (ys ++ M) ++ N -> Forall (fun y => y < x) ys -> smaller l' l.
Proof. intros H1 H2 H3. exists x, (M ++ N), ys. split_and!; [by rewrite H1|by rewrite H2, <- app_assoc|done]. Qed.

(** ** Nothing is blocked for ever *)
Lemma rreach_inv R : rreachable R -> exists ls tr, rinv ls tr R.
Proof. intros (ls & Hok & Hr). exists ls, (forests rinit ls). by apply rinv_run. Qed.
Lemma stack_rank rank ls tr R i lo n0 st : rinv ls tr R -> ranked rank (r_forest R) -> forall n a k f, stack_ok tr R i lo n0 st n a -> (k, f) ∈ st -> rank n < rank (fr_node f).
Proof.
  intros V Hrk. induction st as [|[k' f'] st IH]; intros n a k f H Hin; [by apply elem_of_nil in Hin|]. cbn in H. destruct H as (a' & F & H1 & H2 & H3 & H4 & H5).
  assert (rank n < rank (fr_node f')) by (apply (Hrk _ k'); by eapply (i_links _ _ _ V)). apply elem_of_cons in Hin as [[= -> ->]|Hin]; [done|]. etransitivity; [done|]. by eapply IH.
Qed.
Lemma fstep_plain F n nd l nd' : f_nodes F !! n = Some nd -> hands_over l = [] -> waited l = None -> nstep nd l = Some nd' ->
  fstep F (FStep n l []) = Some (pass_kills (F <| f_nodes ::= <[n := nd']> |>) n nd nd').
Proof. intros Hn Hh Hw Hs. cbn [fstep]. rewrite Hn, Hh, Hw, Hs. done. Qed.
Lemma leave_possible F n nd b : node_ok nd -> f_nodes F !! n = Some nd -> ok_at b nd -> is_Some (leave F n).
Proof.
  intros Hok Hn Ho. unfold leave. rewrite Hn. destruct nd as [E s|P s|me s|k f]; cbn [report_label]; [| |eauto..].
  - destruct (EngineLog.reachable_linv E s Hok) as [V _]. destruct (t_dead (Engine.s_tomb s)) eqn:Hd.
    + erewrite fstep_plain; [eauto|done..|]. cbn. by rewrite Hd.
    + destruct (Engine.s_running s) eqn:Hr; [|apply (EngineMore.running_dead s V) in Hr; congruence]. erewrite fstep_plain; [eauto|done..|]. cbn [nstep goexit Engine.step]. by rewrite Hr.
  - destruct Ho as [_ Ho]. erewrite fstep_plain; [eauto|done..|]. cbn [nstep goexit Runner.step]. by rewrite Ho.
Qed.
Lemma inside_steps R i f st : rreachable R -> r_calls R !! i = Some (Inside f st) -> exists l R', report_step l /\ rstep R l = Some R'.
Proof.
  intros Hr Hi. destruct (rreach_inv R Hr) as (ls & tr & V). destruct (i_calls _ _ _ V i _ Hi) as (pre & n0 & post & _ & a & Hf & Hst).
  destruct Hf as ((F & nd & B1 & B2 & B3 & B4 & B5 & B6) & A2 & A3 & A4 & (ndn & A5 & A5') & A6). destruct (fr_todo f) as [|k todo] eqn:Ht.
  - destruct (leave_possible _ _ _ _ (v_ok _ (finv_reach _ (i_reach _ _ _ V)) _ _ A5) A5 A5') as [F' HF]. exists (RLeave i). cbn. rewrite Hi, Ht, HF. eauto.
  - destruct (B5 k) as [c Hc]; [by left|]. apply (i_links _ _ _ V _ _ _ _ _ B1) in Hc. exists (RAsk i k). cbn. rewrite Hi, Ht. rewrite bool_decide_eq_true_2 by (by left). cbn. rewrite Hc. eauto.
Qed.
Lemma entering_steps rank R : rreachable R -> ranked rank (r_forest R) -> forall r i n st, rank n <= r -> r_calls R !! i = Some (Entering n st) -> exists l R', report_step l /\ rstep R l = Some R'.
Proof.
  intros Hr Hrk. destruct (rreach_inv R Hr) as (ls & tr & V). induction r as [r IH] using lt_wf_ind. intros i n st Hle Hi.
  destruct (i_calls _ _ _ V i _ Hi) as (pre & n0 & post & _ & Hst & nd & Hn). pose proof (v_ok _ (finv_reach _ (i_reach _ _ _ V)) _ _ Hn) as Hok.
  assert (Henter : forall ks f, enter R n ks = Some f -> exists l R', report_step l /\ rstep R l = Some R').
  { intros ks f Hf. exists (REnter i ks). cbn. rewrite Hi, Hf. eauto. }
  assert (Hlocked : forall j, r_lock R !! n = Some j -> exists l R', report_step l /\ rstep R l = Some R').
  { intros j Hj. destruct (i_lock _ _ _ V _ _ Hj) as (p & Hp & Hin). unfold locked in Hin. apply elem_of_list_fmap in Hin as (f & -> & Hin). apply elem_of_list_filter in Hin as [_ Hin].
    destruct p as [m st'|g st'|m t]; cbn in Hin; [|by eapply inside_steps|by apply elem_of_nil in Hin].
    apply elem_of_list_fmap in Hin as ([k f'] & -> & Hin). cbn in Hle. destruct (i_calls _ _ _ V j _ Hp) as (? & ? & ? & _ & Hst' & _).
    pose proof (stack_rank rank _ _ _ _ _ _ _ V Hrk _ _ _ _ Hst' Hin) as Hlt. eapply (IH (rank m)); [lia|done|done]. }
  unfold enter in Henter. rewrite Hn in Henter. destruct nd as [E s|P s|me s|k f].
  - destruct (EngineLog.reachable_linv E s Hok) as [VE _]. destruct (Engine.s_running s) eqn:Hrun.
    + destruct (r_lock R !! n) as [j|] eqn:Hj; [by eapply Hlocked|]. by eapply (Henter []).
    + apply (EngineMore.running_dead s VE) in Hrun. rewrite Hrun in Henter. by eapply (Henter []).
  - destruct (r_lock R !! n) as [j|] eqn:Hj; [by eapply Hlocked|]. destruct (Runner.s_mu s) as [w|] eqn:Hmu; [|by eapply (Henter [])]. clear Henter Hlocked.
    destruct (RunnerUse.mu_held s (RunnerUse.reach_muinv P s (ok_runner P s Hok)) _ Hmu) as ([id p stt ch] & Ht & Hp & _). cbn in Hp.
    assert (exists l, (l = Runner.LWtCheck w \/ l = Runner.LWtAdd w) /\ is_Some (Runner.step P s l)) as (l & Hl & s' & Hs').
    { destruct Hp as [-> | ->].
      - exists (Runner.LWtCheck w). split; [by left|]. cbn [Runner.step]. rewrite Ht. destruct stt; eauto.
      - exists (Runner.LWtAdd w). split; [by right|]. cbn [Runner.step]. rewrite Ht. eauto. }
    exists (RForest (FStep n (LRunner l) [])). cbn [rstep blocked]. rewrite Hn, Hj.
    erewrite (fstep_plain _ _ _ (LRunner l) (NRunner P s')); [|done|by destruct Hl as [-> | ->]|by destruct Hl as [-> | ->]|]; [|unfold nstep; replace (goexit (LRunner l)) with false by (by destruct Hl as [-> | ->]); by rewrite Hs'].
    eexists. split; [|done]. destruct Hl as [-> | ->]; done.
  - by eapply (Henter []).
  - by eapply (Henter []).
Qed.
Lemma never_stuck rank R i p : rreachable R -> ranked rank (r_forest R) -> r_calls R !! i = Some p -> (forall n t, p <> Returned n t) -> exists l R', report_step l /\ rstep R l = Some R'.
Proof.
  intros Hr Hrk Hi Hp. destruct p as [n st|f st|n t]; [|by eapply inside_steps|by destruct (Hp n t)]. by eapply (entering_steps rank R Hr Hrk (rank n)).
Qed.

(** ** Reports do not go on for ever *)
Section Measure.
  Variable rank : nat -> nat.
  Definition kid_item (L : gmap (nat * nat) nat) (n k : nat) : nat := match L !! (n, k) with Some c => 3 * rank c + 2 | None => 0 end.
  Definition fitems (L : gmap (nat * nat) nat) (f : frame) : list nat := 3 * rank (fr_node f) :: (kid_item L (fr_node f) <$> fr_todo f).
  Definition sitems (L : gmap (nat * nat) nat) (st : list (nat * frame)) : list nat := st ≫= (fun x => fitems L x.2).
  Definition pitems (L : gmap (nat * nat) nat) (p : rpc) : list nat :=
    match p with Entering n st => (3 * rank n + 1) :: sitems L st | Inside f st => fitems L f ++ sitems L st | Returned _ _ => [] end.
  Definition items (R : rstate) : list nat := map_to_list (r_calls R) ≫= (fun x => pitems (f_link (r_forest R)) x.2).
  Lemma items_insert L (m : gmap nat rpc) i p p' : m !! i = Some p -> exists N, (map_to_list m ≫= (fun x => pitems L x.2)) ≡ₚ pitems L p ++ N /\
    (map_to_list (<[i := p']> m) ≫= (fun x => pitems L x.2)) ≡ₚ pitems L p' ++ N.
  Proof.
    intros Hi. exists (map_to_list (delete i m) ≫= (fun x => pitems L x.2)). split.
    - rewrite <- (insert_delete m i p Hi) at 1. rewrite map_to_list_insert by apply lookup_delete. done.
    - rewrite <- insert_delete_insert. rewrite map_to_list_insert by apply lookup_delete. done.
  Qed.
  Definition mum (nd : node) : nat :=
    match nd with
    | NRunner _ s => match Runner.s_mu s with
                     | Some i => match Runner.s_waits s !! i with Some (Runner.mkWaiter _ Runner.TLocked _ _) => 2 | _ => 1 end
                     | None => 0 end
    | _ => 0
    end.
  Definition mum_at (F : forest) (n : nat) : nat := match f_nodes F !! n with Some nd => mum nd | None => 0 end.
  Definition mus (F : forest) : nat := sum_list (mum_at F <$> elements (dom (f_nodes F))).
  Lemma mum_kill nd : mum (nkill nd) = mum nd.
  Proof.
    destruct nd as [E s|P s|me s|k f]; unfold nkill; cbn [kill_label nstep goexit]; [by destruct (Engine.step E s _)| |by destruct (Catacomb.step me s _)|done].
    destruct (Runner.step P s _) as [s'|] eqn:Hs; [|done]. cbn [Runner.step] in Hs. cbn in Hs |- *. by injection Hs as <-.
  Qed.
  Lemma sum_le (f g : nat -> nat) l : (forall x, x ∈ l -> f x <= g x) -> sum_list (f <$> l) <= sum_list (g <$> l).
  Proof.
    induction l as [|x l IH]; intros H; [done|]. rewrite !fmap_cons. cbn. pose proof (H x (elem_of_list_here _ _)).
    assert (forall y, y ∈ l -> f y <= g y) as H1 by (intros; apply H; by right). specialize (IH H1). lia.
  Qed.
  Lemma sum_lt (f g : nat -> nat) l n : n ∈ l -> f n < g n -> (forall x, x ∈ l -> f x <= g x) -> sum_list (f <$> l) < sum_list (g <$> l).
  Proof.
    intros Hn Hlt. induction l as [|x l IH]; intros H; [by apply elem_of_nil in Hn|]. rewrite !fmap_cons. cbn. pose proof (H x (elem_of_list_here _ _)).
    assert (forall y, y ∈ l -> f y <= g y) as H1 by (intros; apply H; by right). apply elem_of_cons in Hn as [<-|Hn]; [pose proof (sum_le f g l H1); lia|]. specialize (IH Hn H1). lia.
  Qed.
  Lemma fstep_same F n l F' : fstep F (FStep n l []) = Some F' -> f_link F' = f_link F /\ dom (f_nodes F') = dom (f_nodes F).
  Proof.
    intros Hs. cbn [fstep] in Hs. destruct (f_nodes F !! n) as [nd|] eqn:Hn; [|done]. destruct (negb _) eqn:Hh; [done|]. destruct (negb _) in Hs; [done|]. destruct (nstep nd l) as [nd'|]; [|done].
    apply negb_false_iff, bool_decide_eq_true in Hh. cbn in Hh. destruct (hands_over l); [|done]. cbn in Hs. injection Hs as <-. split; [done|].
    unfold pass_kills. cbn. apply leibniz_equiv, set_equiv. intros m. rewrite !elem_of_dom, map_lookup_imap. destruct (decide (n = m)) as [<-|]; [rewrite lookup_insert, Hn; cbn; split; eauto|].
    rewrite lookup_insert_ne by done. destruct (f_nodes F !! m); cbn; [split; eauto|done].
  Qed.
  Lemma fstep_inv0 F n l F' : fstep F (FStep n l []) = Some F' -> exists nd nd', f_nodes F !! n = Some nd /\ nstep nd l = Some nd' /\ F' = pass_kills (F <| f_nodes ::= <[n := nd']> |>) n nd nd'.
  Proof.
    intros Hs. cbn [fstep] in Hs. destruct (f_nodes F !! n) as [nd|] eqn:Hn; [|done]. destruct (negb _) eqn:Hh; [done|]. destruct (negb _) in Hs; [done|]. destruct (nstep nd l) as [nd'|] eqn:Hns; [|done].
    apply negb_false_iff, bool_decide_eq_true in Hh. cbn in Hh. destruct (hands_over l); [|done]. cbn in Hs. injection Hs as <-. eauto.
  Qed.
  Lemma mum_pass F n old new m : mum_at (pass_kills F n old new) m = mum_at F m.
  Proof. unfold mum_at, pass_kills. cbn. rewrite map_lookup_imap. destruct (f_nodes F !! m) as [nd|]; [|done]. cbn. destruct (now_killed _ _ _ _ _); [apply mum_kill|done]. Qed.
  Lemma leave_same F n F' : leave F n = Some F' -> f_link F' = f_link F.
  Proof. intros H. destruct (leave_some _ _ _ H) as [[-> _]|(nd & l & _ & _ & Hf)]; [done|]. by destruct (fstep_same _ _ _ _ Hf). Qed.

  Lemma report_step_down R l R' : rreachable R -> ranked rank (r_forest R) -> report_step l -> rstep R l = Some R' ->
    rreachable R' /\ f_link (r_forest R') = f_link (r_forest R) /\ (tc smaller (items R') (items R) \/ items R' = items R /\ mus (r_forest R') < mus (r_forest R)).
  Proof.
    intros Hr Hrk Hl Hs. split.
    { destruct Hr as (ls & Hok & Hrun). exists (ls ++ [l]). split; [|rewrite rrun_app, Hrun; cbn; by rewrite Hs]. apply Forall_app. split; [done|]. constructor; [|done]. by destruct l as [[]| | | |]. }
    destruct (rreach_inv R Hr) as (ls & tr & V). destruct l as [l|i n|i ks|i k|i]; cbn [rstep] in Hs.
    - destruct (blocked R l); [done|]. destruct (fstep (r_forest R) l) as [F'|] eqn:Hf; [|done]. injection Hs as <-. cbn. destruct l as [| |n x cs]; try done. destruct x as [|x| |]; try done.
      assert (cs = []) as -> by (destruct x, cs; done). destruct (fstep_same _ _ _ _ Hf) as [Hlk Hd]. split; [done|]. right. split; [unfold items; cbn; by rewrite Hlk|].
      assert (Hx : exists w, x = Runner.LWtCheck w \/ x = Runner.LWtAdd w) by (destruct x; eauto; done). clear Hl. unfold mus. rewrite Hd.
      destruct (fstep_inv0 _ _ _ _ Hf) as (nd & nd' & Hn & Hns & HF).
      assert (Hother : forall m, m <> n -> mum_at F' m = mum_at (r_forest R) m). { intros m Hm. rewrite HF, mum_pass. unfold mum_at. cbn. by rewrite lookup_insert_ne. }
      assert (Hthis : mum nd' < mum nd).
      { pose proof (v_ok _ (finv_reach _ (i_reach _ _ _ V)) _ _ Hn) as Hok. destruct nd as [E s|P s|me s|k f]; unfold nstep in Hns; destruct (goexit _); try done; [|by destruct f].
        destruct (Runner.step P s x) as [s'|] eqn:Hss; [|done]. injection Hns as <-. pose proof (RunnerUse.reach_muinv P s (ok_runner P s Hok)) as M.
        destruct Hx as [w [-> | ->]]; cbn [Runner.step] in Hss; destruct (Runner.s_waits s !! w) as [[id p stt ch]|] eqn:Hw; try done; destruct p; try done.
        - pose proof (RunnerUse.mu_owner s M _ _ Hw (or_introl eq_refl)) as Hmu. cbn. rewrite Hmu, Hw. destruct stt; injection Hss as <-; cbn; [lia|]. rewrite Hmu, lookup_insert. lia.
        - pose proof (RunnerUse.mu_owner s M _ _ Hw (or_intror eq_refl)) as Hmu. cbn. rewrite Hmu, Hw. injection Hss as <-; cbn. lia. }
      assert (Hthis' : mum_at F' n < mum_at (r_forest R) n). { rewrite HF, mum_pass. unfold mum_at. cbn. by rewrite lookup_insert, Hn. }
      apply (sum_lt _ _ _ n); [apply elem_of_elements, elem_of_dom; eauto|done|]. intros m _. destruct (decide (m = n)) as [-> |Hm]; [lia|]. by rewrite Hother.
    - done.
    - destruct (r_calls R !! i) as [[n st| |]|] eqn:Hi; try done. destruct (enter R n ks) as [f|] eqn:He; [|done]. injection Hs as <-. split; [done|]. left.
      assert (Hf : fr_node f = n /\ forall k, k ∈ fr_todo f -> exists c, f_link (r_forest R) !! (n, k) = Some c /\ rank c < rank n).
      { unfold enter in He. destruct (f_nodes (r_forest R) !! n) as [nd|] eqn:Hn; [|done].
        assert (exists b todo, f = frame_of n nd b todo /\ forall k, k ∈ todo -> is_Some (f_link (r_forest R) !! (n, k))) as (b & todo & -> & Ht).
        { assert (Hrl : forall k, k ∈ reporters nd -> is_Some (f_link (r_forest R) !! (n, k))). { intros k. apply reporter_linked; [apply V|done]. }
          assert (Huser : forallb (fun k => bool_decide (is_Some (f_link (r_forest R) !! (n, k)))) ks = true -> forall k, k ∈ ks -> is_Some (f_link (r_forest R) !! (n, k))).
          { intros Hfa k Hk. rewrite forallb_forall in Hfa. apply elem_of_list_In, Hfa in Hk. by apply bool_decide_eq_true in Hk. }
          destruct nd as [E s|P s|me s|kk ff].
          - destruct (Engine.s_running s); [destruct (bool_decide _); [|done]|destruct (t_dead _); [|done]]; injection He as <-; eauto.
          - destruct (bool_decide _ && _); [|done]. injection He as <-. eauto.
          - destruct (forallb _ ks) eqn:Hfa; [|done]. injection He as <-. eauto.
          - destruct (forallb _ ks) eqn:Hfa; [|done]. injection He as <-. eauto. }
        split; [done|]. cbn. intros k Hk. destruct (Ht k Hk) as [c Hc]. exists c. split; [done|]. by apply (Hrk _ k). }
      destruct Hf as [Hfn Hft]. unfold items. cbn. destruct (items_insert (f_link (r_forest R)) (r_calls R) i _ (Inside f st) Hi) as (N & HN1 & HN2).
      apply tc_once. eapply (smaller_ins (sitems (f_link (r_forest R)) st) N); [exact HN1|exact HN2|]. unfold fitems. rewrite Hfn. constructor; [lia|]. apply Forall_fmap, Forall_forall. intros k Hk. cbn.
      destruct (Hft k Hk) as (c & Hc & Hlt). unfold kid_item. rewrite Hc. lia.
    - destruct (r_calls R !! i) as [[|f st|]|] eqn:Hi; try done. destruct (bool_decide (k ∈ fr_todo f)) eqn:Hk; [|done]. apply bool_decide_eq_true in Hk. cbn in Hs.
      destruct (f_link (r_forest R) !! (fr_node f, k)) as [c|] eqn:Hc; [|done]. injection Hs as <-. split; [done|]. left. unfold items. cbn.
      match goal with |- context [<[i := ?p]> _] => destruct (items_insert (f_link (r_forest R)) (r_calls R) i _ p Hi) as (N & HN1 & HN2) end.
      destruct (difference_perm (fr_todo f) k Hk) as [d Hd]. cbn in HN1, HN2.
      set (L := f_link (r_forest R)) in *. set (x := kid_item L (fr_node f) k). set (D := kid_item L (fr_node f) <$> list_difference (fr_todo f) [k]) in *.
      apply (smaller_drop (repeat x d) ((3 * rank (fr_node f) :: D) ++ sitems L st ++ N) x [3 * rank c + 1]).
      + rewrite HN1. unfold fitems. rewrite Hd. rewrite fmap_cons, fmap_app, fmap_repeat. fold D x. rewrite <- !app_comm_cons. cbn. solve_Permutation.
      + rewrite HN2. cbn. unfold fitems. cbn. fold D. solve_Permutation.
      + constructor; [|done]. unfold x, kid_item. rewrite Hc. lia.
    - destruct (r_calls R !! i) as [[|f st|]|] eqn:Hi; try done. destruct (fr_todo f) as [|] eqn:Htodo; [|done]. destruct (leave (r_forest R) (fr_node f)) as [F'|] eqn:Hlv; [|done]. injection Hs as <-.
      pose proof (leave_same _ _ _ Hlv) as Hlk. split; [done|]. left. unfold items. cbn. rewrite Hlk.
      match goal with |- context [<[i := ?p]> _] => destruct (items_insert (f_link (r_forest R)) (r_calls R) i _ p Hi) as (N & HN1 & HN2) end.
      apply tc_once. eapply (smaller_ins (sitems (f_link (r_forest R)) st) N _ []); [rewrite HN1; cbn; unfold fitems; by rewrite Htodo| |constructor].
      rewrite HN2. destruct st as [|[k g] st']; done.
  Qed.
  Lemma ranked_same F F' : f_link F' = f_link F -> ranked rank F -> ranked rank F'.
  Proof. intros H Hr. unfold ranked in *. by rewrite H. Qed.
  Definition next (R' R : rstate) : Prop := exists l, report_step l /\ rstep R l = Some R'.
  Lemma next_acc R : rreachable R -> ranked rank (r_forest R) -> Acc next R.
  Proof.
    remember (items R) as M eqn:HM. pose proof (acc_tc M (smaller_wf M)) as HA. revert R HM. induction HA as [M _ IHM]. intros R HM.
    remember (mus (r_forest R)) as k eqn:Hk. revert R HM Hk. induction (lt_wf k) as [k _ IHk]. intros R HM Hk Hr Hrk.
    constructor. intros R' (l & Hl & Hs). destruct (report_step_down R l R' Hr Hrk Hl Hs) as (Hr' & Hlk & [Hd|[Hi Hd]]).
    - rewrite <- HM in Hd. apply (IHM (items R') Hd R' eq_refl Hr'). by eapply ranked_same.
    - rewrite <- Hk in Hd. apply (IHk _ Hd R'); [congruence|done|done|]. by eapply ranked_same.
  Qed.
  Lemma no_infinite R : rreachable R -> ranked rank (r_forest R) -> ~ exists tr : nat -> rstate, tr 0 = R /\ forall j, exists l, report_step l /\ rstep (tr j) l = Some (tr (S j)).
  Proof.
    intros Hr Hrk (tr & H0 & Ht). pose proof (next_acc R Hr Hrk) as HA. clear Hr Hrk. revert tr H0 Ht. induction HA as [R _ IH]. intros tr H0 Ht.
    apply (IH (tr 1)) with (fun j => tr (S j)); [|done|auto]. destruct (Ht 0) as (l & H1 & H2). rewrite H0 in H2. by exists l.
  Qed.
  Lemma step_dom R l R' i : report_step l -> rstep R l = Some R' -> is_Some (r_calls R !! i) -> is_Some (r_calls R' !! i).
  Proof.
    intros Hl Hs Hi. destruct l as [l|j n|j ks|j k|j]; cbn [rstep] in Hs; [destruct (blocked R l); [done|]; destruct (fstep _ l); [|done]; by injection Hs as <-|done| | |];
      destruct (r_calls R !! j) as [[| |]|] eqn:Hj; try done; repeat case_match; try done; injection Hs as <-; cbn; (destruct (decide (j = i)) as [-> |]; [rewrite lookup_insert; eauto|by rewrite lookup_insert_ne]).
  Qed.
  Lemma can_return R : rreachable R -> ranked rank (r_forest R) -> exists ls R', Forall report_step ls /\ rrun R ls = Some R' /\
    forall i p, r_calls R' !! i = Some p -> exists n t, p = Returned n t.
  Proof.
    intros Hr Hrk. pose proof (next_acc R Hr Hrk) as HA. induction HA as [R _ IH].
    assert (Hdec : forall p : rpc, Decision (match p with Returned _ _ => True | _ => False end)) by (intros []; apply _).
    destruct (decide (map_Forall (fun _ p => match p with Returned _ _ => True | _ => False end) (r_calls R))) as [Hall|Hn].
    - exists [], R. split_and!; [constructor|done|]. intros i p Hp. specialize (Hall i p Hp). destruct p; [done..|eauto].
    - apply map_not_Forall in Hn as (i & p & Hi & Hp); [|apply _]. destruct (never_stuck rank R i p Hr Hrk Hi) as (l & R' & Hl & Hs); [by intros n t ->; apply Hp|].
      destruct (report_step_down R l R' Hr Hrk Hl Hs) as (Hr' & Hlk & _). destruct (IH R') as (ls & R2 & H1 & H2 & H3); [by exists l|done|by eapply ranked_same|].
      exists (l :: ls), R2. split_and!; [by constructor|cbn; by rewrite Hs|done].
  Qed.
End Measure.

(** ** A report in progress and shutdown *)
Lemma dead_reporters E s : Engine.reachable E s -> t_dead (Engine.s_tomb s) = true -> reporters (NEngine E s) = [].
Proof.
  intros Hr Hd. destruct (EngineLog.reachable_linv E s Hr) as [V L]. apply (EngineMore.running_dead s V) in Hd.
  destruct (reporters (NEngine E s)) as [|k l] eqn:Hk; [done|]. assert (k ∈ reporters (NEngine E s)) as Hin by (rewrite Hk; left). clear Hk. exfalso.
  cbn in Hin. apply elem_of_list_omap in Hin as (m & Hm & Hx). destruct (EngineSpec.registered (Engine.s_log s) m) as [[g [|w]]|] eqn:E1; try done.
  apply elem_of_list_fmap in Hm as ([m' i] & -> & Hm). apply elem_of_map_to_list in Hm. cbn in *.
  pose proof (EngineLog.l_regw E s L m') as Hw. rewrite E1 in Hw. unfold Engine.info_of in Hw. rewrite Hm in Hw. cbn in Hw.
  destruct (EngineMicro.v_dead s V Hd _ _ Hm) as [Hst|Hst]; [|congruence].
  destruct (EngineLog.l_regg E s L _ _ _ E1) as (r & Hg & Hn & Hp). destruct (EngineMicro.v_active s V _ _ Hg Hp) as (i' & Hi' & Hgi). rewrite Hn, Hm in Hi'. injection Hi' as <-.
  destruct Hgi. congruence.
Qed.
Lemma table_runner P s P' s' : table_of (NRunner P s) = table_of (NRunner P' s') -> Runner.c_workers (Runner.s_core s') = ∅ -> Runner.c_workers (Runner.s_core s) = ∅.
Proof. cbn. intros [= H] He. rewrite He, fmap_empty in H. by apply fmap_empty_inv in H. Qed.
Lemma blocks R i m nd : rreachable R -> waits_in R i m -> f_nodes (r_forest R) !! m = Some nd -> (match nd with NEngine _ _ | NRunner _ _ => True | _ => False end) -> ~ dead nd.
Proof.
  intros Hr Hw Hm Hnd Hd. destruct (rreach_inv R Hr) as (ls & tr & V). destruct Hw as (k & f & <- & Hw).
  assert (exists a, frame_ok tr R i f [k] a) as (a & (F & nd0 & B1 & B2 & B3 & B4 & B5 & B6) & A2 & A3 & A4 & (ndn & A5 & A5') & A6).
  { destruct Hw as [(n & st & Hc & Hin)|(g & st & Hc & Hin)]; destruct (i_calls _ _ _ V i _ Hc) as (pre & n0 & post & _ & Hp).
    - destruct Hp as [Hp _]. by eapply stack_frame.
    - destruct Hp as (a & _ & Hp). by eapply stack_frame. }
  rewrite Hm in A5. injection A5 as <-.
  pose proof (v_ok _ (finv_reach _ (i_reach _ _ _ V)) _ _ Hm) as Hok.
  assert (Ha : a <= length ls). { apply lookup_lt_Some in B1. rewrite (i_len _ _ _ V) in B1. lia. }
  destruct (A4 a F ltac:(lia) B1) as (nd1 & N1 & N2 & N3). rewrite B2 in N1. injection N1 as <-.
  destruct (A4 _ _ Ha (i_last _ _ _ V)) as (nd2 & M1 & M2 & M3). rewrite Hm in M1. injection M1 as <-.
  assert (Hreach0 : node_ok nd0) by (apply (v_ok _ (finv_reach _ (i_all _ _ _ V _ _ B1)) _ _ B2)).
  destruct nd as [E s|P s|me s|kk ff]; try done.
  - destruct nd0 as [E0 s0|P0 s0|me0 s0|kk0 ff0]; try (cbn in N2, M2; congruence). destruct A5' as [A51 A52]. destruct (EngineLog.reachable_linv E s Hok) as [VE _].
    destruct Hd as [e Hd]. cbn in Hd. destruct (t_dead (Engine.s_tomb s)) eqn:Hdd; [|done]. apply (EngineMore.running_dead s VE) in Hdd. rewrite Hdd in A51. rewrite <- A51 in N3. destruct N3 as [_ N3]. specialize (N3 eq_refl).
    pose proof (proj2 (B4 k)) as Hk. rewrite (dead_reporters E0 s0 Hreach0 N3) in Hk. specialize (Hk ltac:(left; left)). by apply elem_of_nil in Hk.
  - destruct nd0 as [E0 s0|P0 s0|me0 s0|kk0 ff0]; try (cbn in N2, M2; congruence). 
    assert (Runner.c_workers (Runner.s_core s) = ∅) as He. { apply dead_log in Hd; [|done]. cbn in Hd. by destruct (RunnerAnswers.dead_empty P s (ok_runner P s Hok) Hd) as (_ & ? & _). }
    assert (Runner.c_workers (Runner.s_core s0) = ∅) as He0. { eapply table_runner; [|exact He]. by rewrite N2, M2. }
    pose proof (proj2 (B4 k)) as Hk. cbn in Hk. rewrite He0, map_to_list_empty in Hk. specialize (Hk ltac:(left; left)). by apply elem_of_nil in Hk.
Qed.

(** ** A runner that runs itself *)
Lemma stays_locked R l R' i n : rreachable R -> rok l -> rstep R l = Some R' -> (exists st, r_calls R !! i = Some (Entering n st)) -> r_lock R !! n = Some i ->
  (exists P s, f_nodes (r_forest R) !! n = Some (NRunner P s)) ->
  (exists st, r_calls R' !! i = Some (Entering n st)) /\ r_lock R' !! n = Some i /\ exists P s, f_nodes (r_forest R') !! n = Some (NRunner P s).
Proof.
  intros Hr Hok Hs (st & Hi) Hl (P & s & Hn). destruct (rreach_inv R Hr) as (ls & tr & V). destruct l as [l|j m|j ks|j k|j]; cbn [rstep] in Hs.
  - destruct (blocked R l); [done|]. destruct (fstep (r_forest R) l) as [F'|] eqn:Hf; [|done]. injection Hs as <-. cbn. split_and!; [eauto|done|].
    destruct (fstep_nodes _ _ _ _ _ Hf Hn) as (nd1 & nd' & Hn' & Hk & H1). rewrite Hn'.
    assert (exists s1, nd1 = NRunner P s1) as [s1 ->]. { destruct H1 as [-> |(x & cs & _ & Hx)]; [eauto|]. unfold nstep in Hx. destruct (goexit x); [done|]. destruct x as [|x| |]; try done. destruct (Runner.step P s x); [|done]. injection Hx as <-. eauto. }
    destruct Hk as [-> | ->]; [eauto|]. unfold nkill. cbn [kill_label nstep goexit]. destruct (Runner.step P s1 _); cbn; eauto.
  - destruct (r_calls R !! j) eqn:Hj; [done|]. destruct (f_nodes _ !! m) as [nd|]; [|done]. destruct (ready nd); [|done]. injection Hs as <-. cbn. split_and!; [|done|eauto]. exists st. rewrite lookup_insert_ne; [done|congruence].
  - destruct (r_calls R !! j) as [[m st'| |]|] eqn:Hj; try done. destruct (enter R m ks) as [f|] eqn:He; [|done]. injection Hs as <-. cbn.
    assert (m <> n \/ fr_locks f = false) as Hm.
    { destruct (decide (m = n)) as [-> |]; [|by left]. unfold enter in He. rewrite Hn, Hl in He. done. }
    assert (i <> j). { intros ->. rewrite Hi in Hj. injection Hj as -> _. unfold enter in He. rewrite Hn, Hl in He. done. }
    split_and!; [exists st; by rewrite lookup_insert_ne| |eauto]. destruct (fr_locks f) eqn:Hlf; [|done]. destruct Hm as [Hm|]; [|done]. by rewrite lookup_insert_ne.
  - destruct (r_calls R !! j) as [[|f st'|]|] eqn:Hj; try done. destruct (negb _); [done|]. destruct (f_link _ !! _); [|done]. injection Hs as <-. cbn. split_and!; [|done|eauto]. exists st. rewrite lookup_insert_ne; [done|congruence].
  - destruct (r_calls R !! j) as [[|f st'|]|] eqn:Hj; try done. destruct (fr_todo f) as [|] eqn:Htodo; [|done]. destruct (leave (r_forest R) (fr_node f)) as [F'|] eqn:Hlv; [|done]. injection Hs as <-. cbn.
    assert (Hne : i <> j) by congruence. split_and!.
    + exists st. by rewrite lookup_insert_ne.
    + destruct (fr_locks f) eqn:Hlf; [|done]. rewrite lookup_delete_ne; [done|]. intros Heq. destruct (frame_in _ _ _ _ _ f V Hj) as (cur & a & _ & _ & _ & _ & _ & Hlk); [by left|]. rewrite Heq, Hl in Hlk. specialize (Hlk Hlf). congruence.
    + destruct (leave_some _ _ _ Hlv) as [[-> _]|(nd0 & l & _ & _ & Hf)]; [eauto|].
      destruct (fstep_nodes _ _ _ _ _ Hf Hn) as (nd1 & nd' & Hn' & Hk & H1). rewrite Hn'.
      assert (exists s1, nd1 = NRunner P s1) as [s1 ->]. { destruct H1 as [-> |(x & cs & _ & Hx)]; [eauto|]. unfold nstep in Hx. destruct (goexit x); [done|]. destruct x as [|x| |]; try done. destruct (Runner.step P s x); [|done]. injection Hx as <-. eauto. }
      destruct Hk as [-> | ->]; [eauto|]. unfold nkill. cbn [kill_label nstep goexit]. destruct (Runner.step P s1 _); cbn; eauto.
Qed.
Lemma rreach_step R l R' : rreachable R -> rok l -> rstep R l = Some R' -> rreachable R'.
Proof. intros (ls & Hok & Hrun) Hl Hs. exists (ls ++ [l]). split; [apply Forall_app; split; [done|]; by constructor|]. rewrite rrun_app, Hrun. cbn. by rewrite Hs. Qed.
Lemma stays_locked_run ls : forall R R' i n, rreachable R -> Forall rok ls -> rrun R ls = Some R' -> (exists st, r_calls R !! i = Some (Entering n st)) -> r_lock R !! n = Some i ->
  (exists P s, f_nodes (r_forest R) !! n = Some (NRunner P s)) -> (exists st, r_calls R' !! i = Some (Entering n st)) /\ r_lock R' !! n = Some i.
Proof.
  induction ls as [|l ls IH]; intros R R' i n Hr Hok Hrun H1 H2 H3; cbn in Hrun; [injection Hrun as <-; auto|]. destruct (rstep R l) as [R1|] eqn:Hs; [|done]. apply Forall_cons in Hok as [Hl Hok].
  destruct (stays_locked R l R1 i n Hr Hl Hs H1 H2 H3) as (A & B & C). eapply IH; [by eapply rreach_step|done..].
Qed.
Lemma run_dom ls : forall R R' i, Forall report_step ls -> rrun R ls = Some R' -> is_Some (r_calls R !! i) -> is_Some (r_calls R' !! i).
Proof.
  induction ls as [|l ls IH]; intros R R' i Hok Hr Hi; cbn in Hr; [by injection Hr as <-|]. destruct (rstep R l) as [R1|] eqn:Hs; [|done]. apply Forall_cons in Hok as [Hl Hok].
  eapply IH; [done|done|]. by eapply step_dom.
Qed.
Lemma all_return rank R : rreachable R -> ranked rank (r_forest R) -> exists ls R', Forall report_step ls /\ rrun R ls = Some R' /\
    (forall i, is_Some (r_calls R !! i) -> exists n t, r_calls R' !! i = Some (Returned n t)).
Proof.
  intros Hr Hrk. destruct (can_return rank R Hr Hrk) as (ls & R' & H1 & H2 & H3). exists ls, R'. split_and!; [done|done|]. intros i Hi. destruct (run_dom _ _ _ _ H1 H2 Hi) as [p Hp].
  destruct (H3 i p Hp) as (n & t & ->). eauto.
Qed.
Lemma self_refuted : exists R, rreachable R /\ forall ls R', Forall rok ls -> rrun R ls = Some R' ->
  (forall n t, r_calls R' !! 0 <> Some (Returned n t)) /\ is_Some (r_calls R' !! 0) /\ r_lock R' !! 0 = Some 0.
Proof.
  exists (rp rp_self). assert (Hr : rreachable (rp rp_self)) by (apply rp_reach; [vm_compute; reflexivity|exact rp_self_fok]). split; [done|].
  assert (H1 : match r_calls (rp rp_self) !! 0 with Some (Entering 0 _) => true | _ => false end = true) by (vm_compute; reflexivity).
  assert (H2 : r_lock (rp rp_self) !! 0 = Some 0) by (vm_compute; reflexivity).
  assert (H3 : match f_nodes (r_forest (rp rp_self)) !! 0 with Some (NRunner _ _) => true | _ => false end = true) by (vm_compute; reflexivity).
  revert Hr H1 H2 H3. generalize (rp rp_self). intros R Hr H1 H2 H3 ls R' Hok Hrun.
  destruct (stays_locked_run ls R R' 0 0 Hr Hok Hrun) as [(st & A) B]; [|done| |].
  - destruct (r_calls R !! 0) as [[[|] st| |]|]; try done. eauto.
  - destruct (f_nodes (r_forest R) !! 0) as [[| | |]|]; try done. eauto.
  - rewrite A. split_and!; [done|eauto|done].
Qed.
