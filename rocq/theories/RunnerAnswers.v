(** What the calls on a Runner return. *)
From stdpp Require Import gmap strings list.
From Coq Require Import ZArith Lia.
From RecordUpdate Require Import RecordSet.
From Verif Require Import Err Tomb Runner RunnerSpec RunnerInv RunnerLog RunnerGor RunnerHist RunnerThms RunnerCalls RunnerUse RunnerProgressSpec.
Import RecordSetNotations.

(** ** Done channels *)
Record sig_log (c : core) : Prop := {
  sg_known : forall id f d, EvKnown id f d ∈ c_log c -> d < c_inst c;
  sg_removed : forall d, d ∈ c_signals c -> exists id, EvRemoved id d ∈ c_log c
}.
Lemma sig_log_frame c c' : sig_log c -> c_inst c <= c_inst c' -> (forall id f d, EvKnown id f d ∈ c_log c' -> EvKnown id f d ∈ c_log c) ->
  c_signals c' ⊆ c_signals c -> c_log c ⊆ c_log c' -> sig_log c'.
Proof.
  intros [S1 S2] H1 H2 H3 H4. split.
  - intros id f d H. apply H2, S1 in H. lia.
  - intros d H. apply H3, S2 in H as [id H]. exists id. by apply H4.
Qed.
Lemma sig_log_cons c c' ev : sig_log c -> c_inst c' = c_inst c -> c_signals c' = c_signals c -> c_log c' = ev :: c_log c -> (forall id f d, ev <> EvKnown id f d) -> sig_log c'.
Proof.
  intros S E1 E2 E3 N. apply (sig_log_frame c); [done|by rewrite E1| |by rewrite E2|rewrite E3; apply sub_cons].
  intros id f d. rewrite E3. intros [H|H]%elem_of_cons; [by destruct (N id f d)|done].
Qed.
Lemma sig_log_same c c' : sig_log c -> c_inst c' = c_inst c -> c_signals c' = c_signals c -> c_log c' = c_log c -> sig_log c'.
Proof. intros S E1 E2 E3. apply (sig_log_frame c); rewrite ?E1, ?E2, ?E3; done. Qed.
Lemma creach_sig P c : creach P c -> sig_log c.
Proof.
  intros Hr. apply (creach_ind P sig_log); [| |done].
  - split; cbn; intros; set_solver.
  - clear. intros c c' V S V' HT. destruct HT; try (by apply (sig_log_same c)); try (by eapply (sig_log_cons c)).
    + (* take *) apply (sig_log_frame c); [done|done|done|cbn; set_solver|done].
    + (* killall *) apply (sig_log_frame c); cbn; [done|done| |done|].
      * intros id f d. rewrite elem_of_app, kill_all_events_in. intros [(? & ? & ? & ? & _ & _ & _ & [=])|Hx]; done.
      * intros x Hx. apply elem_of_app. by right.
    + (* new *) destruct S as [S1 S2]. split; cbn.
      * intros id' f' d. rewrite !elem_of_cons. intros [[=]|[[= -> -> ->]|[[=]|Hx]]]; [lia|]. apply S1 in Hx. lia.
      * intros d Hd. destruct (S2 d Hd) as [id' H']. exists id'. by repeat right.
    + (* stop *) apply (sig_log_frame c); cbn; [done|done| |done|].
      * intros id' f d. rewrite elem_of_app. unfold kill_events. destruct (i_worker i) as [[g w]|]; rewrite ?elem_of_cons, elem_of_nil; naive_solver.
      * intros x Hx. apply elem_of_app. by right.
    + apply (sig_log_frame c); cbn; [done|done| |done|].
      * intros id' f' d. rewrite !elem_of_cons. naive_solver.
      * intros y Hy. by do 2 right.
    + destruct S as [S1 S2]. split; cbn.
      * intros id' f' d. rewrite !elem_of_cons. intros [[=]|[[=]|H']]. eauto.
      * intros d [->%elem_of_singleton|Hd]%elem_of_union; [exists id; by left|]. destruct (S2 d Hd) as [id' H']. exists id'. by do 2 right.
    + destruct S as [S1 S2]. split; cbn.
      * intros id' f' d. rewrite elem_of_app, !elem_of_cons. intros [H'|[[=]|[[=]|H']]]; [|eauto]. destruct (c_dying c); set_solver.
      * intros d [->%elem_of_singleton|Hd]%elem_of_union; [exists id; apply elem_of_app; right; by left|]. destruct (S2 d Hd) as [id' H']. exists id'. apply elem_of_app. right. by do 2 right.
    + apply (sig_log_frame c); cbn; [done|done| |done|].
      * intros id' f0 d. rewrite !elem_of_cons. naive_solver.
      * intros y Hy. by do 2 right.
    + (* return *) apply (sig_log_frame c); cbn; [done|done| |done|].
      * intros id' f' d. rewrite elem_of_app. destruct (t_dead t); set_solver.
      * intros x Hx. apply elem_of_app. by right.
Qed.
Lemma known_in log id f d : known log id = Some (f, d) -> EvKnown id f d ∈ log.
Proof.
  induction log as [|ev log IH]; cbn; [done|]. destruct ev; try (intros H; right; by apply IH).
  - case_bool_decide; [|intros H'; right; by apply IH]. intros [= -> ->]. subst. by left.
  - case_bool_decide; [done|]. intros H'; right; by apply IH.
Qed.
Lemma known_once P s pre id f d post : reachable P s -> rlog s = pre ++ EvKnown id f d :: post -> forall id' f', EvKnown id' f' d ∉ post.
Proof.
  intros Hr Hl. eapply (creach_past P (fun ev post => match ev with EvKnown id f d => forall id' f', EvKnown id' f' d ∉ post | _ => True end)) in Hl; [exact Hl| |by apply reach_core].
  clear. intros c a ev b A Hc E. destruct ev; try done. destruct E as (i & -> & -> & -> & _). intros id' f' [[=]|H]%elem_of_cons.
  apply (sg_known c (creach_sig P c Hc)) in H. lia.
Qed.
Lemma known_unique P s id f d id' f' : reachable P s -> EvKnown id f d ∈ rlog s -> EvKnown id' f' d ∈ rlog s -> id = id' /\ f = f'.
Proof.
  intros Hr H1 H2. destruct (elem_split _ _ H1) as (p1 & q1 & E1). rewrite E1 in H2. apply elem_of_app in H2 as [H2|[[= -> ->]|H2]%elem_of_cons]; [|done|].
  - destruct (elem_split _ _ H2) as (p2 & q2 & ->). rewrite <- app_assoc in E1. cbn in E1. destruct (known_once P s _ _ _ _ _ Hr E1 id f).
    apply elem_of_app. right. by left.
  - by destruct (known_once P s _ _ _ _ _ Hr E1 id' f').
Qed.
Lemma removed_known P s id d : reachable P s -> EvRemoved id d ∈ rlog s -> exists f, EvKnown id f d ∈ rlog s.
Proof.
  intros Hr H. destruct (elem_split _ _ H) as (p1 & q1 & E1).
  assert (exists f, EvKnown id f d ∈ q1) as [f Hf]; [|exists f; rewrite E1; apply elem_of_app; right; by right].
  refine (past P (fun ev post => match ev with EvRemoved id d => exists f, EvKnown id f d ∈ post | _ => True end) s Hr _ p1 (EvRemoved id d) q1 E1). clear.
  intros c a ev b A E. destruct ev; try done. destruct E as (g & e & n & f & x & -> & _ & Hn & -> & _). pose proof (a_workers P c A id) as W. rewrite Hn in W.
  destruct W as ((f0 & Hk & _) & _). exists f0. right. by apply known_in.
Qed.

(** ** Lookups *)
Lemma lookup_result P s pre i id r post : reachable P s -> rlog s = pre ++ EvC (CvLookup i id r) :: post ->
  match r with
  | GNotFound => known post id = None
  | GWorker g w d => (exists f, known post id = Some (f, d)) /\ registered post id = Some (g, w)
  end /\ exists k, EvC (CvCall i (icall k id)) ∈ post.
Proof.
  intros Hr Hl. destruct (client_read P s Hr _ _ _ Hl) as (s0 & Hr0 & _ & (-> & Hg & Hc)). pose proof (reach_all P s0 Hr0) as A.
  split.
  - unfold get_worker in Hg. pose proof (a_workers P _ A id) as W. unfold rlog. destruct (c_workers (s_core s0) !! id) as [n|] eqn:Hn.
    + destruct W as ((f & Hk & _) & Hrg & _). destruct (i_worker n) as [[g w]|] eqn:Hw; [|done]. injection Hg as <-. split; [by exists f|done].
    + injection Hg as <-. by destruct W.
  - pose proof (reach_linv P s0 Hr0) as L. destruct Hc as [[k Hc]|(st & ch & Hw)].
    + exists k. exact (li_pc s0 L _ _ Hc).
    + destruct (li_wait s0 L _ _ Hw) as [(k & H) _]. by exists k.
Qed.
(** A registered worker that has not finished is the one in charge. *)
Lemma registered_current P s id g w : reachable P s -> registered (rlog s) id = Some (g, w) ->
  EvSet g id w ∈ rlog s /\ EvStartRet g id (inl w) ∈ rlog s /\ (~ worker_ended (rlog s) g -> in_charge (rlog s) id = Some g).
Proof.
  intros Hr H. pose proof (reach_all P s Hr) as A. pose proof (a_workers P _ A id) as W. unfold rlog in *. destruct (c_workers (s_core s) !! id) as [n|] eqn:Hn.
  - destruct W as (_ & W & _). rewrite W in H. pose proof (gl_reg _ (a_gor P _ A) id n g w Hn H) as Hs. pose proof (gl_setret _ (a_gor P _ A) _ _ _ Hs) as Hret.
    split_and!; [done|done|]. intros Hne.
    destruct (gl_about _ (a_gor P _ A) _ _ _ Hs eq_refl) as ([id' f x p] & Hg & Hid). cbn in Hid. subst id'.
    apply (a_charge P _ A). eexists. split_and!; [exact Hg|done|]. cbn. intros ->. destruct Hne. by eapply gone_ended.
  - destruct W as (_ & W & _). congruence.
Qed.

(** ** StartWorker *)
Lemma ctx_log P s i : reachable P s -> i ∈ c_ctx (s_core s) <-> EvCtx i ∈ rlog s.
Proof.
  intros Hr. unfold rlog. apply reach_core in Hr. revert Hr. generalize (s_core s). clear s. intros c Hr.
  apply (creach_ind P (fun c => i ∈ c_ctx c <-> EvCtx i ∈ c_log c)); [|intros c1 c2 V IH _ HT|exact Hr]; [cbn; split; [intros H; by apply elem_of_empty in H|intros H; by apply elem_of_nil in H]|].
  destruct HT; cbn -[elem_of union]; rewrite ?not_in_kae, ?not_in_ke, ?in_cons_ne by done; try exact IH.
  - rewrite elem_of_union, elem_of_singleton, elem_of_cons, IH. naive_solver.
  - destruct (c_dying c1); cbn [app]; by rewrite !in_cons_ne.
  - destruct (t_dead t); cbn [app]; by rewrite ?in_cons_ne.
Qed.
Lemma start_result P s : reachable P s -> forall pre i id f r post, rlog s = pre ++ EvC (CvRet i (KStart id f) r) :: post ->
  (exists e, r = RErr e /\ EvAnswer i id f e ∈ post) \/ (r = RErr err_dead /\ (EvDead ∈ post \/ EvCtx i ∈ post)).
Proof.
  intros Hr pre i id f r post Hl. destruct (client_read P s Hr _ _ _ Hl) as (s0 & Hr0 & _ & (-> & [(e & -> & Hlo & Hp)|(-> & Hp & Hc)])).
  - left. exists e. split; [done|]. destruct (li_areply s0 (reach_loopinv P s0 Hr0) _ _ Hlo) as (id' & f' & H1 & H2). rewrite Hp in H1. by injection H1 as <- <-.
  - right. split; [done|]. destruct Hc as [Hc|Hc]; [right; by apply (ctx_log P s0)|left]. by apply (a_tomb P _ (reach_all P s0 Hr0)).
Qed.
Lemma last_mid {A} (l : list A) x l' y : last (l ++ x :: l') = Some y -> x = y \/ y ∈ l'.
Proof.
  destruct l' as [|z l' _] using rev_ind; [rewrite last_snoc; intros [= ->]; auto|].
  rewrite app_comm_cons, app_assoc, last_snoc. intros [= ->]. right. apply elem_of_app. right. by left.
Qed.
Lemma stop_dec (log : list event) : EvStopAll ∈ log \/ EvStopAll ∉ log.
Proof.
  induction log as [|ev log [IH|IH]]; [right; apply not_elem_of_nil|left; by right|].
  destruct ev; try (right; intros [[=]|H]%elem_of_cons; done). left. by left.
Qed.
Lemma start_known P s pre i id f post : reachable P s -> rlog s = pre ++ EvC (CvRet i (KStart id f) (RErr None)) :: post ->
  (exists d, EvKnown id f d ∈ post) \/ stopping_all post.
Proof.
  intros Hr Hl. destruct (start_result P s Hr _ _ _ _ _ _ Hl) as [(e & [= <-] & Ha)|([=] & _)].
  destruct (elem_split _ _ Ha) as (p1 & p2 & ->).
  assert (rlog s = (pre ++ EvC (CvRet i (KStart id f) (RErr None)) :: p1) ++ EvAnswer i id f None :: p2) as Hl2 by (rewrite Hl; by rewrite <- app_assoc).
  destruct (start_answer P s _ _ _ _ _ _ Hr Hl2) as (H1 & H2 & H3).
  destruct (stop_dec p2) as [Hs|Hs]; [right; apply elem_of_app; right; by right|]. left.
  destruct (known p2 id) as [k|] eqn:Hk.
  - by destruct (H2 Hs) as [[=] _].
  - destruct (H3 Hs eq_refl) as (_ & pre' & g & d & t & Hp). exists d.
    assert (EvKnown id f d ∈ p1) as Hin; [|apply elem_of_app; by left].
    apply (f_equal last) in Hp. change [EvSpawn g id f 0 t; EvKnown id f d] with ([EvSpawn g id f 0 t] ++ [EvKnown id f d]) in Hp.
    rewrite (app_assoc pre'), last_snoc in Hp. by apply last_mid in Hp as [[=]|Hp].
Qed.

(** ** Wait *)
Lemma wait_result P s pre e post : reachable P s -> rlog s = pre ++ EvC (CvWait e) :: post -> EvDead ∈ post /\
  (forall x, e = Some x -> fatal_reported P post x /\ (ranking P -> forall y, fatal_reported P post y -> r_more P y x = false)) /\
  (e = None -> (forall y, ~ fatal_reported P post y) \/ (fatal_reported P post ETombDying /\ EvKilled ∈ post)).
Proof.
  intros Hr Hl. destruct (client_read P s Hr _ _ _ Hl) as (s0 & Hr0 & _ & (-> & Hw)). pose proof (reach_all P s0 Hr0) as A.
  unfold tomb_wait in Hw. destruct (t_dead (c_tomb (s_core s0))) eqn:Hd; [|done]. injection Hw as Hw.
  destruct (a_tomb P _ A) as (_ & _ & T3 & T4). destruct (ci_dead _ (a_inv P _ A) Hd) as [Hl0 _]. specialize (T4 Hl0).
  pose proof (a_final P _ A) as F. unfold final_log in F. unfold rlog. unfold tomb_err in Hw. split; [by apply T3|].
  destruct T4 as [(_ & _ & E & _)|[(_ & _ & E & Ef & Ek)|(E & _)]]; [| |congruence].
  - rewrite E in Hw. subst e. rewrite F. split.
    + intros x Hx. split; [by apply final_in|]. intros HR. by apply final_max.
    + intros Hn. left. by apply final_none.
  - rewrite E in Hw. subst e. split; [done|]. intros _. right. split; [|done]. apply final_in. congruence.
Qed.
(** With the default MoreImportant the last one wins. *)
Lemma final_last P log e : (forall a b, r_more P a b = true) -> final_of P log = Some e ->
  exists l1 g id t l2, log = l1 ++ EvDone g id (Some e) t :: l2 /\ r_isFatal P e = true /\ forall y, ~ fatal_reported P l1 y.
Proof.
  intros Hm. induction log as [|ev log IH]; cbn; [done|]. intros H.
  assert (forall x, final_of P log = Some e -> (forall g id y t, x = EvDone g id (Some y) t -> r_isFatal P y = false) ->
    exists l1 g id t l2, x :: log = l1 ++ EvDone g id (Some e) t :: l2 /\ r_isFatal P e = true /\ forall y, ~ fatal_reported P l1 y) as Hold.
  { intros x Hx Hnf. destruct (IH Hx) as (l1 & g & id & t & l2 & -> & Hf & Hn). exists (x :: l1), g, id, t, l2. split_and!; [done|done|].
    intros y (Hy & g' & id' & t' & [Hin|Hin]%elem_of_cons).
    - symmetry in Hin. apply Hnf in Hin. congruence.
    - apply (Hn y). split; [done|]. eauto. }
  destruct ev as [| | | | | | | |g id [y|] t| | | | | | |]; try (apply Hold; [done|]; by intros ? ? ? ? [=]).
  destruct (r_isFatal P y) eqn:Hy; [|apply Hold; [done|]; intros ? ? ? ? [= <- <- <- <-]; done].
  assert (y = e) as ->. { destruct (final_of P log) as [z|]; [rewrite Hm in H|]; by injection H. }
  exists [], g, id, t, log. split_and!; [done|done|]. intros z (_ & ? & ? & ? & Hin). by apply elem_of_nil in Hin.
Qed.
Lemma wait_last P s pre e post : reachable P s -> (forall a b, r_more P a b = true) -> rlog s = pre ++ EvC (CvWait (Some e)) :: post ->
  exists l1 g id t l2, post = l1 ++ EvDone g id (Some e) t :: l2 /\ r_isFatal P e = true /\ forall y, ~ fatal_reported P l1 y.
Proof.
  intros Hr Hm Hl. destruct (client_read P s Hr _ _ _ Hl) as (s0 & Hr0 & _ & (-> & Hw)). pose proof (reach_all P s0 Hr0) as A.
  unfold tomb_wait in Hw. destruct (t_dead (c_tomb (s_core s0))) eqn:Hd; [|done]. injection Hw as Hw.
  destruct (a_tomb P _ A) as (_ & _ & T3 & T4). destruct (ci_dead _ (a_inv P _ A) Hd) as [Hl0 _]. specialize (T4 Hl0).
  pose proof (a_final P _ A) as F. unfold final_log in F. unfold rlog. unfold tomb_err in Hw.
  destruct T4 as [(_ & _ & E & _)|[(_ & _ & E & Ef & Ek)|(E & _)]]; [|rewrite E in Hw; done|congruence].
  rewrite E in Hw. apply final_last; [done|congruence].
Qed.

(** ** StopWorker *)
Lemma stop_result P s pre i id r post : reachable P s -> rlog s = pre ++ EvC (CvRet i (KStop id) r) :: post ->
  (r = RErr None /\ EvStopReq i id ∈ post) \/ (r = RErr err_dead /\ EvDead ∈ post).
Proof.
  intros Hr Hl. destruct (client_read P s Hr _ _ _ Hl) as (s0 & Hr0 & _ & (_ & Hc)). destruct Hc as [(-> & ->)|(-> & -> & Hd)].
  - left. split; [done|by left].
  - right. split; [done|]. by apply (a_tomb P _ (reach_all P s0 Hr0)).
Qed.

(** ** Worker *)
Lemma dying_seen P s : reachable P s -> t_dying (c_tomb (s_core s)) = true -> EvKilled ∈ rlog s \/ stopping_all (rlog s).
Proof.
  intros Hr Hd. pose proof (reach_all P s Hr) as A. destruct (a_tomb P _ A) as (_ & T2 & _ & _).
  destruct (c_loop (s_core s)) eqn:Hl; try (left; by apply T2).
  right. apply (dying_all P _ A). pose proof (ci_loop _ (a_inv P _ A)) as W. rewrite Hl in W. apply W.
Qed.
Lemma not_dying_seen P s : reachable P s -> t_dying (c_tomb (s_core s)) = false -> EvKilled ∉ rlog s /\ EvDead ∉ rlog s.
Proof.
  intros Hr Hd. pose proof (reach_all P s Hr) as A. destruct (a_tomb P _ A) as (T1 & _ & T3 & _). split; intros H.
  - apply T1 in H. congruence.
  - apply T3 in H. apply (ci_dead _ (a_inv P _ A)) in H. destruct H. congruence.
Qed.
Lemma lookup_called P s pre i id q k post : reachable P s -> rlog s = pre ++ EvC (CvLookup i id q) :: post -> EvC (CvCall i k) ∈ rlog s -> EvC (CvCall i k) ∈ post.
Proof.
  intros Hr Hl Hk. destruct (lookup_result P s _ _ _ _ _ Hr Hl) as [_ [k' Hk']].
  assert (EvC (CvCall i (icall k' id)) ∈ rlog s) as H by (rewrite Hl; apply elem_of_app; right; by right).
  by rewrite (call_unique P s _ _ _ Hr Hk H).
Qed.
Lemma ret_call P s pre i k r post : reachable P s -> rlog s = pre ++ EvC (CvRet i k r) :: post ->
  EvC (CvCall i k) ∈ post /\ forall k' r', EvC (CvRet i k' r') ∉ post.
Proof.
  intros Hr Hl. destruct (client_read P s Hr _ _ _ Hl) as (s0 & Hr0 & Ha & Hc). pose proof (reach_linv P s0 Hr0) as L.
  assert (exists p, s_calls s0 !! i = Some p /\ p <> CRet /\ EvC (CvCall i k) ∈ rlog s0) as (p & Hp & Hp1 & Hcall).
  { destruct k; cbn in Hc.
    - destruct Hc as (_ & [(e & _ & _ & Hc)|(_ & Hc & _)]); eexists; (split; [exact Hc|]); (split; [done|]); exact (li_pc s0 L _ _ Hc).
    - destruct Hc as (Hc & _). eexists; (split; [exact Hc|]); (split; [done|]); exact (li_pc s0 L _ _ Hc).
    - destruct Hc as (_ & [(_ & _ & [[q Hc]|[Hc|Hc]])|[(_ & Hc & _)|(q & [[Hc _]|[(Hc & _)|(Hc & _)]] & _)]]);
        eexists; (split; [exact Hc|]); (split; [done|]); pose proof (li_pc s0 L _ _ Hc) as Hp; cbn in Hp; destruct_and?; done.
    - destruct Hc as (_ & [(_ & _ & [[q Hc]|[Hc|Hc]])|[(_ & [Hc|(e & d & Hc)] & _)|[(_ & [Hc|Hc] & _)|(e & d & _ & Hc & _)]]]);
        eexists; (split; [exact Hc|]); (split; [done|]); pose proof (li_pc s0 L _ _ Hc) as Hp; cbn in Hp; destruct_and?; done. }
  split; [by apply (adds_sub _ _ Ha)|]. intros k' r' H. apply (adds_client _ _ _ Ha) in H. apply (li_returned s0 L) in H. congruence.
Qed.
Lemma worker_result P s pre i id r post : reachable P s -> rlog s = pre ++ EvC (CvRet i (KWorker id) r) :: post ->
  EvC (CvCall i (KWorker id)) ∈ post /\
  ((r = RErr err_dead /\ (EvKilled ∈ post \/ stopping_all post)) \/ (r = RErr err_aborted /\ EvCtx i ∈ post) \/
   exists p1 p2 q, post = p1 ++ EvC (CvLookup i id q) :: p2 /\ EvC (CvCall i (KWorker id)) ∈ p2 /\
     match q with
     | GNotFound => r = RErr (not_found id) /\ known p2 id = None /\ EvKilled ∉ post /\ EvDead ∉ post
     | GWorker g w _ => r = RWorker g w /\ registered p2 id = Some (g, w)
     end).
Proof.
  intros Hr Hl. destruct (client_read P s Hr _ _ _ Hl) as (s0 & Hr0 & _ & (-> & Hc)). pose proof (reach_linv P s0 Hr0) as L.
  assert (EvC (CvCall i (KWorker id)) ∈ rlog s0) as Hcall by (by apply (ret_call P s _ _ _ _ _ Hr Hl)).
  split; [done|]. destruct Hc as [(-> & Hd & _)|[(-> & _ & Hx)|(q & Hc & ->)]].
  - left. split; [done|]. by apply dying_seen with P.
  - right. left. split; [done|]. by apply (ctx_log P s0).
  - right. right. assert (EvC (CvLookup i id q) ∈ rlog s0) as Hlk.
    { destruct Hc as [[Hc _]|[(Hc & -> & _)|(Hc & _ & t & Ht & Hch)]]; [apply (li_pc s0 L _ _ Hc)..|].
      destruct (li_select s0 L _ _ _ Hc) as (t' & Ht' & <-). assert (t' = t) as -> by congruence. by apply (li_wait s0 L _ _ Ht). }
    destruct (elem_split _ _ Hlk) as (p1 & p2 & He). exists p1, p2, q. split; [done|]. split; [by eapply lookup_called|].
    destruct (lookup_result P s0 _ _ _ _ _ Hr0 He) as [Hq _]. destruct q; [|by destruct Hq as [_ ?]].
    assert (t_dying (c_tomb (s_core s0)) = false) as Hd by naive_solver. apply (not_dying_seen P s0 Hr0) in Hd as [? ?]. auto.
Qed.

(** ** StopAndRemoveWorker *)
Lemma stoprm_result P s pre i id e post : reachable P s -> rlog s = pre ++ EvC (CvRet i (KStopRm id) (RRemoved e)) :: post ->
  exists g w d p1 p2, post = p1 ++ EvC (CvLookup i id (GWorker g w d)) :: p2 /\ EvC (CvCall i (KStopRm id)) ∈ p2 /\
    registered p2 id = Some (g, w) /\ (exists f, known p2 id = Some (f, d)) /\
    EvC (CvKill i g w) ∈ post /\ EvEnd g id e ∈ post /\ EvRemoved id d ∈ post.
Proof.
  intros Hr Hl. destruct (client_read P s Hr _ _ _ Hl) as (s0 & Hr0 & Ha & Hc). pose proof (reach_linv P s0 Hr0) as L.
  destruct Hc as (-> & [([=] & _)|[([=] & _)|[([=] & _)|(e' & d & [= <-] & Hp & Hd)]]]).
  destruct (li_pc s0 L _ _ Hp) as (Hcall & g & w & Hlk & Hk & He).
  destruct (elem_split _ _ Hlk) as (p1 & p2 & Hs). destruct (lookup_result P s0 _ _ _ _ _ Hr0 Hs) as [[[f Hkn] Hrg] _].
  exists g, w, d, p1, p2. split; [done|]. split; [by eapply lookup_called|]. split; [done|]. split; [by exists f|]. split; [done|]. split; [done|].
  destruct (sg_removed _ (creach_sig P _ (reach_core P s0 Hr0)) d Hd) as [id' Hrm].
  destruct (removed_known P s0 _ _ Hr0 Hrm) as [f' Hk']. apply known_in in Hkn.
  destruct (known_unique P s0 id' f' d id f Hr0 Hk') as [-> _]; [|done]. rewrite Hs. apply elem_of_app. right. by right.
Qed.
Lemma stoprm_other P s pre i id r post : reachable P s -> rlog s = pre ++ EvC (CvRet i (KStopRm id) r) :: post ->
  (exists e, r = RRemoved e) \/ (r = RErr err_dead /\ (EvKilled ∈ post \/ stopping_all post)) \/ (r = RErr err_aborted /\ EvCtx i ∈ post) \/
  (r = RErr (not_found id) /\ EvKilled ∉ post /\ exists p1 p2, post = p1 ++ EvC (CvLookup i id GNotFound) :: p2 /\ known p2 id = None /\ EvC (CvCall i (KStopRm id)) ∈ p2).
Proof.
  intros Hr Hl. destruct (client_read P s Hr _ _ _ Hl) as (s0 & Hr0 & Ha & Hc). pose proof (reach_linv P s0 Hr0) as L.
  destruct Hc as (-> & [(-> & Hd & _)|[(-> & _ & Hx)|[(-> & Hp & Hd)|(e' & d & -> & _)]]]); [right; left|right; right; left; split; [done|]; by apply (ctx_log P s0)| |eauto].
  - split; [done|]. by apply dying_seen with P.
  - right. right. right. split; [done|]. split; [by apply (not_dying_seen P s0 Hr0)|].
    assert (EvC (CvCall i (KStopRm id)) ∈ rlog s0 /\ EvC (CvLookup i id GNotFound) ∈ rlog s0) as [Hcall Hlk].
    { destruct Hp as [Hp|Hp]; exact (li_pc s0 L _ _ Hp). }
    destruct (elem_split _ _ Hlk) as (p1 & p2 & Hs). destruct (lookup_result P s0 _ _ _ _ _ Hr0 Hs) as [Hkn _]. exists p1, p2.
    split_and!; [done|done|by eapply lookup_called].
Qed.

(** ** Names and reports *)
Lemma names_result P s pre ns post : reachable P s -> rlog s = pre ++ EvC (CvNames ns) :: post -> forall id, id ∈ ns <-> known post id <> None.
Proof.
  intros Hr Hl id. destruct (client_read P s Hr _ _ _ Hl) as (s0 & Hr0 & Ha & (-> & _ & ->)). unfold rlog. rewrite elem_of_dom, (loop_known P _ _ (reach_all P s0 Hr0)).
  destruct (c_workers (s_core s0) !! id); [|split; [by intros []|done]]. split; [done|]. eauto.
Qed.
Lemma report_result P s pre rep m post : reachable P s -> rlog s = pre ++ EvC (CvReport rep m) :: post -> forall id,
  match m !! id with
  | None => known post id = None
  | Some r => known post id <> None /\ first_spawn post id = Some (rr_started r) /\
      rr_status r = match registered post id with Some _ => StStarted | None => StStopped end /\
      rr_report r = match registered post id with Some (_, w) => rep w | None => None end
  end.
Proof.
  intros Hr Hl id. destruct (client_read P s Hr _ _ _ Hl) as (s0 & Hr0 & Ha & (-> & _ & ->)). pose proof (reach_all P s0 Hr0) as A. unfold rlog. rewrite lookup_fmap.
  pose proof (a_workers P _ A id) as W. destruct (c_workers (s_core s0) !! id) as [n|] eqn:Hn; cbn; [|by destruct W].
  destruct W as ((f & -> & _) & -> & -> & _). split_and!; [done|done| |done]. unfold status. destruct (ci_stop _ (a_inv P _ A) id n Hn) as [_ H].
  destruct (i_stopping n); [by rewrite H|]. by destruct (i_worker n).
Qed.

(** ** Blocked callers *)
Lemma waiter_blocked P s i t : reachable P s -> idle s -> s_waits s !! i = Some t -> t_pc t = TWaiting ->
  known (rlog s) (t_id t) <> None /\ registered (rlog s) (t_id t) = None.
Proof.
  intros Hr Hi Ht Hp. pose proof (reach_all P s Hr) as A. destruct (mu_wait s (reach_muinv P s Hr) _ _ Ht Hp) as [Hg|[H|H]]; [|destruct Hi; congruence..].
  unfold get_worker in Hg. pose proof (a_workers P _ A (t_id t)) as W. unfold rlog. destruct (c_workers (s_core s) !! t_id t) as [n|]; [|done].
  destruct W as ((f & -> & _) & -> & _). destruct (i_worker n) as [[]|]; done.
Qed.
Lemma caller_blocked P s i k id : reachable P s -> idle s -> s_calls s !! i = Some (CSelect k id) ->
  (forall l, wakes i l = true -> step P s l = None) -> known (rlog s) id <> None /\ registered (rlog s) id = None.
Proof.
  intros Hr Hi Hc Hq. destruct (li_select s (reach_linv P s Hr) _ _ _ Hc) as (t & Ht & <-). pose proof (reach_muinv P s Hr) as M.
  assert (s_mu s = None) as Hmu.
  { destruct (s_mu s) as [j|] eqn:Hm; [|done]. exfalso. destruct (mu_held s M _ Hm) as ([id' p st ch] & Hj & Hp & _). cbn in Hp. destruct Hp as [-> | ->].
    - specialize (Hq (LWtCheck j) eq_refl). cbn in Hq. rewrite Hj in Hq. by destruct st.
    - specialize (Hq (LWtAdd j) eq_refl). cbn in Hq. by rewrite Hj in Hq. }
  destruct t as [id p st ch]. cbn. destruct p.
  - apply mu_owner in Ht; [congruence|done|by left].
  - apply mu_owner in Ht; [congruence|done|by right].
  - by apply (waiter_blocked P s i (mkWaiter id TWaiting st ch) Hr Hi).
  - exfalso. specialize (Hq (LWtWake i)). cbn in Hq. rewrite bool_decide_eq_true_2 in Hq by done. specialize (Hq eq_refl). rewrite Ht, Hmu in Hq. by destruct (get_worker (s_core s) id).
  - exfalso. destruct ch as [r|].
    + specialize (Hq (LWc i)). cbn in Hq. rewrite bool_decide_eq_true_2 in Hq by done. specialize (Hq eq_refl). by rewrite Hc, Ht in Hq.
    + destruct (ex_exit s (reach_exitinv P s Hr) _ _ Ht eq_refl) as [H|H]; [done|]. cbn in H. subst st. apply (ex_stop s (reach_exitinv P s Hr)) in Ht; [congruence|done].
Qed.

(** ** Calls on a dead runner *)
(** Call [i] was made after the runner was dead. *)
Fixpoint late (log : list event) (i : nat) : Prop :=
  match log with
  | [] => False
  | EvClient (CvCall j _) :: log' => (j = i /\ EvDead ∈ log') \/ late log' i
  | _ :: log' => late log' i
  end.
Lemma late_in pre i k post : EvDead ∈ post -> late (pre ++ EvC (CvCall i k) :: post) i.
Proof.
  intros H. induction pre as [|ev pre IH]; [cbn; by left|]. destruct ev as [| | | | | | | | | | | | | | |[]]; cbn; try exact IH. by right.
Qed.
Lemma late_quiet evs log i : quiet evs -> late (evs ++ log) i -> late log i.
Proof.
  induction evs as [|ev evs IH]; [done|]. intros Hq. assert (quiet evs) as Hq' by (intros ce H; apply (Hq ce); by right).
  destruct ev as [| | | | | | | | | | | | | | |ce]; try (by apply IH). exfalso. apply (Hq ce). by left.
Qed.
Lemma late_dead log i : late log i -> EvDead ∈ log.
Proof. induction log as [|ev log IH]; [done|]. destruct ev as [| | | | | | | | | | | | | | |[]]; cbn; try (intros H; right; by apply IH). intros [[_ H]|H]; right; auto. Qed.
Lemma late_called log i : late log i -> exists k, EvC (CvCall i k) ∈ log.
Proof.
  induction log as [|ev log IH]; [done|]. assert (late log i -> exists k, EvC (CvCall i k) ∈ ev :: log) as H by (intros [k H]%IH; exists k; by right).
  destruct ev as [| | | | | | | | | | | | | | |[]]; try exact H. cbn. intros [[-> _]|?]; [|auto]. exists k. by left.
Qed.
Definition late_pc (p : cpc) : Prop := match p with CStart _ _ | CStop _ | CInfo _ _ | CCheck _ _ GNotFound | CRet => True | _ => False end.
Definition lateinv (s : state) : Prop := forall i, late (rlog s) i ->
  (exists p, s_calls s !! i = Some p /\ late_pc p) /\ forall k r, EvC (CvRet i k r) ∈ rlog s -> r = RErr err_dead.

Lemma dead_empty P s : reachable P s -> EvDead ∈ rlog s -> c_loop (s_core s) = LEnded /\ c_workers (s_core s) = ∅ /\ t_dying (c_tomb (s_core s)) = true /\ t_dead (c_tomb (s_core s)) = true /\ s_mu s = None.
Proof.
  intros Hr Hd. pose proof (reach_all P s Hr) as A. pose proof (dead_loop P _ A Hd) as Hl. pose proof (ci_loop _ (a_inv P _ A)) as W. rewrite Hl in W. destruct W as [_ W].
  assert (t_dead (c_tomb (s_core s)) = true) as Ht by (by apply (a_tomb P _ A)).
  split_and!; [done|done|by apply (ci_dead _ (a_inv P _ A))|done|]. destruct (s_mu s) as [j|] eqn:Hm; [|done]. exfalso.
  destruct (mu_held s (reach_muinv P s Hr) _ Hm) as (t & _ & _ & Hg). unfold get_worker in Hg. rewrite W, lookup_empty in Hg. done.
Qed.
Lemma lateinv_trans P s s' : reachable P s -> lateinv s -> strans P s s' -> lateinv s'.
Proof.
  intros Hr V HT i Hl.
  assert (late (rlog s) i \/ exists k, rlog s' = EvC (CvCall i k) :: rlog s) as Hold.
  { destruct (strans_emits P s s' HT) as [(evs & He & Hq)|(ce & post & He & (evs & -> & Hq) & Hc)].
    - left. rewrite He in Hl. by eapply late_quiet.
    - rewrite He in Hl. destruct ce; try (left; by eapply late_quiet). cbn in Hl. destruct Hc as [Hc _].
      destruct Hl as [[-> Hl]|Hl]; [right; exists k; by rewrite He, Hc|left; by eapply late_quiet]. }
  destruct Hold as [Hold|[k Hnew]].
  - destruct (V i Hold) as [(p & Hp & Hlp) Hret]. destruct (dead_empty P s Hr (late_dead _ _ Hold)) as (Hlo & Hw & Hdy & Hdd & Hmu).
    assert (forall (m : gmap nat cpc) j q, m !! i = Some p -> (j = i -> late_pc q) -> exists p', <[j := q]> m !! i = Some p' /\ late_pc p') as Hins.
    { intros m j q Hm Hq. destruct (decide (j = i)) as [->|Hne]; [rewrite lookup_insert|rewrite lookup_insert_ne by done]; eauto. }
    assert (forall ce, (forall k r, ce = CvRet i k r -> r = RErr err_dead) -> forall k r, EvC (CvRet i k r) ∈ EvC ce :: rlog s -> r = RErr err_dead) as Hc1.
    { intros ce Hce k r [[= <-]|H]%elem_of_cons; [by eapply Hce|by eapply Hret]. }
    destruct HT; unfold return_, tell, rlog in *; cbn in *; try (split; [|done]; by eauto);
      try (split; [apply Hins; [done|]; intros ->; rewrite Hp in H; injection H as ->; try done|apply Hc1; intros ? ?; try done; by intros [= <- <-]]); try congruence.
    + split; [eauto|]. intros k r Hin. eapply Hret. eapply adds_client; [|exact Hin]. by eapply own_quiet.
    + split; [|apply Hc1; by intros].
      destruct (decide (i0 = i)) as [->|Hne]; [congruence|]. rewrite lookup_insert_ne by done. eauto.
    + unfold get_worker in H1. rewrite Hw, lookup_empty in H1. by injection H1 as <-.
    + unfold get_worker in H1. rewrite Hw, lookup_empty in H1. done.
    + split; [by apply Hins|]. apply Hc1. by intros ? ? [= _ _ <-].
    + destruct (decide (i0 = i)) as [->|Hne].
      { exfalso. destruct H as [[? ?]|[(? & ? & ?)|(H & ?)]]; [congruence|congruence|]. rewrite Hp in H. injection H as ->. done. }
      unfold deliver, return_, tell. destruct k, r; cbn; rewrite lookup_insert_ne by done; (split; [by eauto|]);
        solve [exact Hret|apply Hc1; by intros ? ? [= <- _ _]].
    + split; [|done]. apply Hins; [done|]. intros ->. rewrite Hp in H. by injection H as ->.
    + split; [apply Hins; [done|]; by intros _|]. apply Hc1. intros ? ? [= -> _ <-]. rewrite Hp in H. by injection H as ->.
    + split; [|done]. apply Hins; [done|]. intros ->. rewrite Hp in H. by injection H as ->.
    + split; [by apply Hins|]. apply Hc1. intros ? ? [= -> _ <-]. rewrite Hp in H. by injection H as ->.
    + split; [by apply Hins|]. apply Hc1. intros ? ? [= -> _ <-]. rewrite Hp in H. by injection H as ->.
    + split; [by eauto|]. apply Hc1. by intros.
    + split; [by eauto|]. apply Hc1. by intros.
    + split; [by eauto|]. apply Hc1. by intros.
    + split; [by eauto|]. apply Hc1. by intros.
  - destruct (call_registers P s s' i k HT Hnew) as [Hc Hn]. split; [exists (first_pc k); split; [done|]; by destruct k|].
    intros k' r Hin. rewrite Hnew in Hin. apply elem_of_cons in Hin as [Hin|Hin]; [done|].
    pose proof (li_returned _ (reach_linv P s Hr) _ _ _ Hin). congruence.
Qed.
Lemma reach_lateinv P s : reachable P s -> lateinv s.
Proof.
  apply (reach_ind P lateinv); [intros i []|]. intros s0 s1 Hr V HT. by eapply lateinv_trans.
Qed.
(** C41: a call made after the runner is dead is answered with the runner's dead error and nothing else, *)
Lemma late_result P s pre i k post k' r : reachable P s -> rlog s = pre ++ EvC (CvCall i k) :: post -> EvDead ∈ post ->
  EvC (CvRet i k' r) ∈ rlog s -> r = RErr err_dead.
Proof. intros Hr Hl Hd Hin. refine (proj2 (reach_lateinv P s Hr i _) k' r Hin). rewrite Hl. by apply late_in. Qed.
(** and while it is unanswered the caller can take a step on its own. *)
Lemma late_enabled P s pre i k post : reachable P s -> rlog s = pre ++ EvC (CvCall i k) :: post -> EvDead ∈ post ->
  EvC (CvRet i k (RErr err_dead)) ∈ rlog s \/ exists l, (l = LCallDead i \/ l = LLock i \/ l = LCheck i) /\ is_Some (step P s l).
Proof.
  intros Hr Hl Hd. assert (late (rlog s) i) as HL by (rewrite Hl; by apply late_in).
  destruct (proj1 (reach_lateinv P s Hr i HL)) as (p & Hp & Hlp).
  destruct (dead_empty P s Hr (late_dead _ _ HL)) as (Hlo & Hw & Hdy & Hdd & Hmu). destruct p; try done.
  - right. exists (LCallDead i). split; [auto|]. unfold step. rewrite Hdd, Hp. eauto.
  - right. exists (LCallDead i). split; [auto|]. unfold step. rewrite Hdd, Hp. eauto.
  - right. exists (LLock i). split; [auto|]. unfold step. rewrite Hp, Hmu. unfold get_worker. rewrite Hw, lookup_empty. eauto.
  - right. exists (LCheck i). split; [auto|]. unfold step. rewrite Hp. eauto.
  - left. pose proof (li_pc _ (reach_linv P s Hr) _ _ Hp) as (k' & r & Hc & Hret).
    assert (k' = k) as -> by (eapply call_unique; [exact Hr|exact Hc|rewrite Hl; set_solver]).
    pose proof (proj2 (reach_lateinv P s Hr i HL) _ _ Hret) as ->. done.
Qed.
