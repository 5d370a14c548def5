(** Proofs of C66, C67, C70, C71 and of the corollary of C23 about killed workers. *)
From stdpp Require Import gmap strings list relations.
From Coq Require Import ZArith.
From RecordUpdate Require Import RecordSet.
From Verif Require Import Err Tomb Order Validate ValidateSpec ValidateProofs Snapshot Engine SelfManifold EngineSpec EngineMoreSpec EngineMicro EngineSteps EngineLog EngineSafety EngineFresh EngineKill EngineObs EngineHandlers EngineMore.
Import RecordSetNotations.

(** ** C23 *)
Lemma killed_ctx_done E s g n w : reachable E s -> EvKill g n w ∈ s_log s -> ctx_done s g = true.
Proof.
  intros Hr (pre & post & Heq)%elem_of_list_split. apply (ctx_done_iff E s g Hr).
  destruct (kill_once E s pre g n w post Hr Heq) as (_ & _ & [H|H]); [right|left].
  - destruct H as [m H]. exists m. rewrite Heq. apply elem_of_app. right. by right.
  - unfold is_dying in *. rewrite Heq. apply elem_of_app. right. by right.
Qed.

(** ** C66 *)
Lemma nested_report E s pre r post n mr : reachable E s -> s_log s = pre ++ EvReport r :: post ->
  rp_manifolds r !! n = Some mr ->
  forall k, mr_report mr = Some k <->
    exists g w, registered post n = Some (g, WExt w) /\ e_reporter E w = true /\ k = e_wreport E (length post) w.
Proof.
  intros Hr Heq Hm k. destruct (report_true E s pre r post Hr Heq) as [H _]. specialize (H n). rewrite Hm in H.
  destruct (installed post n); [|done]. destruct H as (_ & _ & _ & _ & _ & ->). unfold own_report.
  destruct (registered post n) as [[g [|w]]|].
  - split; [done|]. intros (? & ? & ? & _). congruence.
  - destruct (e_reporter E w) eqn:Hw.
    + split; [intros [= <-]; eauto|]. intros (g' & w' & [= <- <-] & _ & ->). done.
    + split; [done|]. intros (g' & w' & [= <- <-] & ? & _). congruence.
  - split; [done|]. intros (? & ? & ? & _). congruence.
Qed.

(** ** C71 *)
Lemma accesses_none log g : (forall k o e c, EvGet g k o e c ∉ log) -> accesses log g = [].
Proof.
  induction log as [|ev log IH]; intros H; [done|]. assert (accesses log g = []) as Hn.
  { apply IH. intros k o e c Hx. apply (H k o e c). by right. }
  destruct ev; simpl; try done. rewrite Hn. case_bool_decide as Hg; [|done]. subst. exfalso. eapply H. left.
Qed.

Definition over (p : pc) : bool := match p with PDelay _ | PStart | PReturned _ => false | _ => true end.
Definition acc_gor (log : list event) (g : nat) (r : gor) : Prop :=
  exists late, accesses log g = g_access r ++ late /\ (g_expired r = false -> late = []) /\
    (forall a, a ∈ late -> a_err a = Some (EMsg MsgExpired)).
Definition acc_ret (log : list event) (g : nat) (r : gor) : Prop :=
  forall pre n x post, log = pre ++ EvStartRet g n x :: post -> exists k, g_access r = accesses post g ++ k.
Definition rlog_ok (gs : gmap nat gor) (o : option nat) (n : string) (rl : list access) : Prop :=
  match o with
  | None => rl = []
  | Some g => exists r, gs !! g = Some r /\ over (g_pc r) = true /\ g_name r = n /\ rl = g_access r
  end.
Record acc_inv (s : state) : Prop := {
  a_gor : forall g r, s_gors s !! g = Some r -> acc_gor (s_log s) g r;
  a_ret : forall g r, s_gors s !! g = Some r -> acc_ret (s_log s) g r;
  a_over : forall g r, s_gors s !! g = Some r -> g_expired r = over (g_pc r);
  a_log : forall n i, s_current s !! n = Some i -> rlog_ok (s_gors s) (last_logged (s_log s) n) n (i_rlog i)
}.

Ltac gsplit g g' := destruct (decide (g = g')) as [->|?]; [rewrite ?lookup_insert|rewrite ?lookup_insert_ne by done].

Lemma step_over E s D s' D' : inv s -> acc_inv s -> micro E s D s' D' ->
  forall g r, s_gors s' !! g = Some r -> g_expired r = over (g_pc r).
Proof.
  intros V A Hm. pose proof (a_over s A) as K. mnorm V; try exact K; intros g' r'.
  all: lazymatch goal with |- <[?h := _]> _ !! _ = _ -> _ => destruct (decide (h = g')) as [<-|?]; [rewrite lookup_insert; intros [= <-]|rewrite lookup_insert_ne by done; apply K] end.
  all: simpl; try done.
  all: match goal with H : s_gors _ !! _ = Some _ |- _ => specialize (K _ _ H); simpl in K; try exact K end.
  all: destruct w; done.
Qed.

Lemma snapshot_get_acc outf sn x al k out e call al' : snapshot_get outf sn x al k out = (e, call, al') ->
  (x = true /\ e = Some (EMsg MsgExpired) /\ al' = al) \/ (x = false /\ al' = al ++ [mkAccess k out e]).
Proof.
  unfold snapshot_get. destruct x; [intros [= <- <- <-]; by left|].
  destruct (raw_access _ _ _ _) as [e0 c0]. intros [= <- <- <-]. by right.
Qed.

Lemma acc_gor_get E s g n f sn x al p k out e call al' : snapshot_get (e_outf E) sn x al k out = (e, call, al') ->
  acc_gor (s_log s) g (mkGor n f sn x al p) -> acc_gor (EvGet g k out e call :: s_log s) g (mkGor n f sn x al' p).
Proof.
  intros Hg (late & H1 & H2 & H3). unfold acc_gor. simpl in *. rewrite bool_decide_eq_true_2 by done.
  destruct (snapshot_get_acc _ _ _ _ _ _ _ _ _ Hg) as [(-> & -> & ->)|(-> & ->)].
  - exists (late ++ [mkAccess k out (Some (EMsg MsgExpired))]). rewrite H1, app_assoc. split; [done|]. split; [done|].
    intros a [Ha|Ha%elem_of_list_singleton]%elem_of_app; [by apply H3|by subst].
  - exists []. rewrite H1, H2 by done. rewrite !app_nil_r. split; [done|]. split; [done|]. intros a Ha. by apply elem_of_nil in Ha.
Qed.

Lemma acc_gor_other ev log g r : (forall k o e c, ev <> EvGet g k o e c) -> acc_gor log g r -> acc_gor (ev :: log) g r.
Proof.
  intros H. unfold acc_gor. assert (accesses (ev :: log) g = accesses log g) as ->; [|done].
  destruct ev; simpl; try done. rewrite bool_decide_eq_false_2; [apply app_nil_r|]. intros ->. by eapply H.
Qed.
Lemma acc_gor_pc log g n f sn al x p x' p' : (x' = false -> x = false) -> acc_gor log g (mkGor n f sn x al p) -> acc_gor log g (mkGor n f sn x' al p').
Proof. intros Hx (late & H1 & H2 & H3). exists late. simpl in *. auto. Qed.
Lemma acc_gor_new E s g r : linv E s -> g_access r = [] -> s_next s <= g -> acc_gor (s_log s) g r.
Proof.
  intros L Ha Hg. exists []. rewrite Ha. split.
  - apply accesses_none. intros k o e c Hx. pose proof (l_gid E s L _ g Hx eq_refl). lia.
  - split; [done|]. intros a H. by apply elem_of_nil in H.
Qed.

Lemma step_gor E s D s' D' : inv s -> linv E s -> acc_inv s -> micro E s D s' D' ->
  forall g r, s_gors s' !! g = Some r -> acc_gor (s_log s') g r.
Proof.
  intros V L A Hm. pose proof (a_gor s A) as K.
  mnorm V; try exact K; intros g' r' Hr'; repeat (apply acc_gor_other; [by intros ????|]); try (by apply K).
  all: lazymatch type of Hr' with <[?h := _]> _ !! _ = _ => destruct (decide (h = g')) as [<-|?]; [rewrite lookup_insert in Hr'; injection Hr' as <-|rewrite lookup_insert_ne in Hr' by done; try (by apply K)] end.
  all: try (by eapply acc_gor_pc; [|by apply K]).
  - by eapply acc_gor_new.
  - eapply acc_gor_get; [done|]. by apply K.
  - apply acc_gor_other; [congruence|]. by apply K.
Qed.

Lemma acc_ret_other ev log g r : (forall n x, ev <> EvStartRet g n x) -> acc_ret log g r -> acc_ret (ev :: log) g r.
Proof. intros H K [|ev' pre] n x post Heq; simpl in Heq; injection Heq as Hev Heq; [by edestruct H|by eapply K]. Qed.
Lemma acc_ret_more log g r r' : (exists k, g_access r' = g_access r ++ k) -> acc_ret log g r -> acc_ret log g r'.
Proof. intros [k Hk] K pre n x post Heq. destruct (K pre n x post Heq) as [k' H]. exists (k' ++ k). by rewrite Hk, H, app_assoc. Qed.

Lemma step_ret E s D s' D' : inv s -> linv E s -> acc_inv s -> micro E s D s' D' ->
  forall g r, s_gors s' !! g = Some r -> acc_ret (s_log s') g r.
Proof.
  intros V L A Hm. pose proof (a_ret s A) as K. pose proof (a_gor s A) as G. pose proof (a_over s A) as O.
  mnorm V; try exact K; intros g' r' Hr'; repeat (apply acc_ret_other; [by intros ??|]); try (by apply K).
  all: lazymatch type of Hr' with <[?h := _]> _ !! _ = _ => destruct (decide (h = g')) as [<-|?]; [rewrite lookup_insert in Hr'; injection Hr' as <-|rewrite lookup_insert_ne in Hr' by done; try (by apply K)] end.
  all: try (eapply acc_ret_more; [|by apply K]; simpl; exists []; by rewrite app_nil_r).
  - intros pre n' x post Heq. exfalso. match goal with _ : linv _ ?s |- _ => assert (s_next s < s_next s); [|lia] end.
    apply (l_gid E _ L (EvStartRet (s_next s) n' x)); [|reflexivity]. rewrite Heq. apply elem_of_app. right. left.
  - eapply acc_ret_more; [|by apply K]. simpl. edestruct snapshot_get_acc as [(_ & _ & ->)|(_ & ->)]; [done| |by eexists].
    exists []. by rewrite app_nil_r.
  - intros [|ev' pre] n' x' post Heq; simpl in Heq; [injection Heq as _ _ <-|injection Heq as _ Heq; by eapply (K _ _ H)].
    destruct (G _ _ H) as (late & -> & Hl & _). simpl. exists []. rewrite Hl, !app_nil_r; [done|].
    by apply (O _ _ H).
  - apply acc_ret_other; [congruence|]. by apply K.
Qed.

Lemma not_started s : inv s -> s_gors s !! s_next s = None.
Proof.
  intros V. destruct (s_gors s !! s_next s) eqn:H; [|done]. apply (v_next s V) in H. lia.
Qed.
Lemma rlog_frame gs o n rl g r r' : gs !! g = Some r ->
  (over (g_pc r) = true -> over (g_pc r') = true /\ g_name r' = g_name r /\ g_access r' = g_access r) ->
  rlog_ok gs o n rl -> rlog_ok (<[g := r']> gs) o n rl.
Proof.
  intros Hg Hr H. destruct o as [h|]; [|done]. destruct H as (q & H1 & H2 & H3 & H4).
  destruct (decide (g = h)) as [<-|Hne].
  - rewrite Hg in H1. injection H1 as <-. destruct (Hr H2) as (A & B & C). exists r'. rewrite lookup_insert. by rewrite B, C.
  - exists q. by rewrite lookup_insert_ne.
Qed.
Lemma rlog_frame_new gs o n rl g r' : gs !! g = None -> rlog_ok gs o n rl -> rlog_ok (<[g := r']> gs) o n rl.
Proof.
  intros Hg H. destruct o as [h|]; [|done]. destruct H as (q & H1 & H2). exists q.
  rewrite lookup_insert_ne; [done|]. intros <-. congruence.
Qed.

Lemma step_rlog E s D s' D' : inv s -> linv E s -> acc_inv s -> micro E s D s' D' ->
  forall n i, s_current s' !! n = Some i -> rlog_ok (s_gors s') (last_logged (s_log s') n) n (i_rlog i).
Proof.
  intros V L A Hm. pose proof (a_log s A) as K. pose proof (a_over s A) as O.
  mnorm V; try exact K.
  all: intros nn i' Hi'.
  all: try lazymatch type of Hi' with <[?h := _]> _ !! _ = _ => destruct (decide (h = nn)) as [<-|?]; [rewrite lookup_insert in Hi'; injection Hi' as <-; try rewrite bool_decide_eq_true_2 by done|rewrite lookup_insert_ne in Hi' by done; try rewrite bool_decide_eq_false_2 by done; specialize (K _ _ Hi')] end.
  all: try done.
  all: try (apply rlog_frame_new; [by apply not_started|exact K]).
  all: try (eapply rlog_frame; [done| |first [exact K|by apply K]]; done).
  all: try (eexists; rewrite lookup_insert; split; [done|]; by try destruct w).
  all: try (match goal with H : is_Some (s_manifolds _ !! ?n) |- _ => apply (v_dom _ V) in H; destruct H as [i Hi];
    specialize (K _ _ Hi); rewrite <- (info_of_eq _ _ _ Hi) in K end).
  - apply rlog_frame_new; [by apply not_started|exact K].
  - exact K.
  - exact K.
  - apply (a_log _ A). apply lookup_delete_Some in Hi'. tauto.
  - eapply rlog_frame; [done| |by apply K]. simpl. intros Hp. pose proof (O _ _ H) as Ho. simpl in Ho.
    destruct (snapshot_get_acc _ _ _ _ _ _ _ _ _ H0) as [(_ & _ & ->)|[Hx _]]; [done|congruence].
  - eapply rlog_frame; [done| |exact K]. by destruct w.
  - eapply rlog_frame; [done| |by apply K]. by destruct w.
Qed.

Lemma acc_reachable E s : reachable E s -> acc_inv s.
Proof.
  intros Hr. apply (reach_ind2 E (fun s D => acc_inv s)); [| |done].
  { constructor; simpl; try (intros ?? H; by rewrite lookup_empty in H). }
  clear s Hr. intros s D s' D' V L V' L' A Hm. constructor.
  - by eapply (step_gor E s D s' D').
  - by eapply (step_ret E s D s' D').
  - by eapply (step_over E s D s' D').
  - by eapply (step_rlog E s D s' D').
Qed.

Lemma rlog_true E s n i : reachable E s -> s_current s !! n = Some i ->
  match last_logged (s_log s) n with
  | None => i_rlog i = []
  | Some g =>
    (exists late, accesses (s_log s) g = i_rlog i ++ late /\ forall a, a ∈ late -> a_err a = Some (EMsg MsgExpired)) /\
    (forall pre n' r post, s_log s = pre ++ EvStartRet g n' r :: post -> exists k, i_rlog i = accesses post g ++ k)
  end.
Proof.
  intros Hr Hi. pose proof (acc_reachable E s Hr) as A. pose proof (a_log s A n i Hi) as H. unfold rlog_ok in H.
  destruct (last_logged (s_log s) n) as [g|]; [|done]. destruct H as (r & Hg & _ & _ & ->).
  split; [|by apply (a_ret s A)]. destruct (a_gor s A g r Hg) as (late & H1 & _ & H3). eauto.
Qed.

(** ** C67 *)
Lemma stopped_ctx_done E s g n raw e t : reachable E s -> EvStopped g n raw e t ∈ s_log s ->
  asked_to_stop (s_log s) g \/ is_dying (s_log s) -> ctx_done s g = true.
Proof. intros Hr _ H. apply (ctx_done_iff E s g Hr). tauto. Qed.
Lemma own_end_ctx E s g n raw e t : reachable E s -> EvStopped g n raw e t ∈ s_log s ->
  ~ asked_to_stop (s_log s) g -> ~ is_dying (s_log s) -> ctx_done s g = false.
Proof. intros Hr _ Ha Hd. apply not_true_is_false. intros Hc. apply (ctx_done_iff E s g Hr) in Hc. tauto. Qed.

(** ** C70 *)
Definition self_killed (s : state) : Prop := (exists g n, EvKill g n WSelf ∈ s_log s) -> dying s = true.
Lemma kill_tomb_none_dying s : dying (kill_tomb None s) = true.
Proof.
  unfold kill_tomb, dying, tomb_kill, t_dying, emit. destruct (t_reason (s_tomb s)) as [|[e|]] eqn:H; simpl; rewrite ?H; simpl; rewrite ?H; done.
Qed.
Lemma tomb_kill_dying t e : t_dying t = true -> t_dying (tomb_kill t e) = true.
Proof.
  unfold tomb_kill, t_dying. destruct (t_reason t) as [|e'] eqn:H; [done|]. intros _.
  destruct e as [[]|]; simpl; rewrite ?H; try done; destruct e'; simpl; rewrite ?H; done.
Qed.
Lemma kill_tomb_same e s : exists l, s_log (kill_tomb e s) = l ++ s_log s /\ (forall g n w, EvKill g n w ∉ l).
Proof.
  unfold kill_tomb. case_match; [exists [EvDying]|exists []]; (split; [done|]); intros g n w Hx.
  - apply elem_of_list_singleton in Hx. done.
  - by apply elem_of_nil in Hx.
Qed.
Lemma kill_tomb_dying_mono e s : dying s = true -> dying (kill_tomb e s) = true.
Proof. intros H. unfold kill_tomb, dying in *. case_match; simpl; by apply tomb_kill_dying. Qed.
Lemma sk_kill e s : self_killed s -> self_killed (kill_tomb e s).
Proof.
  intros H (g & n & Hx). destruct (kill_tomb_same e s) as (l & Hl & Hn). rewrite Hl in Hx.
  apply elem_of_app in Hx as [Hx|Hx]; [by apply Hn in Hx|]. apply kill_tomb_dying_mono. apply H. eauto.
Qed.
Lemma sk_same s s' : s_log s' = s_log s -> s_tomb s' = s_tomb s -> self_killed s -> self_killed s'.
Proof. unfold self_killed, dying. by intros -> ->. Qed.
Lemma sk_emit ev s : (forall g n w, ev <> EvKill g n w) -> self_killed s -> self_killed (emit ev s).
Proof.
  intros He H (g & n & [Hx|Hx]%elem_of_cons); [by edestruct He|]. apply H. eauto.
Qed.
Lemma sk_kill_worker g n w s : self_killed s -> self_killed (kill_worker g n w s).
Proof.
  intros H. unfold kill_worker. destruct w as [|w]; [intros _; apply kill_tomb_none_dying|].
  intros (g' & n' & [Hx|Hx]%elem_of_cons); [done|]. apply H. eauto.
Qed.
Lemma sk_poll E s : self_killed s -> self_killed (poll E s).
Proof. intros H. unfold poll. apply (sk_same (if e_preempt E (s_polls s) then kill_tomb None s else s)); [done|done|]. case_match; [by apply sk_kill|done]. Qed.
Lemma sk_launch E n d s : self_killed s -> self_killed (launch E n d s).
Proof. intros H. apply sk_emit; [done|]. by apply (sk_same s). Qed.
Lemma sk_request_start E n d s : self_killed s -> self_killed (request_start E n d s).
Proof.
  intros H. unfold request_start. repeat case_match; try apply sk_launch; apply sk_poll; repeat apply sk_kill; done.
Qed.
Lemma sk_do_stop n s : self_killed s -> self_killed (do_stop n s).
Proof.
  intros H. unfold do_stop. repeat case_match; (eapply sk_same; [reflexivity|reflexivity|]); try apply sk_kill_worker; try (apply sk_emit; [done|]); try done; by apply (sk_same s).
Qed.
Lemma sk_request_stop n s : self_killed s -> self_killed (request_stop n s).
Proof. intros H. unfold request_stop. case_match; [done|by apply sk_do_stop]. Qed.
Lemma sk_fold {A} (f : state -> A -> state) l s : (forall s a, self_killed s -> self_killed (f s a)) -> self_killed s -> self_killed (fold_left f l s).
Proof. intros Hf. revert s. induction l as [|a l IH]; intros s H; simpl; [done|]. apply IH. by apply Hf. Qed.
Lemma sk_bounce E n s : self_killed s -> self_killed (bounce_dependents E n s).
Proof. apply sk_fold. intros s' a H. unfold bounce_one. case_match; [by apply sk_request_start|by apply sk_request_stop]. Qed.
Lemma sk_uninstall E n s : self_killed s -> self_killed (uninstall E n s).
Proof. intros H. apply sk_emit; [done|]. by apply (sk_same s). Qed.
Lemma sk_register g n w rl s : self_killed s -> self_killed (register g n w rl s).
Proof. intros H. unfold register. apply sk_emit; [done|]. apply sk_emit; [done|]. by apply (sk_same s). Qed.
Lemma sk_got_install E n m s : self_killed s -> self_killed (snd (got_install E n m s)).
Proof.
  intros H. unfold got_install. repeat case_match; simpl; [done|by apply (sk_same s)|].
  apply sk_request_start. apply sk_emit; [done|]. by apply (sk_same s).
Qed.
Lemma sk_got_started E g n w rl s : self_killed s -> self_killed (got_started E g n w rl s).
Proof.
  intros H. unfold got_started. repeat case_match; try apply sk_kill_worker; try apply sk_kill; try apply sk_poll; try done.
  apply sk_bounce, sk_register. by apply sk_poll.
Qed.
Lemma sk_end_attempt E g n raw rl s : self_killed s -> self_killed (end_attempt E g n raw rl s).
Proof.
  intros H. unfold end_attempt. eapply sk_same; [reflexivity|reflexivity|].
  repeat case_match; try apply sk_kill; try (eapply sk_same; [reflexivity|reflexivity|]); apply sk_emit; done.
Qed.
Lemma sk_after_stop E n e s : self_killed s -> self_killed (after_stop E n e s).
Proof. intros H. unfold after_stop. repeat case_match; try done; first [by apply sk_request_start|by apply sk_uninstall]. Qed.
Lemma sk_got_stopped E g n raw rl s : self_killed s -> self_killed (got_stopped E g n raw rl s).
Proof.
  intros H. unfold got_stopped. assert (self_killed (poll E (end_attempt E g n raw rl s))) as H1 by (by apply sk_poll, sk_end_attempt).
  repeat case_match; try done; try apply sk_bounce; first [by apply sk_request_start|by apply sk_after_stop].
Qed.
Lemma tomb_done_dying t e : t_dying t = true -> t_dying (tomb_done t e) = true.
Proof.
  intros H. assert (t_dying (t <| t_alive ::= pred |>) = true) as H1 by done. unfold tomb_done.
  pose proof (tomb_kill_dying _ e H1) as H2. repeat case_match; done.
Qed.
Lemma sk_end_iteration E s : self_killed s -> self_killed (end_iteration E s).
Proof.
  intros H. unfold end_iteration. pose proof (sk_poll E s H) as H1. case_match; [|done]. apply sk_emit; [done|].
  intros Hx. specialize (H1 Hx). unfold dying in *. simpl. by apply tomb_done_dying.
Qed.
Lemma sk_set_pc g p s : self_killed s -> self_killed (set_pc g p s).
Proof. by apply sk_same. Qed.

Lemma sk_stop_all E s : self_killed s -> self_killed (stop_all E s).
Proof. intros H. apply sk_fold; [|by apply (sk_same s)]. intros s' a H'. by apply sk_request_stop. Qed.

Lemma sk_step E s l s' : step E s l = Some s' -> self_killed s -> self_killed s'.
Proof.
  intros Hs H. destruct l; cbn [step] in Hs; repeat case_match; try done; injection Hs as <-.
  all: try (match goal with H : got_install ?E ?n ?m ?s = _ |- _ => pose proof (sk_got_install E n m s) as Hi; rewrite H in Hi end).
  all: repeat first [exact H|lazymatch goal with |- self_killed (kill_tomb None (emit (EvKill ?g ?n WSelf) ?s)) => apply (sk_kill_worker g n WSelf s) | |- self_killed (emit (EvKill ?g ?n (WExt ?w)) ?s) => apply (sk_kill_worker g n (WExt w) s) end|apply sk_end_iteration|apply sk_kill_worker|apply sk_emit; [done|]|apply sk_poll|apply sk_kill|apply sk_got_started|apply sk_got_stopped|apply sk_stop_all|apply sk_set_pc|by apply Hi].
  all: by apply (sk_same s).
Qed.

Lemma run_ind (P : state -> Prop) E : (forall s l s', step E s l = Some s' -> P s -> P s') ->
  forall ls s s', run E s ls = Some s' -> P s -> P s'.
Proof.
  intros Hst. induction ls as [|l ls IH]; intros s s' Hr H; simpl in Hr; [by injection Hr as <-|].
  destruct (step E s l) as [s1|] eqn:H1; [|done]. eapply IH; [done|]. by eapply Hst.
Qed.
Lemma self_kill_dying E s g n : reachable E s -> EvKill g n WSelf ∈ s_log s -> is_dying (s_log s).
Proof.
  intros Hr Hk. destruct (reachable_linv E s Hr) as [_ L]. apply (l_dying E s L). destruct Hr as [ls Hr].
  assert (self_killed s) as H; [|apply H; eauto]. eapply (run_ind self_killed E (sk_step E)); [done|].
  intros (? & ? & Hx). by apply elem_of_nil in Hx.
Qed.

Lemma exit_kind E s pre g n e post : reachable E s -> s_log s = pre ++ EvExit g n e :: post ->
  (exists w, w <> WSelf /\ EvStartRet g n (inl w) ∈ post) \/ is_dying post /\ e = Some ETombDying.
Proof.
  intros Hr. set (Q := fun ev (post : list event) => match ev with EvExit g n e =>
    (exists w, w <> WSelf /\ EvStartRet g n (inl w) ∈ post) \/ is_dying post /\ e = Some ETombDying | _ => True end).
  intros Heq. enough (Q (EvExit g n e) post) by done. revert Heq. apply (hist_reach E Q); [|done].
  subst Q. clear. intros s D s' D' V L V' L' Hh Hm. clear V' L'. mnorm V; try done; split_and?; try done.
  - left. exists w. pose proof (l_phase E s L _ _ H) as [Hp _]. split; [|exact Hp].
    destruct (v_active s V _ _ H) as (i & _ & Hok); [done|]. simpl in Hok. destruct Hok. simpl in *. tauto.
  - right. split; [by apply (l_dying E s L)|done].
Qed.
Lemma self_exit E s pre g n e post : reachable E s -> s_log s = pre ++ EvExit g n e :: post ->
  EvStartRet g n (inl WSelf) ∈ s_log s -> is_dying post /\ e = Some ETombDying.
Proof.
  intros Hr Heq Hs. destruct (exit_kind E s pre g n e post Hr Heq) as [(w & Hw & Hret)|H]; [|done].
  exfalso. assert (EvStartRet g n (inl w) ∈ s_log s) as Hret'. { rewrite Heq. apply elem_of_app. right. by right. }
  destruct (ret_unique E s g n _ n _ Hr Hs Hret') as [_ [= <-]]. done.
Qed.

Lemma attempt_once E s pre g n sn t d post : reachable E s -> s_log s = pre ++ EvAttempt g n sn t d :: post ->
  forall n' sn' t' d', EvAttempt g n' sn' t' d' ∉ post.
Proof.
  intros Hr Heq. set (Q := fun ev (post : list event) => match ev with EvAttempt g n sn t d => forall n' sn' t' d', EvAttempt g n' sn' t' d' ∉ post | _ => True end).
  enough (Q (EvAttempt g n sn t d) post) by done. revert Heq. apply (hist_reach E Q); [|done].
  subst Q. clear. intros s D s' D' V L V' L' Hh Hm. clear V' L'. mnorm V; try done; split_and?; try done.
  intros n' sn' t' d' Hx. pose proof (l_gid E s L _ _ Hx eq_refl). lia.
Qed.
Lemma attempt_manifold_split log g m : attempt_manifold log g = Some m ->
  exists l1 n sn t d l2, log = l1 ++ EvAttempt g n sn t d :: l2 /\ installed l2 n = Some m.
Proof.
  induction log as [|ev log IH]; [done|]. simpl.
  assert (attempt_manifold log g = Some m -> exists l1 n sn t d l2, ev :: log = l1 ++ EvAttempt g n sn t d :: l2 /\ installed l2 n = Some m) as Hx.
  { intros (l1 & n & sn & t & d & l2 & -> & H)%IH. by exists (ev :: l1), n, sn, t, d, l2. }
  destruct ev; try done. case_bool_decide; [|done]. intros Hi. subst. by eexists [], _, _, _, _, _.
Qed.
Lemma installed_event log n m : installed log n = Some m -> EvInstalled n m ∈ log.
Proof.
  induction log as [|ev log IH]; [done|]. simpl. rewrite elem_of_cons.
  destruct ev; try (by auto); case_bool_decide; try (by auto). - intros [= <-]. subst. by left.
Qed.
Lemma registered_event log n g w : registered log n = Some (g, w) -> exists t, EvRegister g n w t ∈ log.
Proof.
  induction log as [|ev log IH]; [done|]. simpl. setoid_rewrite elem_of_cons.
  assert (registered log n = Some (g, w) -> exists t, EvRegister g n w t = ev \/ EvRegister g n w t ∈ log) as Hx.
  { intros [t H]%IH. eauto. }
  destruct ev; try done; case_bool_decide; try done. intros [= -> ->]. subst. eauto.
Qed.
Lemma register_ret E s g n w t : reachable E s -> EvRegister g n w t ∈ s_log s -> EvStartRet g n (inl w) ∈ s_log s.
Proof.
  intros Hr (pre & post & Heq)%elem_of_list_split.
  set (Q := fun ev (post : list event) => match ev with EvRegister g n w t => EvStartRet g n (inl w) ∈ post | _ => True end).
  assert (Q (EvRegister g n w t) post) as H.
  { revert Heq. apply (hist_reach E Q); [|done]. subst Q. clear. intros s D s' D' V L V' L' Hh Hm. clear V' L'.
    mnorm V; try done; split_and?; try done. apply (l_phase E s L _ _ H). }
  rewrite Heq. apply elem_of_app. right. by right.
Qed.

Lemma split_uniq {A} (P : A -> Prop) (l1 l2 l3 l4 : list A) (a b : A) :
  l1 ++ a :: l2 = l3 ++ b :: l4 -> P a -> P b -> (forall x, x ∈ l2 -> ~ P x) -> (forall x, x ∈ l4 -> ~ P x) -> a = b /\ l2 = l4.
Proof.
  intros Heq Ha Hb H2 H4. revert l3 Heq. induction l1 as [|x l1 IH]; intros [|y l3] Heq; simpl in Heq; injection Heq as -> Heq; [done|..].
  - subst. destruct (H2 b); [|done]. apply elem_of_app. right. left.
  - subst. destruct (H4 a); [|done]. apply elem_of_app. right. left.
  - by eapply IH.
Qed.

Lemma self_output_ok E s f o pre g k t r w post : reachable E s ->
  self_start (s_log s) f -> goes_with (s_log s) o f -> (forall w t, e_outf E o w t = self_output w t) ->
  s_log s = pre ++ EvGet g k (Some t) r (Some (o, w, t)) :: post ->
  start_called post g -> (forall n' r', EvStartRet g n' r' ∉ post) ->
  w = WSelf /\ (r = None <-> t = out_installer \/ t = out_reporter).
Proof.
  intros Hr Hs Hw Ho Heq Hc Hn.
  destruct (get_inside_start E s pre g k (Some t) r _ post Hr Heq Hc Hn) as (n & sn & l & m & Ha & Hi & Hmiss & Hget).
  assert (exists gk w', k ∈ m_inputs m /\ registered l k = Some (gk, w')) as (gk & w' & Hk & Hreg).
  { destruct (decide (k ∈ m_inputs m)) as [Hk|Hk]; [|destruct (Hmiss (or_introl Hk)); done].
    destruct (registered l k) as [[gk w']|]; [eauto|destruct (Hmiss (or_intror eq_refl)); done]. }
  destruct (Hget gk w' Hk Hreg) as (mk & Hmk & Hx). destruct (m_output mk) as [o'|] eqn:Hmo; [|by destruct Hx].
  destruct Hx as [Hre [= <- <-]].
  apply attempt_of_in in Ha as (l1 & t1 & d1 & Hpost).
  assert (forall x, x ∈ l -> x ∈ s_log s) as Hsub.
  { intros x Hx. rewrite Heq, Hpost, elem_of_app, elem_of_cons, elem_of_app, elem_of_cons. auto. }
  apply registered_event in Hreg as [tr Hreg]. pose proof (register_ret E s _ _ _ _ Hr (Hsub _ Hreg)) as Hret.
  destruct (reachable_linv E s Hr) as [_ L]. destruct (l_ret E s L _ _ _ Hret) as (rr & Hg & Hgn & _ & _ & (n2 & f2 & t2 & Hcall)).
  destruct (l_called E s L _ _ _ _ Hcall) as (rr' & Hg' & Hgn' & _). assert (n2 = k) as -> by congruence.
  apply attempt_manifold_split in Hmk as (a1 & an & asn & at_ & ad & a2 & Hal & Hinst).
  assert (f2 = m_start mk) as ->.
  { pose proof Hcall as (c1 & c2 & Hc2)%elem_of_list_split.
    destruct (delay_elapsed E s c1 gk k f2 t2 c2 Hr Hc2) as (sn3 & t3 & d3 & m3 & l3 & _ & _ & Hat3 & Hin3 & Hst3).
    apply attempt_of_in in Hat3 as (e1 & t4 & d4 & He).
    pose proof Heq as Heq1. rewrite Hpost, Hal in Heq1. pose proof Hc2 as Heq2. rewrite He in Heq2.
    assert (s_log s = (pre ++ EvGet g k (Some t) r (Some (o, w, t)) :: l1 ++ EvAttempt g n sn t1 d1 :: a1) ++ EvAttempt gk an asn at_ ad :: a2) as Hs1.
    { rewrite Heq1. by rewrite <- !app_assoc, <- app_comm_cons, <- !app_assoc, <- app_comm_cons. }
    assert (s_log s = (c1 ++ EvStartCall gk k f2 t2 :: e1) ++ EvAttempt gk k sn3 t4 d4 :: l3) as Hs2.
    { rewrite Heq2. by rewrite <- !app_assoc, <- app_comm_cons. }
    destruct (split_uniq (fun ev => exists n sn t d, ev = EvAttempt gk n sn t d) _ _ _ _ _ _ (eq_trans (eq_sym Hs1) Hs2)) as [[= -> -> -> ->] <-]; [by eauto..| | |].
    - intros x Hx (? & ? & ? & ? & ->). by eapply (attempt_once E s _ _ _ _ _ _ _ Hr Hs1).
    - intros x Hx (? & ? & ? & ? & ->). by eapply (attempt_once E s _ _ _ _ _ _ _ Hr Hs2).
    - congruence. }
  assert (EvInstalled an mk ∈ s_log s) as Hins.
  { apply Hsub. rewrite Hal, elem_of_app, elem_of_cons. right. right. by apply installed_event. }
  rewrite (Hw an mk Hins Hmo) in Hcall. pose proof (Hs _ _ _ _ Hcall Hret) as [= ->]. split; [done|].
  rewrite Hre, Ho. unfold self_output. repeat case_bool_decide; naive_solver.
Qed.

Lemma self_output_func w t : self_output w t = None <-> w = WSelf /\ (t = out_installer \/ t = out_reporter).
Proof.
  unfold self_output. destruct w as [|w]; [|split; [done|by intros [? _]]]. repeat case_bool_decide; split; try tauto; try done; intros [_ [?|?]]; congruence.
Qed.
Lemma self_never_bounced E s pre g n f o post : reachable E s -> s_log s = pre ++ EvCancel g n :: post -> installed post n = Some (self_manifold f o) -> is_dying post.
Proof.
  intros Hr Hl Hi. destruct (cancel_cause E s pre g n post Hr Hl) as (_ & [H|(x & m & _ & Hm & Hx & _)]); [done|]. rewrite Hi in Hm. injection Hm as <-. by apply elem_of_nil in Hx.
Qed.
