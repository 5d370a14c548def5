From stdpp Require Import strings list.
From Coq Require Import ZArith Reals Lra Lia.
From Flocq Require Import Core BinarySingleNaN.
From Verif Require Import Err Backoff BackoffProofs Engine Config Runner Catacomb ConfigSpec.

Lemma broken_fun l r1 r2 : first_broken l r1 -> first_broken l r2 -> r1 = r2.
Proof. intros H1. revert r2. induction H1; inversion 1; subst; try done; auto. Qed.

Lemma factor_test (f : f64) : negb (Beqb f (of_int 0)) && Bltb f (of_int 1) = true <-> below_one f.
Proof.
  unfold below_one. destruct (is_finite f) eqn:Hf.
  - rewrite (Beqb_correct 53 1024), (Bltb_correct 53 1024) by done. change (B2R (of_int 0)) with 0%R.
    assert (B2R (of_int 1) = 1%R) as -> by (apply of_int_exact; lia). rewrite andb_true_iff, negb_true_iff. split.
    + intros [H1 H2]. left. split; [done|]. split.
      * intros H. rewrite H in H1. rewrite Req_bool_true in H1 by done. done.
      * destruct (Rlt_bool_spec (B2R f) 1); done.
    + intros [(_ & H1 & H2)| ->]; [|done]. split; [by apply Req_bool_false|by apply Rlt_bool_true].
  - destruct f as [b|b| |b m e Hb]; try done; [destruct b|]; vm_compute; split; intros H; try done; try by right.
    + destruct H as [(H & _)|H]; [done|discriminate].
    + destruct H as [(H & _)|H]; [done|discriminate].
Qed.

Lemma engine_validate c : first_broken (engine_rules c) (validate_engine c).
Proof.
  unfold engine_rules, validate_engine.
  destruct (ec_isFatal c); [apply fb_next; [done|]|by apply fb_this].
  destruct (ec_worstError c); [apply fb_next; [done|]|by apply fb_this].
  destruct (Z.ltb_spec (ec_errorDelay c) 0); [by apply fb_this|apply fb_next; [lia|]].
  destruct (Z.ltb_spec (ec_bounceDelay c) 0); [by apply fb_this|apply fb_next; [lia|]].
  pose proof (factor_test (ec_factor c)) as Hf.
  destruct (negb (Beqb (ec_factor c) (of_int 0)) && Bltb (ec_factor c) (of_int 1)); [apply fb_this; by apply Hf|apply fb_next; [intros Hb; apply Hf in Hb; done|]].
  destruct (Z.ltb_spec (ec_resetTime c) 0); [by apply fb_this|apply fb_next; [lia|]].
  destruct (Z.ltb_spec (ec_maxDelay c) 0); [by apply fb_this|apply fb_next; [lia|]].
  destruct (ec_clock c); cbn [negb]; [apply fb_next; [done|]|by apply fb_this].
  destruct (ec_metrics c); cbn [negb]; [apply fb_next; [done|]|by apply fb_this].
  destruct (ec_logger c); cbn [negb]; [apply fb_next; [done|]|by apply fb_this].
  apply fb_none.
Qed.
Lemma engine_new c :
  (exists e, first_broken (engine_rules c) (Some e) /\ new_engine c = inl (EWrap (MsgText "invalid config") e)) \/
  (first_broken (engine_rules c) None /\ exists isFatal worst, ec_isFatal c = Some isFatal /\ ec_worstError c = Some worst /\
    new_engine c = inr (mkConfig isFatal worst (ec_filter c) (ec_errorDelay c) (ec_bounceDelay c) (ec_resetTime c), mkBackoff (ec_factor c) (ec_maxDelay c))).
Proof.
  pose proof (engine_validate c) as H. unfold new_engine. destruct (validate_engine c) as [e|] eqn:E.
  - left. by exists e.
  - right. split; [done|]. revert H. unfold validate_engine in E. destruct (ec_isFatal c) as [f|]; [|done]. destruct (ec_worstError c) as [w|]; [|done]. intros _. by exists f, w.
Qed.
Lemma broken_none l : first_broken l None <-> Forall (fun r => ~ r.1) l.
Proof.
  split.
  - intros H. remember None as r eqn:E. induction H; [constructor|done|]. constructor; auto.
  - induction 1 as [|[P e] l H _ IH]; [constructor|]. by apply fb_next.
Qed.
Lemma broken_some l e : first_broken l (Some e) <-> exists l1 P l2, l = l1 ++ (P, e) :: l2 /\ P /\ Forall (fun r => ~ r.1) l1.
Proof.
  split.
  - intros H. remember (Some e) as r eqn:E. induction H as [|P e' l HP|P e' l r HP _ IH]; simplify_eq.
    + by exists [], P, l.
    + destruct (IH eq_refl) as (l1 & P' & l2 & -> & HP' & Hl). exists ((P, e') :: l1), P', l2. split; [done|]. split; [done|]. by constructor.
  - intros (l1 & P & l2 & -> & HP & Hl). induction Hl as [|[Q e'] l H _ IH]; [by apply fb_this|]. by apply fb_next.
Qed.

Lemma init_rules ws i : first_broken (imap (fun j w => (w = None, ETyped TNotValid (MsgNilInit (i + j)))) ws)
  (match nil_item ws i with Some k => Some (ETyped TNotValid (MsgNilInit k)) | None => None end).
Proof.
  revert i. induction ws as [|[w|] ws IH]; intros i.
  - apply fb_none.
  - rewrite imap_cons. apply fb_next; [done|]. specialize (IH (S i)). cbn [nil_item].
    erewrite imap_ext; [exact IH|]. intros j x _. cbn. do 3 f_equal. lia.
  - rewrite imap_cons. cbn [nil_item]. rewrite Nat.add_0_r. by apply fb_this.
Qed.
Lemma plan_validate p : first_broken (plan_rules p) (validate p).
Proof.
  unfold plan_rules, validate. cbn [app].
  case_bool_decide; [by apply fb_this|apply fb_next; [done|]].
  destruct (p_site p); cbn [negb]; [apply fb_next; [done|]|by apply fb_this].
  destruct (p_work p); cbn [negb]; [apply fb_next; [done|]|by apply fb_this].
  exact (init_rules (p_init p) 0).
Qed.
Lemma runner_validate p : first_broken (runner_rules p) (params_validate p).
Proof. unfold runner_rules, params_validate. case_bool_decide; [by apply fb_this|apply fb_next; [done|]]. apply fb_none. Qed.
Lemma runner_new p :
  (rp_name p = ""%string /\ new_runner p = inr (ETyped TNotValid (MsgText "Name is required"))) \/
  (rp_name p <> ""%string /\ exists c, new_runner p = inl c /\
    (forall f, rp_isFatal p = Some f -> r_isFatal c = f) /\ (rp_isFatal p = None -> forall e, r_isFatal c e = true) /\
    (forall f, rp_shouldRestart p = Some f -> r_shouldRestart c = f) /\ (rp_shouldRestart p = None -> forall e, r_shouldRestart c e = true) /\
    (forall f, rp_more p = Some f -> r_more c = f) /\ (rp_more p = None -> forall e1 e2, r_more c e1 e2 = true) /\
    (rp_restartDelay p <> 0%Z -> r_delay c = rp_restartDelay p) /\ (rp_restartDelay p = 0%Z -> r_delay c = 3000000000%Z)).
Proof.
  unfold new_runner, params_validate. case_bool_decide as H; [left; done|right]. split; [done|]. eexists. split; [reflexivity|]. cbn [r_isFatal r_shouldRestart r_more r_delay].
  split_and!; try (intros; by (match goal with H : _ = _ |- _ => rewrite H end)).
  - intros Hn. by rewrite bool_decide_eq_false_2.
Qed.
