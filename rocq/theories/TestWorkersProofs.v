From stdpp Require Import list.
From Coq Require Import ZArith Lia.
From RecordUpdate Require Import RecordSet.
From Verif Require Import Err Tomb TestWorkers TestWorkersSpec.
Import RecordSetNotations.

Global Instance kind_eq_dec : EqDecision kind.
Proof. solve_decision. Defined.
Global Instance event_eq_dec : EqDecision event.
Proof. solve_decision. Defined.

Fixpoint waits_ok (k : kind) (e : option err) (log : list event) : Prop :=
  match log with
  | [] => True
  | EvWait r :: post => r = e /\ (k <> KDead -> killer k ∈ post) /\ waits_ok k e post
  | EvPanic :: post => forbidden e /\ k <> KDead /\ waits_ok k e post
  | _ :: post => waits_ok k e post
  end.
Record inv (k : kind) (e : option err) (w : worker) : Prop := mkInv {
  n_kind : k_kind w = k; n_err : k_err w = e; n_waits : waits_ok k e (k_log w);
  n_panic : t_panic (k_tomb w) = false;
  n_bad : k <> KDead -> forbidden e -> k_tomb w = tomb_go tomb_new /\ k_run w = true;
  n_alive : k <> KDead -> ~ killer k ∈ k_log w -> k_tomb w = tomb_go tomb_new /\ k_run w = true;
  n_killed : k <> KDead -> ~ forbidden e -> killer k ∈ k_log w -> k_tomb w = if k_run w then mkTomb (Reason e) 1 false false else mkTomb (Reason e) 0 true false;
}.
Lemma inv_init k e : inv k e (new_worker k e).
Proof. destruct k; (constructor; simpl; try done; by intros ?? ?%elem_of_nil). Qed.
Lemma killed_same e a d : ~ forbidden e -> tomb_kill (mkTomb (Reason e) a d false) e = mkTomb (Reason e) a d false.
Proof. intros Hf. unfold forbidden in Hf. destruct e as [e|]; [|done]. destruct e; try done; naive_solver. Qed.
Lemma kill_new e : ~ forbidden e -> tomb_kill (tomb_go tomb_new) e = mkTomb (Reason e) 1 false false.
Proof. intros Hf. unfold forbidden in Hf. destruct e as [e|]; [|done]. destruct e; try done; naive_solver. Qed.
Lemma kill_bad e : forbidden e -> t_panic (tomb_kill (tomb_go tomb_new) e) = true.
Proof. by intros [-> | ->]. Qed.
(** A kill of the tomb. *)
Lemma inv_kill k e w : k <> KDead -> inv k e w -> inv k e (kill_tomb (emit (killer k) w)).
Proof.
  intros Hk [N1 N2 N3 N4 N5 N6 N7]. unfold kill_tomb. simpl. rewrite N2.
  assert (Hw : waits_ok k e (killer k :: k_log w)) by by destruct k.
  destruct (decide (forbidden e)) as [Hf|Hf].
  - destruct (N5 Hk Hf) as [Et Er]. rewrite Et, kill_bad by done. constructor; simpl; auto; done.
  - destruct (decide (killer k ∈ k_log w)) as [Hin|Hin].
    + rewrite (N7 Hk Hf Hin). destruct (k_run w) eqn:Er; rewrite killed_same by done; (constructor; simpl; auto; try done).
      * intros _ Hn. destruct Hn. by left.
      * by rewrite Er.
      * intros _ Hn. destruct Hn. by left.
      * by rewrite Er.
    + destruct (N6 Hk Hin) as [Et Er]. rewrite Et, kill_new by done. simpl. constructor; simpl; auto; try done.
      * intros _ Hn. destruct Hn. by left.
      * by rewrite Er.
Qed.
Lemma inv_other k e w ev : inv k e w -> (k <> KDead -> ev <> killer k) -> waits_ok k e (ev :: k_log w) -> inv k e (emit ev w).
Proof.
  intros [N1 N2 N3 N4 N5 N6 N7] Hne Hw. constructor; simpl; auto.
  - intros Hk Hn. apply N6; [done|]. intros ?. apply Hn. by right.
  - intros Hk Hf Hin. apply N7; [done|done|]. apply elem_of_cons in Hin as [Hx|?]; [|done]. by destruct (Hne Hk).
Qed.
Lemma inv_step k e w l w' : inv k e w -> step w l = Some w' -> inv k e w'.
Proof.
  intros I. pose proof I as [N1 N2 N3 N4 N5 N6 N7]. destruct l; cbn [step]; rewrite ?N1.
  - intros [= <-]. destruct k; [apply (inv_kill KError); done| |]; apply inv_other; done.
  - destruct k; try done. intros [= <-]. by apply (inv_kill KForever).
  - destruct (k_run w) eqn:Er; [|done]. destruct (t_dying (k_tomb w)) eqn:Ed; [|done]. intros [= <-].
    destruct (decide (k = KDead)) as [->|Hk].
    { (* no goroutine *) constructor; simpl; auto; try done. unfold tomb_done. clear -Ed N4. destruct (k_tomb w) as [r a d p]; simpl in *; subst. destruct r; [done|]. destruct a as [|[|a]]; [| |done]; by destruct e. }
    destruct (decide (killer k ∈ k_log w)) as [Hin|Hin].
    2: { destruct (N6 Hk Hin) as [Et _]. by rewrite Et in Ed. }
    destruct (decide (forbidden e)) as [Hf|Hf]. { destruct (N5 Hk Hf) as [Et _]. by rewrite Et in Ed. }
    pose proof (N7 Hk Hf Hin) as Et.
    assert (Ed' : tomb_done (k_tomb w) None = mkTomb (Reason e) 0 true false) by (rewrite Et; by destruct e).
    constructor; simpl; rewrite ?Ed'; auto; try done.
  - destruct (decide (k = KDead)) as [->|Hk].
    { intros [= <-]. apply inv_other; simpl; done. }
    assert (Hx : match tomb_wait (k_tomb w) with Some r => Some (emit (EvWait r) w) | None => None end = Some w' -> inv k e w').
    { unfold tomb_wait. destruct (t_dead (k_tomb w)) eqn:Ed; [|done]. intros [= <-].
      destruct (decide (killer k ∈ k_log w)) as [Hin|Hin].
      2: { destruct (N6 Hk Hin) as [Et _]. by rewrite Et in Ed. }
      destruct (decide (forbidden e)) as [Hf|Hf]. { destruct (N5 Hk Hf) as [Et _]. by rewrite Et in Ed. }
      apply inv_other; [done|by destruct k|]. simpl. split; [|done]. rewrite (N7 Hk Hf Hin). by destruct (k_run w). }
    by destruct k.
Qed.
Lemma inv_run k e ls : forall w w', inv k e w -> run w ls = Some w' -> inv k e w'.
Proof.
  induction ls as [|l ls IH]; intros w w' I; simpl; [by intros [= <-]|]. destruct (step w l) eqn:E; [|done]. intros Hr. eapply IH; [|done]. by eapply inv_step.
Qed.
Lemma inv_reachable k e w : reachable k e w -> inv k e w.
Proof. intros [ls Hr]. eapply inv_run; [apply inv_init|done]. Qed.
Lemma waits_at k e pre r post : waits_ok k e (pre ++ EvWait r :: post) -> r = e /\ (k <> KDead -> killer k ∈ post).
Proof. induction pre as [|ev pre IH]; simpl; [by intros (? & ? & _)|]. destruct ev; auto; intros (_ & _ & ?); auto. Qed.
Lemma panics_at k e pre post : waits_ok k e (pre ++ EvPanic :: post) -> forbidden e /\ k <> KDead.
Proof. induction pre as [|ev pre IH]; simpl; [by intros (? & ? & _)|]. destruct ev; auto; intros (_ & _ & ?); auto. Qed.

(** Wait returned. *)
Lemma error_wait e w pre r post : reachable KError e w -> k_log w = pre ++ EvWait r :: post -> r = e /\ EvKill ∈ post.
Proof. intros I%inv_reachable El. destruct I as [_ _ N3 _ _ _ _]. rewrite El in N3. apply waits_at in N3 as [-> Hx]. split; [done|]. by apply Hx. Qed.
Lemma forever_wait e w pre r post : reachable KForever e w -> k_log w = pre ++ EvWait r :: post -> r = e /\ EvReallyKill ∈ post.
Proof. intros I%inv_reachable El. destruct I as [_ _ N3 _ _ _ _]. rewrite El in N3. apply waits_at in N3 as [-> Hx]. split; [done|]. by apply Hx. Qed.
Lemma dead_wait e w pre r post : reachable KDead e w -> k_log w = pre ++ EvWait r :: post -> r = e.
Proof. intros I%inv_reachable El. destruct I as [_ _ N3 _ _ _ _]. rewrite El in N3. by apply waits_at in N3 as [-> Hx]. Qed.
(** Wait can return. *)
Lemma dead_ready e w : reachable KDead e w -> exists w', step w LWait = Some w' /\ k_log w' = EvWait e :: k_log w.
Proof. intros I%inv_reachable. destruct I as [N1 N2 _ _ _ _ _]. cbn [step]. rewrite N1, N2. by eexists. Qed.
Lemma ready k e w : k <> KDead -> reachable k e w -> killer k ∈ k_log w -> ~ forbidden e ->
  (exists w', step w LWait = Some w' /\ k_log w' = EvWait e :: k_log w) \/
  (step w LWait = None /\ exists w1 w', step w LReturn = Some w1 /\ step w1 LWait = Some w' /\ k_log w' = EvWait e :: k_log w).
Proof.
  intros Hk I%inv_reachable Hin Hf. destruct I as [N1 N2 N3 N4 N5 N6 N7]. pose proof (N7 Hk Hf Hin) as Et. cbn [step]. rewrite N1.
  destruct (k_run w) eqn:Er; rewrite Et; simpl.
  - right. split; [by destruct k|]. eexists _, _. split; [reflexivity|]. simpl.
    assert (Ed' : tomb_done (k_tomb w) None = mkTomb (Reason e) 0 true false) by (rewrite Et; by destruct e).
    rewrite N1, Ed'. destruct k; [|done|]; by split.
  - left. destruct k; [|done|]; by eexists.
Qed.
(** Before the kill, or if the tomb refused it, Wait blocks and the goroutine keeps running. *)
Lemma blocked k e w : k <> KDead -> reachable k e w -> ~ killer k ∈ k_log w \/ forbidden e -> step w LWait = None /\ step w LReturn = None.
Proof.
  intros Hk I%inv_reachable Hx. destruct I as [N1 N2 N3 N4 N5 N6 N7]. assert (k_tomb w = tomb_go tomb_new /\ k_run w = true) as [Et Er] by (destruct Hx; auto).
  cbn [step]. rewrite N1, Et, Er. simpl. by destruct k.
Qed.
Lemma panics k e w pre post : reachable k e w -> k_log w = pre ++ EvPanic :: post -> forbidden e /\ k <> KDead.
Proof. intros I%inv_reachable El. pose proof (n_waits _ _ _ I) as H. rewrite El in H. by eapply panics_at. Qed.
Lemma forever_ignores e w : reachable KForever e w -> exists w', step w LKill = Some w' /\ k_tomb w' = k_tomb w /\ k_run w' = k_run w /\ k_log w' = EvKill :: k_log w.
Proof. intros I%inv_reachable. destruct I as [N1 _ _ _ _ _ _]. cbn [step]. rewrite N1. by eexists. Qed.

(** * The fake watcher *)
Lemma watcher_new len preload : (new_fake_watcher len preload = None <-> (len < preload \/ len < 0)%Z) /\
  (forall f, new_fake_watcher len preload = Some f -> f_buf f = Z.to_nat preload /\ f_cap f = Z.to_nat len /\ f_closed f = false).
Proof.
  unfold new_fake_watcher. destruct (len <? preload)%Z eqn:E1; [apply Z.ltb_lt in E1; split; [split; [by left|done]|done]|].
  destruct (len <? 0)%Z eqn:E2; [apply Z.ltb_lt in E2; split; [split; [by right|done]|done]|].
  apply Z.ltb_ge in E1. apply Z.ltb_ge in E2. split; [split; [done|lia]|]. by intros f [= <-].
Qed.
Record winv (len preload : Z) (f : watcher) : Prop := mkWinv {
  x_cap : f_cap f = Z.to_nat len; x_count : f_received f + f_buf f = Z.to_nat preload + f_pings f; x_le : f_buf f <= f_cap f;
  x_end : f_ended f <> 0 -> f_closed f = true /\ f_buf f = 0; x_worker : inv KError None (f_worker f); x_panics : f_panics f <> 0 -> f_closed f = true }.
Lemma winv_step len preload f l f' : winv len preload f -> wstep f l = Some f' -> winv len preload f'.
Proof.
  intros [X1 X2 X3 X4 X5 X6]. destruct l; cbn [wstep].
  - destruct (f_closed f) eqn:Ec; [intros [= <-]; constructor; simpl; auto; by rewrite Ec|]. case_bool_decide as Hb; [|done]. intros [= <-].
    constructor; simpl; solve [lia|done|intros He; by destruct (X4 He)].
  - destruct (f_buf f) as [|n] eqn:Eb.
    + destruct (f_closed f) eqn:Ec; [|done]. intros [= <-]. constructor; simpl; rewrite ?Eb, ?Ec; auto.
    + intros [= <-]. constructor; simpl; solve [lia|done|intros He; by destruct (X4 He)].
  - destruct (f_closed f) eqn:Ec; [done|]. case_bool_decide as Hb; [|done]. intros [= <-].
    constructor; simpl; solve [lia|done|intros He; by destruct (X4 He)|rewrite Ec; by apply X6].
  - destruct (f_closed f) eqn:Ec; intros [= <-]; constructor; simpl; rewrite ?Ec; try done; intros He; by destruct (X4 He).
  - by intros [= <-].
  - destruct (step (f_worker f) l) eqn:E; [|done]. intros [= <-]. constructor; simpl; auto. by eapply inv_step.
Qed.
Lemma winv_run len preload ls : forall f f', winv len preload f -> wrun f ls = Some f' -> winv len preload f'.
Proof.
  induction ls as [|l ls IH]; intros w w' I; simpl; [by intros [= <-]|]. destruct (wstep w l) eqn:E; [|done]. intros Hr. eapply IH; [|done]. by eapply winv_step.
Qed.
Lemma winv_reachable len preload f : wreachable len preload f -> winv len preload f.
Proof.
  intros (f0 & ls & E & Hr). eapply winv_run; [|done]. unfold new_fake_watcher in E. destruct (len <? preload)%Z eqn:E1; [done|].
  destruct (len <? 0)%Z eqn:E2; [done|]. injection E as <-. apply Z.ltb_ge in E1. apply Z.ltb_ge in E2. constructor; simpl; try done; try lia. apply inv_init.
Qed.
(** Every event of the preload and of a Ping is received once, and no other. *)
Lemma watcher_counts len preload f : wreachable len preload f ->
  f_received f <= Z.to_nat preload + f_pings f /\
  (f_received f < Z.to_nat preload + f_pings f <-> exists f', wstep f LReceive = Some f' /\ f_received f' = S (f_received f)) /\
  (f_ended f <> 0 -> f_closed f = true /\ f_received f = Z.to_nat preload + f_pings f).
Proof.
  intros [X1 X2 X3 X4 X5 X6]%winv_reachable. split; [lia|]. split.
  - cbn [wstep]. split.
    + intros H. destruct (f_buf f); [lia|]. by eexists.
    + intros (f' & H & Hr). destruct (f_buf f); [|lia]. destruct (f_closed f); [|done]. injection H as <-. simpl in Hr. lia.
  - intros He. destruct (X4 He). split; [done|lia].
Qed.
(** Ping blocks while the channel is full; it panics after Close only. *)
Lemma watcher_ping len preload f : wreachable len preload f ->
  (wstep f LPing = None <-> f_closed f = false /\ Z.to_nat preload + f_pings f - f_received f = Z.to_nat len) /\
  (f_panics f <> 0 -> f_closed f = true).
Proof.
  intros [X1 X2 X3 X4 X5 X6]%winv_reachable. split; [|done]. cbn [wstep]. destruct (f_closed f); [split; [done|by intros [? _]]|].
  case_bool_decide; split; try done; lia.
Qed.
(** Stop does not stop it. *)
Lemma watcher_worker len preload f pre r post : wreachable len preload f -> k_log (f_worker f) = pre ++ EvWait r :: post -> r = None /\ EvKill ∈ post.
Proof. intros [_ _ _ _ X5 _]%winv_reachable El. pose proof (n_waits _ _ _ X5) as H. rewrite El in H. apply waits_at in H as [-> Hx]. split; [done|]. by apply Hx. Qed.

Lemma late_panics f ls f' : wrun f ls = Some f' -> f_panics f' = f_panics f + late_calls (f_closed f) ls.
Proof.
  revert f. induction ls as [|l ls IH]; intros f H; cbn [wrun] in H; [injection H as <-; cbn; lia|]. destruct (wstep f l) as [f1|] eqn:E; [|done]. rewrite (IH f1 H). clear IH H.
  destruct l; cbn [wstep late_calls] in *.
  - destruct (f_closed f) eqn:C; [injection E as <-; cbn; rewrite C; lia|]. case_bool_decide; [|done]. injection E as <-. cbn. rewrite C. lia.
  - destruct (f_buf f); [destruct (f_closed f) eqn:C; [|done]|]; injection E as <-; cbn; rewrite ?C; lia.
  - destruct (f_closed f) eqn:C; [done|]. case_bool_decide; [|done]. injection E as <-. cbn. rewrite C. lia.
  - destruct (f_closed f) eqn:C; injection E as <-; cbn; rewrite ?C; lia.
  - injection E as <-. lia.
  - destruct (step _ _); [|done]. injection E as <-. cbn. lia.
Qed.
Lemma watcher_panics len preload f0 ls f : new_fake_watcher len preload = Some f0 -> wrun f0 ls = Some f -> f_panics f = late_calls false ls.
Proof.
  intros H Hr. rewrite (late_panics _ _ _ Hr). unfold new_fake_watcher in H. destruct (len <? preload)%Z; [done|]. destruct (len <? 0)%Z; [done|]. by injection H as <-.
Qed.
Lemma watcher_close f : exists f', wstep f LClose = Some f' /\ f_closed f' = true /\ f_received f' = f_received f /\ f_pings f' = f_pings f /\ f_worker f' = f_worker f.
Proof. cbn [wstep]. destruct (f_closed f) eqn:C; eexists; split; try reflexivity; cbn; by rewrite ?C. Qed.
Lemma watcher_hand len preload f : wreachable len preload f ->
  (exists f', wstep f LHandOver = Some f') <-> f_closed f = false /\ f_received f = Z.to_nat preload + f_pings f.
Proof.
  intros [X1 X2 X3 X4 X5 X6]%winv_reachable. cbn [wstep]. destruct (f_closed f) eqn:C; [split; [by intros [? ?]|by intros [? _]]|].
  case_bool_decide; split; [lia|eauto|by intros [? ?]|lia].
Qed.
