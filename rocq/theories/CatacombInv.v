(** Invariants of the catacomb: the tomb, the WaitGroup, the goroutines. *)
From stdpp Require Import gmap strings list.
From Coq Require Import Lia.
From RecordUpdate Require Import RecordSet.
From Verif Require Import Err Tomb Sum Catacomb CatacombSpec.
Import RecordSetNotations.

(** ** Induction over executions *)
Lemma run_app me s ls1 ls2 : run me s (ls1 ++ ls2) = match run me s ls1 with Some s' => run me s' ls2 | None => None end.
Proof. revert s. induction ls1 as [|l ls IH]; intros s; [done|]. cbn. destruct (step me s l); [apply IH|done]. Qed.
Lemma reach_step me s l s' : reachable me s -> step me s l = Some s' -> reachable me s'.
Proof. intros [ls Hls] Hs. exists (ls ++ [l]). rewrite run_app, Hls. cbn. by rewrite Hs. Qed.
Lemma reach_inv me (P : state -> Prop) : P init -> (forall s l s', reachable me s -> P s -> step me s l = Some s' -> P s') -> forall s, reachable me s -> P s.
Proof.
  intros H0 HS s [ls Hls]. revert s Hls. induction ls as [|l ls IH] using rev_ind; intros s Hls; cbn in Hls; [by injection Hls as <-|].
  rewrite run_app in Hls. destruct (run me init ls) as [s1|] eqn:E; [|done]. cbn in Hls. destruct (step me s1 l) eqn:Es; [|done]. injection Hls as <-.
  eapply HS; [by exists ls| |exact Es]. by apply IH.
Qed.
Lemma reach_run me s ls s' : reachable me s -> run me s ls = Some s' -> reachable me s'.
Proof. intros [l0 H0] H. exists (l0 ++ ls). by rewrite run_app, H0. Qed.

(** ** Kill *)
Definition tsame (t t' : tomb) : Prop := t_panic t' = false /\ t_dead t' = t_dead t /\ t_alive t' = t_alive t /\ (t_dying t = true -> t_dying t' = true).
Lemma tsame_refl t : t_panic t = false -> tsame t t.
Proof. by intros. Qed.
Lemma tomb_kill_same t e : t_panic (tomb_kill t e) = false -> tsame t (tomb_kill t e).
Proof. intros H. split; [done|]. clear H. unfold tomb_kill, t_dying. repeat case_match; simplify_eq; cbn in *; try done; congruence. Qed.
Lemma kill_cases me src e s :
  (kill me src e s = (emit (EvKillPanic src e) s, true) /\ t_panic (tomb_kill (x_tomb s) (translate me e)) = true) \/
  (kill me src e s = (emit (EvKill src e) (s <| x_tomb := tomb_kill (x_tomb s) (translate me e) |>), false) /\
   t_panic (tomb_kill (x_tomb s) (translate me e)) = false).
Proof. unfold kill. destruct (t_panic (tomb_kill _ _)) eqn:E; [left|right]; done. Qed.
Lemma kill_nil t : t_panic t = false -> t_panic (tomb_kill t None) = false.
Proof. unfold tomb_kill. intros H. repeat case_match; done. Qed.
(** [failure] of CatacombSpec.v in the words of the model, for the invariants; see [failed_why] in CatacombThms.v *)
Definition why_failed (log : list event) (i : nat) (p : plan) (r : err) : Prop :=
  (exists e, validate p = Some e /\ r = EWrap MsgTrace e) \/ (validate p = None /\ r = EMsg MsgReused /\ exists j, j <> i /\ EvUsed j ∈ log).

Definition wk_tomb (w : wk) (t : tomb) : tomb := match w with WExt _ => t | WSelf => tomb_kill t None end.
Definition wk_evs (k : killer) (w : wk) : list event := match w with WExt _ => [EvWKill k w] | WSelf => [EvKill FromSelf None; EvWKill k w] end.
Lemma worker_kill_eq me k w s : t_panic (x_tomb s) = false ->
  worker_kill me k w s = s <| x_tomb := wk_tomb w (x_tomb s) |> <| x_log ::= app (wk_evs k w) |>.
Proof.
  intros Hp. unfold worker_kill. destruct w; [by destruct s|]. unfold kill. change (translate me None) with (@None err). cbv zeta. change (x_tomb (emit _ s)) with (x_tomb s). rewrite (kill_nil _ Hp). by destruct s.
Qed.
Lemma wk_tomb_same w t : t_panic t = false -> tsame t (wk_tomb w t).
Proof. intros H. destruct w; [by apply tsame_refl|]. apply tomb_kill_same, kill_nil, H. Qed.

(** ** The invariant *)
Definition active (p : ipc) : Prop := match p with IAdd _ | IListen | IGo => True | _ => False end.
Definition lc (p : lpc) : nat := match p with LiSelect | LiGot _ => 1 | _ => 0 end.
Definition bc (r : bind) : nat := (match b_wait r with VGone => 0 | _ => 1 end) + (match b_stop r with SGone => 0 | _ => 1 end).
Definition bsum (m : gmap nat bind) : nat := msum (fun _ r => bc r) m.
Record cinv (s : state) : Prop := {
  c_panic : t_panic (x_tomb s) = false;
  c_dead : t_dead (x_tomb s) = true <-> x_work s = WkOver;
  c_alive : t_alive (x_tomb s) = match x_work s with WkNone | WkOver => 0 | _ => 1 end;
  c_wg : x_wg s = lc (x_lis s) + bsum (x_binds s);
  c_wgbad : x_wgbad s = false;
  c_wait : match x_work s with WkDone | WkOver | WkLost => x_wg s = 0 | _ => True end;
  c_clean : x_dirty s = false -> x_work s = WkNone /\ x_lis s = LiNone /\ x_binds s = ∅;
  c_act : forall i pc, x_invs s !! i = Some pc -> active pc ->
    x_dirty s = true /\ x_work s = WkNone /\ (match pc with IGo => x_lis s <> LiNone | _ => x_lis s = LiNone end);
  c_one : forall i pc j pc', x_invs s !! i = Some pc -> active pc -> x_invs s !! j = Some pc' -> active pc' -> i = j;
  c_has : x_dirty s = true -> x_work s = WkNone -> exists i pc, x_invs s !! i = Some pc /\ active pc;
  c_lis : x_work s <> WkNone -> x_lis s <> LiNone;
  c_gone : x_lis s = LiGone -> t_dying (x_tomb s) = true;
  c_over : x_work s = WkOver -> t_dying (x_tomb s) = true;
  c_next : forall b, is_Some (x_binds s !! b) -> b < x_next s
}.
Lemma cinv_init : cinv init.
Proof. split; try done. intros b [x Hx]. change (x_binds init) with (∅ : gmap nat bind) in Hx. by rewrite lookup_empty in Hx. Qed.

(** The tomb, the log and the calls of Add may change. *)
Lemma cinv_same s s' : cinv s -> tsame (x_tomb s) (x_tomb s') -> x_dirty s' = x_dirty s -> x_wg s' = x_wg s -> x_wgbad s' = x_wgbad s -> x_invs s' = x_invs s ->
  x_lis s' = x_lis s -> x_work s' = x_work s -> x_binds s' = x_binds s -> x_next s' = x_next s -> cinv s'.
Proof.
  intros V (T1 & T2 & T3 & T4) E1 E2 E3 E4 E5 E6 E7 E8. destruct V. split; rewrite ?T1, ?T2, ?T3, ?E1, ?E2, ?E3, ?E4, ?E5, ?E6, ?E7, ?E8; auto.
Qed.
(** An inactive Invoke call proceeds. *)
Lemma cinv_inv s i pc0 pc : cinv s -> (x_invs s !! i = Some pc0 \/ x_invs s !! i = None /\ pc0 = IReturned) -> ~ active pc0 -> ~ active pc -> cinv (set_inv i pc s).
Proof.
  intros V Hi Hn0 Hn. destruct V. split; cbn; auto.
  - intros j pc' Hj Ha. destruct (decide (i = j)) as [->|]; [rewrite lookup_insert in Hj; by simplify_eq|]. rewrite lookup_insert_ne in Hj by done. eauto.
  - intros j p k p' Hj Ha Hk Ha'. destruct (decide (i = j)) as [->|]; [rewrite lookup_insert in Hj; by simplify_eq|]. destruct (decide (i = k)) as [->|]; [rewrite lookup_insert in Hk; by simplify_eq|].
    rewrite lookup_insert_ne in Hj, Hk by done. eauto.
  - intros Hd Hw. destruct (c_has0 Hd Hw) as (j & p & Hj & Ha). exists j, p. rewrite lookup_insert_ne; [done|]. intros ->. destruct Hi as [?|[? ?]]; simplify_eq; done.
Qed.
Lemma cinv_inv' s i pc0 pc : cinv s -> x_invs s !! i = Some pc0 -> ~ active pc0 -> ~ active pc -> cinv (set_inv i pc s).
Proof. intros. eapply cinv_inv; eauto. Qed.
(** A binding changes, and the counter with it. *)
Lemma cinv_put s s' b r0 r : cinv s -> x_binds s !! b = Some r0 -> x_binds s' = <[b := r]> (x_binds s) -> tsame (x_tomb s) (x_tomb s') -> x_dirty s' = x_dirty s ->
  x_wg s' + bc r0 = x_wg s + bc r -> bc r <= bc r0 -> x_wgbad s' = x_wgbad s -> x_invs s' = x_invs s -> x_lis s' = x_lis s -> x_work s' = x_work s -> x_next s' = x_next s -> cinv s'.
Proof.
  intros V Hb Eb (T1 & T2 & T3 & T4) E1 E2 Hle E3 E4 E5 E6 E8. destruct V. split; rewrite ?T1, ?T2, ?T3, ?E1, ?E3, ?E4, ?E5, ?E6, ?E8; auto.
  - rewrite Eb. pose proof (msum_upd (fun _ r => bc r) (x_binds s) b r0 r Hb) as Hm. unfold bsum in *. cbn in Hm. lia.
  - destruct (x_work s); auto; lia.
  - intros Hd. destruct (c_clean0 Hd) as (_ & _ & He). rewrite He in Hb. by rewrite lookup_empty in Hb.
  - intros j [x Hx]. rewrite Eb in Hx. destruct (decide (b = j)) as [->|]; [eauto|]. rewrite lookup_insert_ne in Hx by done. eauto.
Qed.
(** A worker is bound. *)
Lemma cinv_add s w : cinv s -> x_dirty s = true -> (x_work s = WkNone \/ x_wg s <> 0) -> cinv (add w s).
Proof.
  intros V Hd Hw. assert (Hfresh : x_binds s !! x_next s = None).
  { destruct (x_binds s !! x_next s) eqn:E; [|done]. exfalso. pose proof (c_next s V (x_next s) ltac:(eauto)). lia. }
  destruct V. split; cbn; auto.
  - unfold bsum. rewrite msum_new by done. cbn. unfold bsum in c_wg0. lia.
  - rewrite c_wgbad0, orb_false_r. destruct Hw as [Hw|Hw]; [by rewrite Hw|]. destruct (x_work s); try done; by apply bool_decide_eq_false.
  - destruct (x_work s); auto; destruct Hw; congruence.
  - intros He. congruence.
  - intros b [x Hx]. destruct (decide (x_next s = b)) as [<-|]; [lia|]. rewrite lookup_insert_ne in Hx by done. pose proof (c_next0 b ltac:(eauto)). lia.
Qed.

Lemma wgd_frame s n : x_wg s = S n -> wg_done s = s <| x_wg := n |>.
Proof. unfold wg_done. by intros ->. Qed.
Lemma bound_wg s b r : cinv s -> x_binds s !! b = Some r -> bc r <= x_wg s.
Proof. intros V Hb. rewrite (c_wg s V). pose proof (msum_at (fun _ r => bc r) (x_binds s) b r Hb). unfold bsum. cbn in *. lia. Qed.

Lemma gone_frame b s : exists evs, gone b s = s <| x_log ::= app evs |>.
Proof. unfold gone. repeat case_match; first [exists [EvGone b]; by destruct s|exists []; by destruct s]. Qed.

Lemma cinv_step me s l s' : cinv s -> step me s l = Some s' -> cinv s'.
Proof.
  intros V Hs. unfold step in Hs. destruct (x_crash s) eqn:Hc; [done|]. pose proof (c_panic s V) as Hp.
  destruct l; cbn -[kill worker_kill add wg_done wg_add gone kill_or_crash] in Hs.
  - (* Invoke *) destruct (x_invs s !! i) eqn:Hi; [done|]. injection Hs as <-. 
    eapply cinv_same; [eapply (cinv_inv s i IReturned (IValidate p)); eauto|..]; done.
  - (* proceeds *) destruct (x_invs s !! i) as [pc|] eqn:Hi; [|done]. destruct pc; cbn -[kill worker_kill add wg_done wg_add gone kill_or_crash] in Hs.
    + destruct (validate p); injection Hs as <-; eapply cinv_inv'; eauto.
    + destruct (x_dirty s) eqn:Hd; injection Hs as <-; [eapply cinv_inv'; eauto|].
      destruct (c_clean s V Hd) as (Hw & Hl & Hb).
      assert (Hna : forall j pc, x_invs s !! j = Some pc -> active pc -> False). { intros j pc Hj Ha. destruct (c_act s V j pc Hj Ha) as [Hd' _]. congruence. }
      destruct V. split; cbn; auto.
      * intros j pc Hj Ha. destruct (decide (i = j)) as [->|]; [|rewrite lookup_insert_ne in Hj by done; exfalso; eauto]. rewrite lookup_insert in Hj. injection Hj as <-. done.
      * intros j pc k pc' Hj Ha Hk Ha'. destruct (decide (i = j)) as [->|]; [|rewrite lookup_insert_ne in Hj by done; exfalso; eauto].
        destruct (decide (j = k)) as [->|]; [done|rewrite lookup_insert_ne in Hk by done; exfalso; eauto].
      * intros _ _. exists i, (IAdd (p_init p)). by rewrite lookup_insert.
    + assert (Hin : forall pc', active pc' -> pc' <> IGo -> cinv (set_inv i pc' s)).
      { intros pc' Ha' Hng. destruct (c_act s V i _ Hi I) as (H1 & H2 & H3). pose proof (c_one s V) as H1'. destruct V. split; cbn; auto.
        - intros j pc Hj Ha. destruct (decide (i = j)) as [->|]; [|rewrite lookup_insert_ne in Hj by done; eauto]. rewrite lookup_insert in Hj. injection Hj as <-. destruct pc'; done.
        - intros j pc k p' Hj Ha Hk Hak. destruct (decide (j = i)) as [->|]; destruct (decide (k = i)) as [->|]; try done.
          + rewrite lookup_insert_ne in Hk by done. eapply H1'; [exact Hi|exact I|exact Hk|done].
          + rewrite lookup_insert_ne in Hj by done. symmetry. eapply H1'; [exact Hi|exact I|exact Hj|done].
          + rewrite lookup_insert_ne in Hj, Hk by done. eauto.
        - intros _ _. exists i, pc'. by rewrite lookup_insert. }
      destruct (c_act s V i _ Hi I) as (H1 & H2 & H3).
      destruct ws as [|[w|] ws]; injection Hs as <-; [by apply Hin| |by apply Hin]. apply cinv_add; [by apply Hin|done|by left].
    + injection Hs as <-. destruct (c_act s V i _ Hi I) as (H1 & H2 & H3). pose proof (c_one s V) as H1'. destruct V. split; unfold wg_add; cbn; auto.
      * rewrite c_wg0, H3. done.
      * by rewrite H2.
      * by rewrite H2.
      * congruence.
      * intros j pc Hj Ha. destruct (decide (i = j)) as [->|]; [rewrite lookup_insert in Hj; injection Hj as <-; done|]. rewrite lookup_insert_ne in Hj by done. destruct n. exact (H1' i _ j pc Hi I Hj Ha).
      * intros j pc k p' Hj Ha Hk Hak. destruct (decide (j = i)) as [->|]; destruct (decide (k = i)) as [->|]; try done.
        -- rewrite lookup_insert_ne in Hk by done. eapply H1'; [exact Hi|exact I|exact Hk|done].
        -- rewrite lookup_insert_ne in Hj by done. symmetry. eapply H1'; [exact Hi|exact I|exact Hj|done].
        -- rewrite lookup_insert_ne in Hj, Hk by done. eauto.
      * intros _ _. exists i, IGo. by rewrite lookup_insert.
      * done.
    + destruct (c_act s V i _ Hi I) as (H1 & H2 & H3). pose proof (c_one s V) as H1'. pose proof (c_dead s V) as Hdd.
      assert (Hnd : t_dead (x_tomb s) = false). { destruct (t_dead (x_tomb s)); [|done]. rewrite H2 in Hdd. discriminate (proj1 Hdd eq_refl). }
      unfold tomb_go in Hs. rewrite Hnd in Hs. cbn in Hs. rewrite Hp in Hs. injection Hs as <-. destruct V. split; cbn; auto.
      * by rewrite Hnd.
      * rewrite c_alive0, H2. done.
      * intros Hd. congruence.
      * intros j pc Hj Ha. destruct (decide (i = j)) as [->|]; [rewrite lookup_insert in Hj; injection Hj as <-; done|]. rewrite lookup_insert_ne in Hj by done.
        destruct n. exact (H1' i _ j pc Hi I Hj Ha).
      * intros j pc k p' Hj Ha Hk Hak. destruct (decide (i = j)) as [->|]; [rewrite lookup_insert in Hj; injection Hj as <-; done|].
        destruct (decide (i = k)) as [->|]; [rewrite lookup_insert in Hk; injection Hk as <-; done|]. rewrite lookup_insert_ne in Hj, Hk by done. eauto.
      * done.
      * done.
    + destruct ws as [|[w|] ws]; injection Hs as <-.
      * eapply cinv_same; [eapply (cinv_inv' s i _ IReturned); eauto|..]; done.
      * rewrite worker_kill_eq by done. eapply cinv_same; [eapply (cinv_inv' s i _ (IStopWait w ws r)); eauto|..]; try done. by apply wk_tomb_same.
      * eapply cinv_inv'; eauto.
    + destruct (worker_wait w s); [|done]. injection Hs as <-. eapply cinv_inv'; eauto.
    + done.
  - destruct (x_adds s !! i); [done|]. injection Hs as <-. eapply cinv_same; [exact V|..]; done.
  - destruct (x_adds s !! i) as [[w []| | |]|]; try done. destruct (x_lis s) eqn:Hl; try done. injection Hs as <-.
    destruct V. split; cbn; rewrite ?Hl in *; auto; try done.
    + intros Hd. destruct (c_clean0 Hd) as (? & ? & ?). done.
    + intros j pc Hj Ha. destruct (c_act0 j pc Hj Ha) as (? & ? & Hx). destruct pc; done.
  - destruct (x_adds s !! i) as [[w []| | |]|]; try done; (destruct (t_dying (x_tomb s)); [|done]); injection Hs as <-; (eapply cinv_same; [exact V|..]; done).
  - destruct (x_adds s !! i) as [[]|]; try done. injection Hs as <-. rewrite worker_kill_eq by done. eapply cinv_same; [exact V|..]; try done. by apply wk_tomb_same.
  - destruct (x_adds s !! i) as [[]|]; try done. destruct (worker_wait w s); [|done]. injection Hs as <-. eapply cinv_same; [exact V|..]; done.
  - destruct (honest me e s); [|done]. injection Hs as <-. destruct (kill_cases me FromClient e s) as [[-> Hk]|[-> Hk]]; cbn; (eapply cinv_same; [exact V|..]; try done). by apply tomb_kill_same.
  - destruct (x_lis s) eqn:Hl; try done. injection Hs as <-.
    assert (Hd : x_dirty s = true). { destruct (x_dirty s) eqn:Hd; [done|]. destruct (c_clean s V Hd) as (_ & ? & _). congruence. }
    apply cinv_add; [|done|].
    + destruct V. split; cbn; rewrite ?Hl in *; auto; try done.
      * congruence.
      * intros j pc Hj Ha. destruct (c_act0 j pc Hj Ha) as (? & ? & Hx). destruct pc; done.
    + right. cbn. rewrite (c_wg s V), Hl. cbn. lia.
  - destruct (x_lis s) eqn:Hl; try done. destruct (t_dying (x_tomb s)) eqn:Hdy; [|done]. injection Hs as <-.
    rewrite (wgd_frame _ (bsum (x_binds s))) by (cbn; rewrite (c_wg s V), Hl; done).
    pose proof (c_wg s V) as Hwg. rewrite Hl in Hwg. cbn in Hwg.
    destruct V. split; cbn; rewrite ?Hl in *; auto; try done.
    * destruct (x_work s); auto; lia.
    * intros Hd. destruct (c_clean0 Hd) as (? & ? & ?). done.
    * intros j pc Hj Ha. destruct (c_act0 j pc Hj Ha) as (? & ? & Hx). destruct pc; done.
  - destruct (x_work s) eqn:Hw; try done. destruct (match r with WkReturn e => honest me e s | _ => true end); [|done]. injection Hs as <-.
    destruct V. split; cbn; rewrite ?Hw in *; auto; try done.
    + rewrite c_dead0. by destruct r.
    + rewrite c_alive0. by destruct r.
    + by destruct r.
    + intros Hd. by destruct (c_clean0 Hd).
    + intros j pc Hj Ha. by destruct (c_act0 j pc Hj Ha) as (? & ? & Hx).
    + by destruct r.
    + by destruct r.
  - destruct (x_work s) eqn:Hw; try done. injection Hs as <-.
    assert (V' : cinv (s <| x_work := WkWg false |>)).
    { destruct V. split; cbn; rewrite ?Hw in *; auto; try done.
      - rewrite c_dead0. done.
      - intros Hd. by destruct (c_clean0 Hd).
      - intros j pc Hj Ha. by destruct (c_act0 j pc Hj Ha) as (? & ? & Hx). }
    unfold kill_or_crash. destruct (kill_cases me FromWork e (s <| x_work := WkWg false |>)) as [[-> Hk]|[-> Hk]]; (eapply cinv_same; [exact V'|..]; try done). by apply tomb_kill_same.
  - destruct (x_work s) eqn:Hw; try done. case_bool_decide as Hz; [|done]. injection Hs as <-.
    destruct V. split; cbn; rewrite ?Hw in *; auto; try done.
    + rewrite c_dead0. by destruct exiting.
    + by destruct exiting.
    + by destruct exiting.
    + intros Hd. by destruct (c_clean0 Hd).
    + intros j pc Hj Ha. by destruct (c_act0 j pc Hj Ha) as (? & ? & Hx).
    + by destruct exiting.
    + by destruct exiting.
  - destruct (x_work s) eqn:Hw; try done. injection Hs as <-.
    assert (Hal : t_alive (x_tomb s) = 1) by (by rewrite (c_alive s V), Hw).
    assert (Ht : tomb_done (x_tomb s) None = (tomb_kill ((x_tomb s) <| t_alive := 0 |>) None) <| t_dead := true |>).
    { unfold tomb_done. cbn -[tomb_kill]. rewrite Hal. rewrite bool_decide_eq_true_2 by done. cbn -[tomb_kill]. unfold set at 1. cbn -[tomb_kill]. rewrite Hal.
      change (pred 1) with 0. destruct (x_tomb s) as [re al de pa]. cbn in *. subst. by destruct re as [|[]]. }
    rewrite Ht. cbn -[tomb_kill].
    assert (Hk : forall t, t_panic t = false -> t_panic (tomb_kill t None) = false /\ t_alive (tomb_kill t None) = t_alive t /\ t_dying (tomb_kill t None) = true).
    { intros t Ht'. destruct t as [[|[]] ? ? ?]; done. }
    pose proof (Hk ((x_tomb s) <| t_alive := 0 |>)) as K. destruct (K Hp) as (K1 & K2 & K3).
    destruct V. split; cbn -[tomb_kill]; rewrite ?Hw in *; auto; try done.
    + intros Hd. by destruct (c_clean0 Hd).
    + intros j pc Hj Ha. by destruct (c_act0 j pc Hj Ha) as (? & ? & Hx).
  - destruct (x_binds s !! b) as [[w [] p]|] eqn:Hb; try done. destruct (worker_wait w s) as [[e|]|]; try done; injection Hs as <-; (eapply cinv_put; [exact V|exact Hb|reflexivity|..]; done).
  - destruct (x_binds s !! b) as [[w [] p]|] eqn:Hb; try done. injection Hs as <-.
    assert (V' : cinv (put b (mkBind w VClose p) s)) by (eapply cinv_put; [exact V|exact Hb|reflexivity|..]; done).
    unfold kill_or_crash. destruct (kill_cases me (FromWorker b) (Some e) (put b (mkBind w VClose p) s)) as [[-> Hk]|[-> Hk]]; (eapply cinv_same; [exact V'|..]; try done). by apply tomb_kill_same.
  - destruct (x_binds s !! b) as [[w [] p]|] eqn:Hb; try done. injection Hs as <-. eapply cinv_put; [exact V|exact Hb|reflexivity|..]; done.
  - destruct (x_binds s !! b) as [[w [] p]|] eqn:Hb; try done. injection Hs as <-. pose proof (bound_wg s b _ V Hb) as Hle. unfold bc in Hle. cbn in Hle.
    destruct (x_wg s) as [|n] eqn:Hn; [lia|]. rewrite (wgd_frame _ n) by done. destruct (gone_frame b (put b (mkBind w VGone p) s <| x_wg := n |>)) as [evs ->].
    eapply cinv_put; [exact V|exact Hb|reflexivity|..]; try done; unfold bc; cbn; lia.
  - destruct (x_binds s !! b) as [[w v []]|] eqn:Hb; try done. destruct (t_dying (x_tomb s)); [|done]. injection Hs as <-. eapply cinv_put; [exact V|exact Hb|reflexivity|..]; done.
  - destruct (x_binds s !! b) as [[w [] []]|] eqn:Hb; try done; injection Hs as <-; (eapply cinv_put; [exact V|exact Hb|reflexivity|..]; done).
  - destruct (x_binds s !! b) as [[w v []]|] eqn:Hb; try done. injection Hs as <-. rewrite worker_kill_eq by done. eapply cinv_put; [exact V|exact Hb|reflexivity|..]; try done. by apply wk_tomb_same.
  - destruct (x_binds s !! b) as [[w v []]|] eqn:Hb; try done. destruct (worker_wait w s); [|done]. injection Hs as <-. eapply cinv_put; [exact V|exact Hb|reflexivity|..]; done.
  - destruct (x_binds s !! b) as [[w v []]|] eqn:Hb; try done. injection Hs as <-. pose proof (bound_wg s b _ V Hb) as Hle. unfold bc in Hle. cbn in Hle.
    destruct (x_wg s) as [|n] eqn:Hn; [lia|]. rewrite (wgd_frame _ n) by done. destruct (gone_frame b (put b (mkBind w v SGone) s <| x_wg := n |>)) as [evs ->].
    eapply cinv_put; [exact V|exact Hb|reflexivity|..]; try done; unfold bc; cbn; lia.
  - destruct (x_ended s !! n); [done|]. destruct (honest me e s); [|done]. injection Hs as <-. eapply cinv_same; [exact V|..]; done.
  - destruct (tomb_wait (x_tomb s)); [|done]. injection Hs as <-. eapply cinv_same; [exact V|..]; done.
  - injection Hs as <-. eapply cinv_same; [exact V|..]; done.
Qed.
Lemma reach_cinv me s : reachable me s -> cinv s.
Proof. apply reach_inv; [apply cinv_init|]. intros s0 l s' _. apply cinv_step. Qed.
