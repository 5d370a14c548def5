(** Proofs for C79. *)
From stdpp Require Import gmap strings list.
From Coq Require Import ZArith.
From Verif Require Import Err ErrSpec.
From Verif Require Import Tomb Snapshot Engine EngineSpec EngineHandlers PropsEngineStop.
From Verif Require Catacomb CatacombSpec CatacombThms.

Lemma is_chain e t : err_is e t = true <-> chain e t.
Proof.
  induction e as [n|c| | |c|ty m|m|m e IH]; cbn [err_is]; rewrite ?orb_false_r, ?orb_true_iff, ?bool_decide_eq_true;
    try (split; [intros ->; constructor|intros H; inversion H; done]).
  rewrite IH. split.
  - intros [-> |H]; [constructor|by constructor].
  - intros H. inversion H; subst; [by left|by right].
Qed.
Lemma as_chain e c : as_dying e = Some c <-> chain e (ECatacombDying c).
Proof.
  induction e as [n|c'| | |c'|ty m|m|m e IH]; cbn [as_dying];
    try (split; [discriminate|intros H; inversion H]).
  - split; [intros [= ->]; constructor|intros H; by inversion H].
  - rewrite IH. split; [by constructor|intros H; by inversion H].
Qed.
Lemma type_chain e t : is_type e t = true <-> exists m, chain e (ETyped t m).
Proof.
  induction e as [n|c'| | |c'|ty m|m|m e IH]; cbn [is_type];
    try (split; [discriminate|intros [? H]; inversion H]).
  - rewrite bool_decide_eq_true. split; [intros ->; eexists; constructor|intros [? H]; by inversion H].
  - rewrite IH. split; intros [m' H]; exists m'; [by constructor|by inversion H].
Qed.
Lemma is_const_chain e c : is_const e c = true <-> exists x, e = Some x /\ chain x (EConst c).
Proof. destruct e as [x|]; cbn [is_const]; [rewrite is_chain; naive_solver|naive_solver]. Qed.

(** A chain has one constant at most. *)
Lemma chain_const x a b : chain x (EConst a) -> chain x (EConst b) -> a = b.
Proof. intros H. remember (EConst a) as t eqn:Et. induction H; subst; intros H'; inversion H'; subst; auto. Qed.
Lemma chain_wrapped ms e x : chain (wrapped ms e) x <-> chain e x \/ exists m ms1 ms2, ms = ms1 ++ m :: ms2 /\ x = EWrap m (wrapped ms2 e).
Proof.
  induction ms as [|m ms IH]; cbn [wrapped].
  - split; [by left|]. intros [H|(m & ms1 & ms2 & H & _)]; [done|]. by destruct ms1.
  - split.
    + intros H. inversion H; subst.
      * right. by exists m, [], ms.
      * apply IH in H3 as [H3|(m' & ms1 & ms2 & -> & ->)]; [by left|]. right. by exists m', (m :: ms1), ms2.
    + intros [H|(m' & ms1 & ms2 & Hm & ->)]; [constructor; apply IH; by left|].
      destruct ms1 as [|m1 ms1]; injection Hm as -> ->; [constructor|]. constructor. apply IH. right. by exists m', ms1, ms2.
Qed.
Lemma chain_wrapped_const ms e c : chain (wrapped ms e) (EConst c) <-> chain e (EConst c).
Proof. rewrite chain_wrapped. split; [intros [H|(? & ? & ? & _ & [=])]; done|by left]. Qed.

Lemma verdict_exists e : exists v, engine_verdict e v.
Proof.
  destruct e as [x|]; [|by exists Leave]. cbn [engine_verdict].
  destruct (err_is x (EConst KMissing)) eqn:H1; [apply is_chain in H1; by exists Leave; left|].
  destruct (err_is x (EConst KStartAborted)) eqn:H2; [apply is_chain in H2; by exists Leave; right; left|].
  destruct (err_is x (EConst KBounce)) eqn:H3; [apply is_chain in H3; by exists RestartSoon; right; right; left|].
  destruct (err_is x (EConst KUninstall)) eqn:H4; [apply is_chain in H4; by exists Remove; do 3 right; left|].
  exists RestartLater. do 4 right. split; [|done]. intros c Hc H. apply is_chain in H. rewrite !elem_of_cons in Hc.
  destruct Hc as [-> |[-> |[-> |[-> |Hc]]]]; try congruence. by apply elem_of_nil in Hc.
Qed.
Lemma verdict_unique e v v' : engine_verdict e v -> engine_verdict e v' -> v = v'.
Proof.
  destruct e as [x|]; cbn [engine_verdict]; [|congruence].
  intros H H'.
  destruct H as [[H ->]|[[H ->]|[[H ->]|[[H ->]|[H ->]]]]]; destruct H' as [[H' ->]|[[H' ->]|[[H' ->]|[[H' ->]|[H' ->]]]]]; try done;
    try (pose proof (chain_const _ _ _ H H'); congruence);
    try (exfalso; eapply H; [|exact H']; rewrite !elem_of_cons; tauto);
    try (exfalso; eapply H'; [|exact H]; rewrite !elem_of_cons; tauto).
Qed.
Lemma verdict_wrapped ms e v : engine_verdict (Some (wrapped ms e)) v <-> engine_verdict (Some e) v.
Proof. cbn [engine_verdict]. setoid_rewrite chain_wrapped_const. done. Qed.

Lemma verdict_delay cfg e v : engine_verdict e v ->
  restart_delay cfg e = match v with Leave | Remove => None | RestartSoon => Some (c_bounceDelay cfg) | RestartLater => Some (c_errorDelay cfg) end /\
  (v = Remove <-> terminal e = false /\ is_const e KBounce = false /\ is_const e KUninstall = true).
Proof.
  intros H. unfold restart_delay, terminal, is_const.
  destruct e as [x|]; cbn [engine_verdict] in H; [|subst v; split; [done|split; [done|by intros (? & _)]]].
  assert (Hf : forall a b, chain x (EConst a) -> a <> b -> err_is x (EConst b) = false).
  { intros a b Ha Hn. apply not_true_iff_false. intros Hb. apply is_chain in Hb. by apply Hn, (chain_const x). }
  destruct H as [[H ->]|[[H ->]|[[H ->]|[[H ->]|[H ->]]]]].
  - rewrite (Hf _ KStartAborted H), (proj2 (is_chain _ _) H) by done. split; [done|]. split; [done|by intros (? & _)].
  - rewrite (proj2 (is_chain _ _) H). split; [done|]. split; [done|by intros (? & _)].
  - rewrite (Hf _ KStartAborted H), (Hf _ KMissing H), (proj2 (is_chain _ _) H) by done. split; [done|]. split; [done|by intros (_ & ? & _)].
  - rewrite (Hf _ KStartAborted H), (Hf _ KMissing H), (Hf _ KBounce H), (proj2 (is_chain _ _) H) by done. done.
  - assert (Hg : forall c, c ∈ [KMissing; KStartAborted; KBounce; KUninstall] -> err_is x (EConst c) = false).
    { intros c Hc. apply not_true_iff_false. intros Hb. apply is_chain in Hb. by eapply H. }
    rewrite !Hg by (rewrite !elem_of_cons; tauto). split; [done|]. split; [done|by intros (_ & _ & ?)].
Qed.

Lemma engine_wrapped E s pre g n raw e t post v : reachable E s -> ~ is_dying (s_log s) ->
  s_log s = pre ++ EvStopped g n raw e t :: post -> ~ asked_to_stop post g -> engine_verdict e v ->
  match v with
  | RestartSoon | RestartLater =>
    exists pre' g' sn t', pre = pre' ++ [EvAttempt g' n sn t' (attempt_delay E g'
      (match v with RestartSoon => c_bounceDelay (e_cfg E) | _ => c_errorDelay (e_cfg E) end) (error_count (e_cfg E) (EvStopped g n raw e t :: post) n))]
  | Remove => exists pre', pre = pre' ++ [EvUninstall n]
  | Leave => forall p2 g' sn t' d p1, pre = p2 ++ EvAttempt g' n sn t' d :: p1 -> (forall g0 raw0 e0 t0, EvStopped g0 n raw0 e0 t0 ∉ p1) ->
      (exists q1 ev q2 x, p1 = q1 ++ ev :: q2 /\ came_or_went ev (q2 ++ EvStopped g n raw e t :: post) x /\ depends_on (p1 ++ EvStopped g n raw e t :: post) n x) \/
      (exists m, EvInstalled n m ∈ p1)
  end.
Proof.
  intros Hr Hd Hl Ha Hv. destruct (verdict_delay (e_cfg E) e v Hv) as [Hrd Hrm].
  destruct (C08_stopped_then E s pre g n raw e t post Hr Hd Hl) as [Hs Hu].
  destruct v.
  - intros p2 g' sn t' d p1 -> Hno. eapply (C08_idle_after E s p2 g' n sn t' d p1 g raw e t post); [done| |done|done|done].
    rewrite Hl. by rewrite <- app_assoc.
  - apply Hs. right. done.
  - apply Hu. split; [done|]. by apply Hrm.
  - apply Hs. right. done.
Qed.


Lemma catacomb_wrapped me s e s' : Catacomb.reachable me s -> CatacombSpec.is_dying (Catacomb.x_log s) -> tomb_err (Catacomb.x_tomb s) = None ->
  e <> ETombStillAlive -> Catacomb.step me s (Catacomb.LKill (Some e)) = Some s' ->
  (chain e (ECatacombDying me) /\ tomb_err (Catacomb.x_tomb s') = None) \/
  (exists c, c <> me /\ chain e (ECatacombDying c) /\ tomb_err (Catacomb.x_tomb s') = Some (EMsg MsgBadKillOther)) \/
  (e = ETombDying /\ tomb_err (Catacomb.x_tomb s') = Some (EMsg MsgBadKillTomb)) \/
  (e <> ETombDying /\ (forall c, ~ chain e (ECatacombDying c)) /\ tomb_err (Catacomb.x_tomb s') = Some e).
Proof.
  intros Hr Hd Hn Hne Hs.
  assert (Hr' : Catacomb.reachable me s').
  { destruct Hr as [ls Hls]. exists (ls ++ [Catacomb.LKill (Some e)]). revert Hls. generalize Catacomb.init. induction ls as [|l ls IH]; intros s0; cbn.
    - intros [= ->]. by rewrite Hs.
    - destruct (Catacomb.step me s0 l); [apply IH|done]. }
  destruct (CatacombThms.kill_call me s (Some e) s' Hr Hs) as [_ Hk].
  assert (Hl : Catacomb.x_log s' = Catacomb.EvKill Catacomb.FromClient (Some e) :: Catacomb.x_log s) by (apply Hk; congruence).
  destruct (CatacombThms.err_result me s Hr) as [[_ H]|[_ Hf]]; [done|].
  destruct (CatacombThms.err_result me s' Hr') as [[_ H]|[_ Hf']]; [exfalso; apply H; rewrite Hl; eexists _, _; by left|].
  rewrite Hl in Hf'. cbn [CatacombSpec.first_said] in Hf'. rewrite <- Hf, Hn in Hf'. rewrite Hf'. cbn [CatacombSpec.says].
  case_bool_decide as Ht; [subst e; tauto|].
  destruct (as_dying e) as [c|] eqn:Hc.
  - case_bool_decide as Hm; apply as_chain in Hc; [subst c; by left|]. right. left. by exists c.
  - do 3 right. split; [done|]. split; [|done]. intros c H. apply as_chain in H. congruence.
Qed.
