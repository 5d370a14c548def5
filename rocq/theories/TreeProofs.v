(** Workers made of workers: the invariant, and what it gives. *)
From stdpp Require Import gmap strings list relations.
From RecordUpdate Require Import RecordSet.
From Verif Require Import Err Tomb Tree TreeSpec.
From Verif Require Snapshot Engine EngineSpec EngineProgressSpec EngineLog EngineObs EngineMore EngineCallsProofs TreeEngine
  Runner RunnerSpec RunnerProgressSpec RunnerInv RunnerGor RunnerHist RunnerThms TreeRunner
  Catacomb CatacombSpec CatacombProgressSpec CatacombInv CatacombTr CatacombLog CatacombThms TreeCatacomb.
Import RecordSetNotations.

(** ** One worker *)
Definition node_ok (nd : node) : Prop :=
  match nd with
  | NEngine E s => Engine.reachable E s
  | NRunner P s => exists ls, Runner.run P Runner.init ls = Some s /\ forall g, Runner.LCore (Runner.KLost g) ∉ ls
  | NCatacomb me s => Catacomb.reachable me s /\ TreeCatacomb.no_exit s
  | NPlain _ _ => True
  end.
Definition nknown (nd : node) (k : nat) : Prop :=
  match nd with
  | NEngine _ s => exists n w, Engine.EvStartRet k n (inl (Snapshot.WExt w)) ∈ Engine.s_log s
  | NRunner _ s => exists id w, Runner.EvStartRet k id (inl w) ∈ RunnerSpec.rlog s
  | NCatacomb _ s => TreeCatacomb.known (Catacomb.x_log s) (Catacomb.WExt k)
  | NPlain _ _ => False
  end.
Definition nended (nd : node) (k : nat) : Prop :=
  match nd with
  | NEngine _ s => exists n w n' e, Engine.EvStartRet k n (inl (Snapshot.WExt w)) ∈ Engine.s_log s /\ Engine.EvExit k n' e ∈ Engine.s_log s
  | NRunner _ s => exists e, Runner.c_ended (Runner.s_core s) !! k = Some e
  | NCatacomb _ s => exists e, Catacomb.x_ended s !! k = Some e
  | NPlain _ _ => False
  end.
Definition told (nd : node) : Prop :=
  match nd with
  | NEngine _ s => EngineSpec.is_dying (Engine.s_log s)
  | NRunner _ s => Runner.EvKilled ∈ RunnerSpec.rlog s \/ Runner.EvDead ∈ RunnerSpec.rlog s
  | NCatacomb _ s => CatacombSpec.is_dying (Catacomb.x_log s) \/ Catacomb.x_crash s = true
  | NPlain k _ => k = true
  end.

Lemma run_reach P s ls : Runner.run P Runner.init ls = Some s -> Runner.reachable P s.
Proof. intros H. by exists ls. Qed.
Lemma ok_runner P s : node_ok (NRunner P s) -> Runner.reachable P s.
Proof. intros (ls & H & _). by exists ls. Qed.
Lemma run_snoc P s ls l s' : Runner.run P Runner.init ls = Some s -> Runner.step P s l = Some s' -> Runner.run P Runner.init (ls ++ [l]) = Some s'.
Proof.
  generalize Runner.init. intros s0. revert s0. induction ls as [|x ls IH]; intros s0; cbn.
  - intros [= ->] ->. done.
  - destruct (Runner.step P s0 x) as [s1|]; [|done]. apply IH.
Qed.

Lemma in_mono {A} (log log' : list A) (ev : A) : (exists new, log' = new ++ log) -> ev ∈ log -> ev ∈ log'.
Proof. intros [new ->] H. apply elem_of_app. by right. Qed.

Lemma dead_log nd : node_ok nd -> dead nd <->
  match nd with
  | NEngine _ s => Engine.EvDead ∈ Engine.s_log s
  | NRunner _ s => Runner.EvDead ∈ RunnerSpec.rlog s
  | NCatacomb _ s => Catacomb.EvDead ∈ Catacomb.x_log s
  | NPlain _ f => is_Some f
  end.
Proof.
  intros Hok. unfold dead. destruct nd as [E s|P s|me s|k f]; cbn [nwait].
  - rewrite <- (TreeEngine.is_dead E s Hok). destruct (t_dead _); split; try done. by intros [? ?].
  - rewrite <- (TreeRunner.is_dead P s (ok_runner P s Hok)). unfold tomb_wait. destruct (t_dead _); split; try done. by intros [? ?].
  - destruct Hok as [Hr _]. rewrite <- (TreeCatacomb.is_dead me s Hr). unfold tomb_wait. destruct (t_dead _); split; try done. by intros [? ?].
  - done.
Qed.

Definition le (nd nd' : node) : Prop := (dead nd -> dead nd') /\ (told nd -> told nd') /\ (ready nd = true -> ready nd' = true).
Lemma le_refl nd : le nd nd.
Proof. by repeat split. Qed.
Lemma le_trans a b c : le a b -> le b c -> le a c.
Proof. intros (H1 & H2 & H3) (K1 & K2 & K3). repeat split; auto. Qed.

Lemma ready_work me s : ready (NCatacomb me s) = true <-> Catacomb.x_work s <> Catacomb.WkNone.
Proof. cbn. by destruct (Catacomb.x_work s). Qed.

Lemma nstep_ok nd l nd' : node_ok nd -> nstep nd l = Some nd' ->
  node_ok nd' /\ le nd nd' /\
  (forall k, nknown nd' k -> nknown nd k \/ k ∈ hands_over l) /\
  (forall k, nended nd' k -> nended nd k \/ exists e, waited l = Some (k, e)).
Proof.
  intros Hok. unfold nstep. destruct (goexit l) eqn:Hg; [done|]. destruct nd as [E s|P s|me s|kd [f|]], l as [l|l|l|e0]; try done.
  - destruct (Engine.step E s l) as [s'|] eqn:Hs; [|done]. intros [= <-]. cbn in Hok.
    assert (Hok' : Engine.reachable E s') by (by eapply EngineCallsProofs.reach_stepE).
    assert (Hm : forall ev, ev ∈ Engine.s_log s -> ev ∈ Engine.s_log s') by (intros ev; apply in_mono; by eapply EngineMore.step_log).
    split; [done|]. split; [|split].
    + split; [|split]; [|intros H; by apply Hm|done]. rewrite (dead_log (NEngine E s) Hok), (dead_log (NEngine E s') Hok'). apply Hm.
    + intros k (n & w & H). destruct (TreeEngine.ret_step E s l s' k n w Hs H) as [?| ->]; [left; by exists n, w|]. right. cbn. by left.
    + intros k (n & w & n' & e & H1 & H2). destruct (TreeEngine.exit_step E s l s' k n n' e w Hok Hs H1 H2) as [K| ->]; [|right; by exists e].
      left. destruct (EngineLog.l_exit E s (proj2 (EngineLog.reachable_linv E s Hok)) _ _ _ K) as (w' & Hw').
      destruct (EngineObs.ret_unique E s' _ _ _ _ _ Hok' H1 (Hm _ Hw')) as [<- [= <-]]. by exists n, w, n, e.
  - destruct (Runner.step P s l) as [s'|] eqn:Hs; [|done]. intros [= <-]. pose proof (ok_runner P s Hok) as Hr. destruct Hok as (ls & Hrun & Hno).
    assert (Hok' : node_ok (NRunner P s')).
    { exists (ls ++ [l]). split; [by eapply run_snoc|]. intros g. rewrite elem_of_app. intros [H|H]; [by apply Hno in H|]. apply elem_of_list_singleton in H as <-. done. }
    assert (Hm : forall ev, ev ∈ RunnerSpec.rlog s -> ev ∈ RunnerSpec.rlog s') by (intros ev; apply in_mono; by eapply TreeRunner.rlog_step).
    split; [done|]. split; [|split].
    + split; [|split]; [|intros [H|H]; [left|right]; by apply Hm|done]. rewrite (dead_log (NRunner P s)), (dead_log (NRunner P s') Hok') by (by exists ls). apply Hm.
    + intros k (id & w & H). destruct (TreeRunner.ret_step P s l s' k id w Hs H) as [?| ->]; [left; by exists id, w|]. right. cbn. by left.
    + intros k (e & H). destruct (TreeRunner.end_step P s l s' k e Hs H) as [?| ->]; [left; by exists e|]. right. by exists e.
  - destruct (Catacomb.step me s l) as [s'|] eqn:Hs; [|done]. intros [= <-]. pose proof Hok as [Hr Hx].
    assert (Hm : forall ev, ev ∈ Catacomb.x_log s -> ev ∈ Catacomb.x_log s') by (intros ev; by eapply TreeCatacomb.step_log).
    assert (Hok' : node_ok (NCatacomb me s')).
    { split; [by eapply CatacombInv.reach_step|]. eapply TreeCatacomb.no_exit_step; eauto. by intros ->. }
    split; [done|]. split; [|split].
    + split; [|split].
      * rewrite (dead_log (NCatacomb me s) Hok), (dead_log (NCatacomb me s') Hok'). apply Hm.
      * intros [(src & e & H)|H]; [left; exists src, e; by apply Hm|]. unfold Catacomb.step in Hs. by rewrite H in Hs.
      * rewrite !ready_work. by eapply TreeCatacomb.work_step.
    + intros k H. destruct (TreeCatacomb.known_step me s l s' _ Hr Hs H) as [?|[[i ->]|(i & p & -> & Hp)]]; [by left| |]; right; cbn; [by left|].
      apply elem_of_list_omap. by exists (Some (Catacomb.WExt k)).
    + intros k (e & H). destruct (TreeCatacomb.end_step me s l s' k e Hr Hs H) as [?| ->]; [left; by exists e|]. right. by exists e.
  - intros [= <-]. split; [done|]. split; [|split]; try (intros k H; by left). split; [by intros [? ?]|done].
Qed.

(** ** Kill *)
Lemma log_killed {A} (f : A -> option nat) (log log' : list A) k : (forall ev, ev ∈ log' -> ev ∈ log \/ f ev = None) ->
  bool_decide (Some k ∈ map f log') = true -> bool_decide (Some k ∈ map f log) = true.
Proof.
  intros H. rewrite !bool_decide_eq_true. change (map f log') with (f <$> log'). change (map f log) with (f <$> log). rewrite !elem_of_list_fmap. intros (ev & Hk & Hev).
  destruct (H ev Hev) as [?|E]; [by exists ev|congruence].
Qed.
Lemma nkill_ok nd : node_ok nd -> node_ok (nkill nd) /\ le nd (nkill nd) /\ told (nkill nd) /\
  (forall k, nknown (nkill nd) k -> nknown nd k) /\ (forall k, nended (nkill nd) k -> nended nd k) /\
  (forall k, has_killed (nkill nd) k = true -> has_killed nd k = true).
Proof.
  intros Hok.
  assert (Hgen : forall l nd', kill_label nd = Some l -> nstep nd l = Some nd' -> hands_over l = [] -> waited l = None ->
    node_ok nd' /\ le nd nd' /\ (forall k, nknown nd' k -> nknown nd k) /\ (forall k, nended nd' k -> nended nd k)).
  { intros l nd' _ Hs Hh Hw. destruct (nstep_ok nd l nd' Hok Hs) as (H1 & H2 & H3 & H4). split; [done|]. split; [done|]. split; intros k Hk.
    - destruct (H3 k Hk) as [?|H]; [done|]. rewrite Hh in H. by apply elem_of_nil in H.
    - destruct (H4 k Hk) as [?|[e H]]; [done|]. congruence. }
  destruct nd as [E s|P s|me s|kd f].
  - specialize (Hgen _ (nkill (NEngine E s)) eq_refl eq_refl eq_refl eq_refl) as (H1 & H2 & H3 & H4). do 2 (split; [done|]). split; [by apply (TreeEngine.tell_dying E)|]. do 2 (split; [done|]).
    intros k. apply log_killed. intros ev. cbn. unfold Engine.kill_tomb. destruct (_ && _); [|intros H; by left]. unfold Engine.emit. cbn. rewrite elem_of_cons. intros [-> |?]; by auto.
  - pose proof (ok_runner P s Hok) as Hr. assert (Hs : exists s', Runner.step P s (Runner.LCore Runner.KKill) = Some s' /\ nkill (NRunner P s) = NRunner P s') by (by eexists).
    destruct Hs as (s' & Hs & E). rewrite E. assert (Hn : nstep (NRunner P s) (LRunner (Runner.LCore Runner.KKill)) = Some (NRunner P s')) by (unfold nstep; cbn [goexit]; by rewrite Hs).
    specialize (Hgen _ _ eq_refl Hn eq_refl eq_refl) as (H1 & H2 & H3 & H4). do 2 (split; [done|]). split; [by eapply (TreeRunner.tell_dying P s)|]. do 2 (split; [done|]).
    intros k. apply log_killed. cbn in Hs. injection Hs as <-. intros ev. cbn. unfold Runner.kill_tomb. destruct (t_dying _); cbn; [intros H; by left|]. rewrite elem_of_cons. intros [-> |?]; by auto.
  - pose proof Hok as [Hr Hx]. unfold nkill. cbn [kill_label]. destruct (nstep (NCatacomb me s) (LCatacomb (Catacomb.LKill None))) as [nd'|] eqn:Hn; cbn [default].
    + specialize (Hgen _ _ eq_refl Hn eq_refl eq_refl) as (H1 & H2 & H3 & H4). do 2 (split; [done|]). unfold nstep in Hn. cbn [goexit] in Hn.
      destruct (Catacomb.step me s (Catacomb.LKill None)) as [s'|] eqn:Hs; [|done]. injection Hn as <-. split; [left; by eapply TreeCatacomb.tell_dying|]. do 2 (split; [done|]).
      intros k. apply log_killed. intros ev. destruct (CatacombThms.kill_call me s None s' Hr Hs) as [_ HL]. rewrite HL by done. rewrite elem_of_cons. intros [-> |?]; by auto.
    + split; [done|]. split; [apply le_refl|]. split; [|done]. right. destruct (Catacomb.x_crash s) eqn:Hc; [done|]. exfalso. apply (TreeCatacomb.kill_can me s Hc). unfold nstep in Hn. cbn [goexit] in Hn.
      by destruct (Catacomb.step me s (Catacomb.LKill None)).
  - cbn. split; [done|]. split; [|by split]. split; [done|]. by split.
Qed.
Lemma killed_known nd k : node_ok nd -> has_killed nd k = true -> nknown nd k.
Proof.
  intros Hok. destruct nd as [E s|P s|me s|kd f]; cbn; [| | |done]; rewrite bool_decide_eq_true; intros H.
  - change (map ekill (Engine.s_log s)) with (ekill <$> Engine.s_log s) in H. apply elem_of_list_fmap in H as (ev & Hk & Hev). destruct ev; try done. destruct w as [|w]; try done. injection Hk as ->.
    exists n, w. by apply (TreeEngine.kill_ret E).
  - pose proof (ok_runner P s Hok) as Hr. change (map rkill (Runner.c_log (Runner.s_core s))) with (rkill <$> Runner.c_log (Runner.s_core s)) in H. apply elem_of_list_fmap in H as (ev & Hk & Hev). destruct ev as [| | | | | | | | | | | | | | |ce]; try done.
    + injection Hk as ->. exists id, w. by apply (TreeRunner.kill_ret P).
    + destruct ce; try done. injection Hk as ->. destruct (TreeRunner.ckill_ret P s _ _ _ Hr Hev) as [id H]. by eexists id, _.
  - destruct Hok as [Hr _]. change (map ckill (Catacomb.x_log s)) with (ckill <$> Catacomb.x_log s) in H. apply elem_of_list_fmap in H as (ev & Hk & Hev). destruct ev; try done. destruct w as [w|]; try done. injection Hk as ->.
    by eapply TreeCatacomb.kill_known.
Qed.

(** ** All of them *)
Record finv (F : forest) : Prop := {
  v_ok : forall n nd, f_nodes F !! n = Some nd -> node_ok nd;
  v_link : forall n k c, f_link F !! (n, k) = Some c -> is_Some (f_nodes F !! n) /\ exists nd, f_nodes F !! c = Some nd /\ ready nd = true;
  v_known : forall n nd k, f_nodes F !! n = Some nd -> nknown nd k -> is_Some (f_link F !! (n, k));
  v_ended : forall n nd k, f_nodes F !! n = Some nd -> nended nd k -> exists c ndc, f_link F !! (n, k) = Some c /\ f_nodes F !! c = Some ndc /\ dead ndc;
  v_killed : forall n nd k c ndc, f_nodes F !! n = Some nd -> has_killed nd k = true -> f_link F !! (n, k) = Some c -> f_nodes F !! c = Some ndc -> told ndc
}.
Lemma finv_to F F' : finv F ->
  (forall m nd, f_nodes F !! m = Some nd -> exists nd', f_nodes F' !! m = Some nd' /\ le nd nd') ->
  (forall n k c, f_link F !! (n, k) = Some c -> f_link F' !! (n, k) = Some c) ->
  (forall n k c, f_link F' !! (n, k) = Some c -> f_link F !! (n, k) = Some c \/ (is_Some (f_nodes F !! n) /\ exists nd, f_nodes F !! c = Some nd /\ ready nd = true)) ->
  (forall m nd', f_nodes F' !! m = Some nd' -> node_ok nd' /\
    ((forall k, ~ nknown nd' k /\ ~ nended nd' k /\ has_killed nd' k = false) \/
     exists nd, f_nodes F !! m = Some nd /\ forall k,
       (nknown nd' k -> nknown nd k \/ is_Some (f_link F' !! (m, k))) /\
       (nended nd' k -> nended nd k \/ exists c ndc, f_link F' !! (m, k) = Some c /\ f_nodes F !! c = Some ndc /\ dead ndc) /\
       (has_killed nd' k = true -> has_killed nd k = true \/ forall c ndc, f_link F' !! (m, k) = Some c -> f_nodes F' !! c = Some ndc -> told ndc))) ->
  finv F'.
Proof.
  intros V Hle Hl1 Hl2 Hn. destruct V as [V1 V2 V3 V4 V5]. split.
  - intros n nd H. by destruct (Hn _ _ H).
  - intros n k c H. assert (K : is_Some (f_nodes F !! n) /\ exists nd, f_nodes F !! c = Some nd /\ ready nd = true).
    { destruct (Hl2 _ _ _ H) as [H'|?]; [|done]. by eapply V2. }
    destruct K as ((x & Hx) & nd & Hc & Hr). split; [destruct (Hle _ _ Hx) as (? & ? & _); by eexists|]. destruct (Hle _ _ Hc) as (nd' & H' & (_ & _ & Hl)). exists nd'. auto.
  - intros n nd' k Hnd Hk. destruct (Hn _ _ Hnd) as [_ [H|(nd & H & Hs)]]; [by destruct (H k) as (H' & _)|]. destruct (Hs k) as (H1 & _ & _). destruct (H1 Hk) as [K|?]; [|done].
    destruct (V3 _ _ _ H K) as [c Hc]. exists c. by apply Hl1.
  - intros n nd' k Hnd Hk. assert (K : exists c ndc, f_link F' !! (n, k) = Some c /\ f_nodes F !! c = Some ndc /\ dead ndc).
    { destruct (Hn _ _ Hnd) as [_ [H|(nd & H & Hs)]]; [by destruct (H k) as (_ & H' & _)|]. destruct (Hs k) as (_ & H1 & _). destruct (H1 Hk) as [K|?]; [|done].
      destruct (V4 _ _ _ H K) as (c & ndc & Hc & ? & ?). exists c, ndc. auto. }
    destruct K as (c & ndc & K1 & K2 & K3). destruct (Hle _ _ K2) as (ndc' & K4 & (K5 & _)). exists c, ndc'. auto.
  - intros n nd' k c ndc' Hnd Hk Hc Hndc. destruct (Hn _ _ Hnd) as [_ [H|(nd & H & Hs)]]; [by rewrite (proj2 (proj2 (H k))) in Hk|]. destruct (Hs k) as (_ & _ & H1). destruct (H1 Hk) as [K|K]; [|by apply (K c)].
    destruct (V3 n nd k H) as [c0 Hc0]; [apply killed_known; [by eapply V1|done]|]. assert (c0 = c) as -> by (apply Hl1 in Hc0; congruence).
    destruct (V2 _ _ _ Hc0) as (_ & ndc & Hx & _). destruct (Hle _ _ Hx) as (y & Hy & (_ & Ht & _)). assert (y = ndc') as -> by congruence. apply Ht. exact (V5 n nd k c ndc H K Hc0 Hx).
Qed.

(** Links are added. *)
Lemma add_links_ok n kcs : forall F F', add_links F n kcs = Some F' -> f_nodes F' = f_nodes F /\
  (forall m k c, f_link F !! (m, k) = Some c -> f_link F' !! (m, k) = Some c) /\
  (forall m k c, f_link F' !! (m, k) = Some c -> f_link F !! (m, k) = Some c \/ (m = n /\ exists nd, f_nodes F !! c = Some nd /\ ready nd = true)) /\
  (forall k c, (k, c) ∈ kcs -> f_link F' !! (n, k) = Some c).
Proof.
  induction kcs as [|[k0 c0] kcs IH]; intros F F'; cbn.
  - intros [= <-]. split; [done|]. split; [done|]. split; [by left|]. intros k c H. by apply elem_of_nil in H.
  - destruct (linkable F n (k0, c0)) eqn:Hk; [|done]. intros H. destruct (IH _ _ H) as (H1 & H2 & H3 & H4). cbn in *. unfold linkable in Hk. cbn in Hk.
    destruct (f_nodes F !! c0) as [nd0|] eqn:Hc0; [|done]. apply andb_true_iff in Hk as [Hr Hfree]. apply bool_decide_eq_true in Hfree.
    split; [done|]. split; [|split].
    + intros m k c Hm. apply H2. destruct (decide ((n, k0) = (m, k))) as [[= <- <-]|Hne]; [|by rewrite lookup_insert_ne]. rewrite lookup_insert. destruct Hfree; congruence.
    + intros m k c Hm. destruct (H3 _ _ _ Hm) as [K|K]; [|by right]. destruct (decide ((n, k0) = (m, k))) as [[= <- <-]|Hne]; [|rewrite lookup_insert_ne in K by done; by left].
      rewrite lookup_insert in K. injection K as <-. right. split; [done|]. by exists nd0.
    + intros k c. rewrite elem_of_cons. intros [[= -> ->]|?]; [|by apply H4]. apply H2. by rewrite lookup_insert.
Qed.
Lemma zip_has {A B} (l : list A) (l' : list B) x : length l' = length l -> x ∈ l -> exists y, (x, y) ∈ zip l l'.
Proof.
  revert l'. induction l as [|a l IH]; intros [|b l'] Hlen Hx; try done; [by apply elem_of_nil in Hx|]. cbn. rewrite elem_of_cons in Hx. destruct Hx as [-> |Hx].
  - exists b. by left.
  - injection Hlen as Hlen. destruct (IH l' Hlen Hx) as [y Hy]. exists y. by right.
Qed.

Lemma finv_init : finv finit.
Proof. split; intros; done. Qed.
Lemma fresh_ok nd : fresh_node nd -> node_ok nd /\ forall k, ~ nknown nd k /\ ~ nended nd k /\ has_killed nd k = false.
Proof.
  destruct nd as [E s|P s|me s|kd f]; cbn; [intros -> ..|intros [-> ->]].
  - split; [by exists []|]. intros k. split; [|split]; [| |done]; [intros (n & w & H)|intros (n & w & n' & e & H & _)]; by apply elem_of_nil in H.
  - split; [exists []; split; [done|]; intros g H; by apply elem_of_nil in H|]. intros k. split; [|split]; [| |done]; [intros (n & w & H); by apply elem_of_nil in H|intros (e & H); done].
  - split; [split; [by exists []|]; by split|]. intros k. split; [|split]; [| |done]; [intros [[i H]|(i & p & H & _)]; by apply elem_of_nil in H|intros (e & H); done].
  - split; [done|]. intros k. split; [by intros []|]. split; [by intros []|done].
Qed.
Lemma finv_step F l F' : finv F -> fok l -> fstep F l = Some F' -> finv F'.
Proof.
  intros V Hok. destruct l as [n nd|n|n l cs]; cbn [fstep fok] in *.
  - destruct (f_nodes F !! n) eqn:Hn; [done|]. intros [= <-]. destruct (fresh_ok nd Hok) as [H1 H2]. apply (finv_to F); cbn; auto.
    + intros m nd0 Hm. exists nd0. rewrite lookup_insert_ne by congruence. split; [done|]. apply le_refl.
    + intros m nd' Hm. destruct (decide (n = m)) as [<- |Hne]; [rewrite lookup_insert in Hm; injection Hm as <-; auto|]. rewrite lookup_insert_ne in Hm by done.
      split; [by eapply v_ok|]. right. exists nd'. split; [done|]. intros k. auto.
  - destruct (f_nodes F !! n) as [nd|] eqn:Hn; [|done]. intros [= <-]. destruct (nkill_ok nd (v_ok F V _ _ Hn)) as (H1 & H2 & H3 & H4 & H5 & H6). apply (finv_to F); cbn; auto.
    + intros m nd0 Hm. destruct (decide (n = m)) as [<- |Hne]; [rewrite lookup_insert|rewrite lookup_insert_ne by done; exists nd0; split; [done|apply le_refl]].
      assert (nd0 = nd) as -> by congruence. by exists (nkill nd).
    + intros m nd' Hm. destruct (decide (n = m)) as [<- |Hne].
      * rewrite lookup_insert in Hm; injection Hm as <-. split; [done|]. right. exists nd. split; [done|]. intros k. auto.
      * rewrite lookup_insert_ne in Hm by done. split; [by eapply v_ok|]. right. exists nd'. split; [done|]. intros k. auto.
  - destruct (f_nodes F !! n) as [nd|] eqn:Hn; [|done]. destruct (negb (bool_decide _)) eqn:Hlen; [done|]. apply negb_false_iff, bool_decide_eq_true in Hlen.
    destruct (negb (match waited l with Some _ => _ | None => _ end)) eqn:Hwt; [done|]. apply negb_false_iff in Hwt.
    destruct (nstep nd l) as [nd1|] eqn:Hs; [|done]. destruct (add_links F n _) as [F1|] eqn:Hal; [|done]. intros [= <-].
    destruct (add_links_ok _ _ _ _ Hal) as (A1 & A2 & A3 & A4). destruct (nstep_ok nd l nd1 (v_ok F V _ _ Hn) Hs) as (N1 & N2 & N3 & N4).
    set (F2 := F1 <| f_nodes ::= <[n := nd1]> |>).
    assert (Hlink : f_link (pass_kills F2 n nd nd1) = f_link F1) by done.
    assert (Hnodes : forall m, f_nodes (pass_kills F2 n nd nd1) !! m = (fun x => if now_killed F2 n nd nd1 m then nkill x else x) <$> f_nodes F2 !! m).
    { intros m. unfold pass_kills. cbn [f_nodes set]. change (f_nodes (F2 <| f_nodes ::= map_imap (fun c nd0 => Some (if now_killed F2 n nd nd1 c then nkill nd0 else nd0)) |>))
        with (map_imap (fun c nd0 => Some (if now_killed F2 n nd nd1 c then nkill nd0 else nd0)) (f_nodes F2)). rewrite map_lookup_imap. by destruct (f_nodes F2 !! m). }
    assert (HF2n : f_nodes F2 !! n = Some nd1) by (subst F2; cbn; by rewrite lookup_insert).
    assert (HF2m : forall m, m <> n -> f_nodes F2 !! m = f_nodes F !! m) by (intros m Hm; subst F2; cbn; by rewrite lookup_insert_ne, A1).
    assert (Hk : forall m x, node_ok x -> let x' := if now_killed F2 n nd nd1 m then nkill x else x in node_ok x' /\ le x x' /\
        (forall k, nknown x' k -> nknown x k) /\ (forall k, nended x' k -> nended x k) /\ (forall k, has_killed x' k = true -> has_killed x k = true)).
    { intros m x Hx. cbn. destruct (now_killed _ _ _ _ _); [|split; [done|]; split; [apply le_refl|done]]. destruct (nkill_ok x Hx) as (H1 & H2 & H3 & H4 & H5 & H6). done. }
    apply (finv_to F); rewrite ?Hlink.
    + done.
    + intros m nd0 Hm. rewrite Hnodes. destruct (decide (m = n)) as [-> |Hne].
      * rewrite HF2n. eexists; split; [reflexivity|]. assert (nd0 = nd) as -> by congruence. destruct (Hk n nd1 N1) as (_ & H & _). by eapply le_trans.
      * rewrite HF2m by done. rewrite Hm. eexists; split; [reflexivity|]. by destruct (Hk m nd0 (v_ok F V _ _ Hm)) as (_ & H & _).
    + done.
    + intros m k c H. destruct (A3 _ _ _ H) as [?|[-> ?]]; [by left|]. right. split; [by exists nd|done].
    + intros m nd' Hm. rewrite Hnodes in Hm. destruct (decide (m = n)) as [-> |Hne].
      * rewrite HF2n in Hm. cbn in Hm. injection Hm as <-. destruct (Hk n nd1 N1) as (K1 & K2 & K3 & K4 & K5). split; [done|]. right. exists nd. split; [done|]. intros k. split; [|split].
        -- intros H. destruct (N3 k (K3 k H)) as [?|Hin]; [by left|]. right. destruct (zip_has _ cs k Hlen Hin) as [c Hc]. exists c. by apply A4.
        -- intros H. destruct (N4 k (K4 k H)) as [?|[e He]]; [by left|]. right. rewrite He in Hwt. destruct (f_link F !! (n, k)) as [c|] eqn:Hc; [|done]. apply bool_decide_eq_true in Hwt.
           destruct (f_nodes F !! c) as [ndc|] eqn:Hndc; [|done]. cbn in Hwt. exists c, ndc. split; [by apply A2|]. split; [done|]. by exists e.
        -- intros H. apply K5 in H. destruct (has_killed nd k) eqn:Hold; [by left|]. right. intros c ndc Hc Hndc. rewrite Hnodes in Hndc.
           assert (now_killed F2 n nd nd1 c = true) as Hnow.
           { unfold now_killed. apply existsb_exists. exists ((n, k), c). split; [apply elem_of_list_In, elem_of_map_to_list; exact Hc|]. cbn. rewrite !bool_decide_eq_true_2 by done. by rewrite H, Hold. }
           rewrite Hnow in Hndc. destruct (f_nodes F2 !! c) as [x|] eqn:Hx; [|done]. cbn in Hndc. injection Hndc as <-. apply nkill_ok.
           destruct (decide (c = n)) as [-> |Hcn]; [rewrite HF2n in Hx; by injection Hx as <-|]. rewrite HF2m in Hx by done. by eapply v_ok.
      * rewrite HF2m in Hm by done. destruct (f_nodes F !! m) as [x|] eqn:Hx; [|done]. cbn in Hm. injection Hm as <-. destruct (Hk m x (v_ok F V _ _ Hx)) as (K1 & K2 & K3 & K4 & K5).
        split; [done|]. right. exists x. split; [done|]. intros k. auto.
Qed.
Lemma finv_reach F : freachable F -> finv F.
Proof.
  intros (ls & Hok & Hrun). pose proof finv_init as V. revert V Hrun. generalize finit. induction Hok as [|l ls Hl Hls IH]; intros F0 V; cbn.
  - by intros [= <-].
  - destruct (fstep F0 l) as [F1|] eqn:Hs; [|done]. apply IH. by eapply finv_step.
Qed.

(** ** A worker that has finished leaves nothing behind *)
Lemma owns_known nd k : node_ok nd -> owns nd k -> nknown nd k.
Proof.
  intros Hok. destruct nd as [E s|P s|me s|kd f]; try done. destruct Hok as [Hr _]. intros [[b H]|[[i H]|(i & p & H & _ & Hp)]].
  - by eapply TreeCatacomb.bind_known.
  - by eapply TreeCatacomb.add_known.
  - right. by exists i, p.
Qed.
Lemma owned_linked F n nd k : freachable F -> f_nodes F !! n = Some nd -> owns nd k -> exists c ndc, f_link F !! (n, k) = Some c /\ f_nodes F !! c = Some ndc.
Proof.
  intros Hr Hn Ho. pose proof (finv_reach F Hr) as V. destruct (v_known F V n nd k Hn) as [c Hc]; [apply owns_known; [by eapply v_ok|done]|].
  destruct (v_link F V _ _ _ Hc) as (_ & ndc & H & _). by exists c, ndc.
Qed.
Lemma dead_ended nd k : node_ok nd -> dead nd -> owns nd k -> nended nd k.
Proof.
  intros Hok Hd Ho. apply dead_log in Hd; [|done]. destruct nd as [E s|P s|me s|kd f]; [| | |done]; cbn in Ho.
  - destruct Ho as (n & w & H). destruct (EngineMore.shutdown_complete E s Hok Hd) as [_ Hx]. destruct (Hx _ _ _ H) as [?|(n' & e & He)]; [done|]. by exists n, w, n', e.
  - pose proof (ok_runner P s Hok) as Hr. destruct Ho as (id & w & H). destruct (RunnerThms.dead_complete P s Hr Hd) as [Hx _]. destruct (Hx _ _ _ H) as (id' & e & He). exists e.
    by eapply (RunnerGor.gl_ended' _ (RunnerHist.a_gor P _ (RunnerThms.reach_all P s Hr))).
  - destruct Hok as [Hr _]. pose proof Hd as (pre & post & Hl)%elem_of_list_split. destruct (CatacombThms.dead_finished me s pre post Hr Hl) as (_ & K1 & K2 & K3).
    assert (K : CatacombSpec.finished post (Catacomb.WExt k)).
    { destruct Ho as [[b H]|[[i H]|(i & p & H1 & H2 & H3)]]; [by eapply K1|by eapply K2|by eapply K3]. }
    destruct K as [e He]. exists e. apply (CatacombLog.l_end me s Hr). rewrite Hl. by apply CatacombThms.in_later.
Qed.
Lemma child_dead F n nd c : freachable F -> f_nodes F !! n = Some nd -> dead nd -> child F n c -> exists ndc, f_nodes F !! c = Some ndc /\ dead ndc.
Proof.
  intros Hr Hn Hd (nd' & k & Hn' & Ho & Hl). assert (nd' = nd) as -> by congruence. pose proof (finv_reach F Hr) as V.
  destruct (v_ended F V n nd k Hn) as (c' & ndc & H1 & H2 & H3); [apply dead_ended; [by eapply v_ok|done|done]|]. assert (c' = c) as -> by congruence. by exists ndc.
Qed.
Lemma nothing_left F n nd c : freachable F -> f_nodes F !! n = Some nd -> dead nd -> descendant F n c -> exists ndc, f_nodes F !! c = Some ndc /\ dead ndc.
Proof.
  intros Hr Hn Hd Ht. revert nd Hn Hd. induction Ht as [n c H|n m c H Ht IH]; intros nd Hn Hd; [by eapply child_dead|].
  destruct (child_dead F n nd m Hr Hn Hd H) as (ndm & Hm & Hdm). by eapply IH.
Qed.

(** ** A worker that was told to stop does *)
Lemma told_dying nd : node_ok nd -> told nd -> crashed nd = false -> dying nd \/ dead nd.
Proof.
  intros Hok Ht Hc. destruct nd as [E s|P s|me s|kd f]; cbn in *; auto.
  - destruct Ht as [?|Ht]; [auto|]. right. by apply (dead_log (NRunner P s) Hok).
  - destruct Ht as [?|Ht]; [auto|congruence].
Qed.
(** Nothing that is bound to happen in [n] is possible. *)
Definition node_rest_at (F : forest) (n : nat) (nd : node) : Prop := forall l cs, bound_to_happen nd l -> fstep F (FStep n l cs) = None.
Lemma rest_plain F n nd l : node_rest_at F n nd -> f_nodes F !! n = Some nd -> bound_to_happen nd l -> hands_over l = [] -> waited l = None -> nstep nd l = None.
Proof.
  intros Hq Hn Hb Hh Hw. specialize (Hq l [] Hb). cbn [fstep] in Hq. rewrite Hn, Hh, Hw in Hq. cbn in Hq. by destruct (nstep nd l).
Qed.
Lemma rest_waited F n nd l k c ndc e : node_rest_at F n nd -> f_nodes F !! n = Some nd -> bound_to_happen nd l -> hands_over l = [] -> waited l = Some (k, e) ->
  f_link F !! (n, k) = Some c -> f_nodes F !! c = Some ndc -> nwait ndc = Some e -> nstep nd l = None.
Proof.
  intros Hq Hn Hb Hh Hw Hl Hc He. specialize (Hq l [] Hb). cbn [fstep] in Hq. rewrite Hn, Hh, Hw, Hl, Hc in Hq. cbn [mbind option_bind] in Hq. rewrite He in Hq.
  rewrite (bool_decide_eq_true_2 (Some e = Some e)) in Hq by done. cbn in Hq. by destruct (nstep nd l).
Qed.
(** The workers on which the node's own goroutines called Kill. *)
Definition rwkill (ev : Runner.event) : option nat := match ev with Runner.EvKill g _ _ => Some g | _ => None end.
Definition wkills (nd : node) : list nat :=
  match nd with
  | NEngine _ s => omap ekill (Engine.s_log s)
  | NRunner _ s => omap rwkill (RunnerSpec.rlog s)
  | NCatacomb _ s => omap ckill (Catacomb.x_log s)
  | NPlain _ _ => []
  end.
Lemma wkills_killed nd k : k ∈ wkills nd -> has_killed nd k = true.
Proof.
  destruct nd as [E s|P s|me s|kd f]; cbn [wkills has_killed]; [| | |by intros ?%elem_of_nil]; rewrite elem_of_list_omap, bool_decide_eq_true; intros (ev & Hev & Hk).
  - change (map ekill (Engine.s_log s)) with (ekill <$> Engine.s_log s). apply elem_of_list_fmap. by exists ev.
  - change (map rkill (Runner.c_log (Runner.s_core s))) with (rkill <$> Runner.c_log (Runner.s_core s)). apply elem_of_list_fmap. exists ev. split; [|done]. by destruct ev.
  - change (map ckill (Catacomb.x_log s)) with (ckill <$> Catacomb.x_log s). apply elem_of_list_fmap. by exists ev.
Qed.
Lemma node_done F n nd : finv F -> node_rest_at F n nd -> f_nodes F !! n = Some nd -> crashed nd = false -> ~ binds_itself nd -> ready nd = true -> dying nd ->
  (forall k, k ∈ wkills nd -> exists c ndc e, f_link F !! (n, k) = Some c /\ f_nodes F !! c = Some ndc /\ nwait ndc = Some e) -> dead nd.
Proof.
  intros V Hq Hn Hc Hself Hrd Hdy Hch. pose proof (v_ok F V _ _ Hn) as Hok.
  apply dead_log; [done|]. destruct nd as [E s|P s|me s|kd f]; cbn in Hdy.
  - assert (Hnone : forall l, nstep (NEngine E s) (LEngine l) = None -> Engine.step E s l = None) by (intros l; unfold nstep; cbn; by destruct (Engine.step E s l)).
    apply (TreeEngine.all_done E s Hok Hdy).
    + intros l Ho. assert (K : hands_over (LEngine l) = [] -> waited (LEngine l) = None -> Engine.step E s l = None) by (intros H1 H2; apply Hnone; by eapply rest_plain).
      destruct l; try done; try (by apply K). destruct r; [done|by apply K].
    + intros g m w e Hk. destruct (Hch g) as (c & ndc & e' & H1 & H2 & H3).
      { apply elem_of_list_omap. by exists (Engine.EvKill g m (Snapshot.WExt w)). }
      assert (K : Engine.step E s (Engine.LExit g e') = None).
      { apply Hnone. eapply (rest_waited F n _ (LEngine (Engine.LExit g e')) g c ndc e'); eauto. split; [done|]. by exists m, (Snapshot.WExt w). }
      revert K. cbn [Engine.step]. repeat case_match; done.
  - assert (Hnone : forall l, goexit (LRunner l) = false -> nstep (NRunner P s) (LRunner l) = None -> Runner.step P s l = None) by (intros l Hg; unfold nstep; rewrite Hg; by destruct (Runner.step P s l)).
    destruct Hok as (ls & Hrun & Hno). apply (TreeRunner.all_done P s ls Hrun Hno Hdy Hc).
    + intros l Ho. assert (Hg : goexit (LRunner l) = false). { destruct Ho as [Hi _]. destruct l as [l| | | | | | | | | | | | | | | | | | | | |]; try done. by destruct l. }
      assert (K : hands_over (LRunner l) = [] -> waited (LRunner l) = None -> Runner.step P s l = None) by (intros H1 H2; apply Hnone; [done|]; by eapply rest_plain).
      destruct l as [l| | | | | | | | | | | | | | | | | | | | |]; try done; try (by apply K). destruct l; try done; try (by apply K). destruct r; [done|by apply K].
    + intros g id w e Hk. destruct (Hch g) as (c & ndc & e' & H1 & H2 & H3).
      { apply elem_of_list_omap. by exists (Runner.EvKill g id w). }
      assert (K : Runner.step P s (Runner.LCore (Runner.KEnd g e')) = None).
      { apply Hnone; [done|]. eapply (rest_waited F n _ (LRunner (Runner.LCore (Runner.KEnd g e'))) g c ndc e'); eauto. split; [done|]. by exists id, w. }
      revert K. cbn [Runner.step Runner.own Runner.cstep negb]. repeat case_match; done.
  - assert (Hnone : forall l, goexit (LCatacomb l) = false -> nstep (NCatacomb me s) (LCatacomb l) = None -> Catacomb.step me s l = None) by (intros l Hg; unfold nstep; rewrite Hg; by destruct (Catacomb.step me s l)).
    destruct Hok as [Hr0 Hx]. apply (TreeCatacomb.all_done me s Hr0 Hx Hc).
    + by apply (ready_work me s).
    + done.
    + intros b Hb. apply Hself. by exists b.
    + intros l Hi. apply Hnone; [by destruct l|]. eapply rest_plain; eauto; [|by destruct l..]. cbn. by destruct l.
    + apply Hnone; [done|]. by eapply rest_plain.
    + intros who k Hk. destruct (Hch k) as (c & ndc & e' & H1 & H2 & H3).
      { apply elem_of_list_omap. by exists (Catacomb.EvWKill who (Catacomb.WExt k)). }
      assert (K : Catacomb.step me s (Catacomb.LEnd k e') = None).
      { apply Hnone; [done|]. eapply (rest_waited F n _ (LCatacomb (Catacomb.LEnd k e')) k c ndc e'); eauto. by exists who. }
      cbn in Hc. revert K. unfold Catacomb.step. rewrite Hc. cbn [Catacomb.step1]. apply (CatacombLog.l_dying me s Hr0) in Hdy.
      unfold Catacomb.honest. rewrite Hdy. cbn. destruct (Catacomb.x_ended s !! k); [done|]. by destruct e'.
  - assert (K : nstep (NPlain kd f) (LPlain None) = None) by (by eapply rest_plain). destruct f; [by eexists|done].
Qed.
Lemma told_dead F r0 n nd : freachable F -> acyclic F -> at_rest F r0 -> sound F r0 -> below F r0 n ->
  f_nodes F !! n = Some nd -> ready nd = true -> dying nd -> dead nd.
Proof.
  intros Hr [rank Hrk] Hq Hnc. pose proof (finv_reach F Hr) as V. remember (rank n) as r eqn:Er. revert n nd Er. induction (lt_wf r) as [r _ IH]. intros n nd -> Hbl Hn Hrd Hdy.
  pose proof (v_ok F V _ _ Hn) as Hok. destruct (Hnc _ _ Hbl Hn) as [Hc Hself].
  apply (node_done F n nd); try done; [intros l cs; by apply (Hq n nd l cs)|].
  (** a worker on which Kill was called has finished *)
  intros k Hk%wkills_killed. destruct (v_known F V n nd k Hn (killed_known nd k Hok Hk)) as [c Hl]. destruct (v_link F V _ _ _ Hl) as (_ & ndc & Hndc & Hrdc).
  pose proof (v_killed F V _ _ _ _ _ Hn Hk Hl Hndc) as Ht. assert (dead ndc) as [e He]; [|by exists c, ndc, e].
  assert (Hblc : below F r0 c) by (eapply rtc_r; [done|by exists k]).
  destruct (told_dying ndc (v_ok F V _ _ Hndc) Ht) as [Hd|Hd]; [by apply (Hnc _ _ Hblc Hndc)| |done]. eapply (IH (rank c)); eauto.
Qed.
Lemma stops F n nd : freachable F -> acyclic F -> f_nodes F !! n = Some nd -> ready nd = true -> dying nd -> sound F n -> at_rest F n ->
  dead nd /\ forall c, descendant F n c -> exists ndc, f_nodes F !! c = Some ndc /\ dead ndc.
Proof.
  intros Hr Ha Hn Hrd Hdy Hs Hq. assert (Hd : dead nd) by (eapply (told_dead F n n nd); eauto; apply rtc_refl). split; [done|]. intros c. by eapply nothing_left.
Qed.
Lemma kill_tells F n F' nd' : freachable F -> fstep F (FKill n) = Some F' -> f_nodes F' !! n = Some nd' -> crashed nd' = false -> dying nd' \/ dead nd'.
Proof.
  intros Hr Hs Hn Hc. pose proof (finv_reach F Hr) as V. cbn in Hs. destruct (f_nodes F !! n) as [nd|] eqn:E; [|done]. injection Hs as <-. cbn in Hn. rewrite lookup_insert in Hn. injection Hn as <-.
  destruct (nkill_ok nd (v_ok F V _ _ E)) as (H1 & _ & H2 & _). by apply told_dying.
Qed.
Lemma kill_passed F n nd k c ndc : freachable F -> f_nodes F !! n = Some nd -> has_killed nd k = true -> f_link F !! (n, k) = Some c -> f_nodes F !! c = Some ndc -> crashed ndc = false ->
  dying ndc \/ dead ndc.
Proof. intros Hr Hn Hk Hl Hc Hcr. pose proof (finv_reach F Hr) as V. apply told_dying; [by eapply v_ok|exact (v_killed F V n nd k c ndc Hn Hk Hl Hc)|done]. Qed.
