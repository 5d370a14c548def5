(** A concrete tree of workers, for the Examples beside the theorems of C78. *)
From stdpp Require Import gmap strings list relations.
From Coq Require Import ZArith.
From Verif Require Import Err Tomb Tree TreeSpec.
From Verif Require Snapshot Engine EngineProgressSpec EngineExample Runner RunnerSpec RunnerProgressSpec RunnerLiveSpec RunnerLive RunnerExample
  Catacomb CatacombSpec CatacombProgressSpec CatacombInv CatacombMore CatacombExample TreeProofs.

(** 0 is an engine; its worker is 1, built around a catacomb; the workers of 1 are 2, a runner, and 3; the worker of 2 is 4. *)
Definition en (l : Engine.label) : flabel := FStep 0 (LEngine l) [].
Definition ca (l : Catacomb.label) : flabel := FStep 1 (LCatacomb l) [].
Definition ru (l : Runner.label) : flabel := FStep 2 (LRunner l) [].
Definition tx_plan : Catacomb.plan := Catacomb.mkPlan "c" true true [Some (Catacomb.WExt 0); Some (Catacomb.WExt 1)].
Definition tx_runner : list flabel := map ru (RunnerExample.start_ 0 "a" 1) ++ [FNew 4 (NPlain false None); ru (Runner.LCore (Runner.KBegin 0)); FStep 2 (LRunner (Runner.LCore (Runner.KStartRet 0 (inl 10)))) [4];
  ru (Runner.LCore (Runner.KRecvStarted 0)); ru RunnerExample.A; ru RunnerExample.A].
Definition tx_up : list flabel :=
  [FNew 0 (NEngine EngineExample.ex_env Engine.init); en (Engine.LInstall "db" EngineExample.m_db); en (Engine.LDelayFire 0);
   FNew 2 (NRunner RunnerExample.rx Runner.init); FNew 3 (NPlain false None); FNew 1 (NCatacomb 7 Catacomb.init); FStep 1 (LCatacomb (Catacomb.LInvoke 0 tx_plan)) [2; 3]] ++
  replicate 7 (ca (Catacomb.LInv 0)) ++
  [FStep 0 (LEngine (Engine.LStartRet 0 (inl (Snapshot.WExt 5)))) [1]; en (Engine.LExpire 0); en (Engine.LStarted 0)] ++ tx_runner.
(** Kill on the engine; it kills the catacomb, *)
Definition tx_kill : list flabel := tx_up ++ [FKill 0; en Engine.LDying].
(** ... which kills 2 and 3; *)
Definition tx_kill2 : list flabel := tx_kill ++ map ca [Catacomb.LStopDying 0; Catacomb.LStopKill 0; Catacomb.LStopDying 1; Catacomb.LStopKill 1; Catacomb.LLisDying].
(** ... and everything stops, from the bottom up *)
Definition tx_dead2 : list flabel := tx_kill2 ++ map ru [Runner.LCore Runner.KDying; RunnerExample.A; RunnerExample.A] ++ [FStep 4 (LPlain (Some (EUser 4))) []] ++
  map ru (RunnerExample.down_ 0 (Some (EUser 4)) ++ [Runner.LCore Runner.KReturn]).
Definition tx_dead1 : list flabel := tx_dead2 ++ [FStep 3 (LPlain None) []] ++
  map ca ([Catacomb.LEnd 0 None; Catacomb.LEnd 1 None] ++ [Catacomb.LWaitRet 0; Catacomb.LWaitClose 0; Catacomb.LWaitExit 0; Catacomb.LStopWaited 0; Catacomb.LStopExit 0] ++
    [Catacomb.LWaitRet 1; Catacomb.LWaitClose 1; Catacomb.LWaitExit 1; Catacomb.LStopWaited 1; Catacomb.LStopExit 1] ++ CatacombExample.work_ None ++ [Catacomb.LWgWaited; Catacomb.LTombDone]).
Definition tx_dead : list flabel := tx_dead1 ++ map en (EngineExample.down 0 None).

Definition tx (ls : list flabel) : forest := default finit (frun finit ls).
Definition tx_ok (ls : list flabel) : bool := match frun finit ls with Some _ => true | None => false end.
Definition n_dead (F : forest) (n : nat) : bool := match f_nodes F !! n ≫= nwait with Some _ => true | None => false end.

Lemma tx_run ls : tx_ok ls = true -> frun finit ls = Some (tx ls).
Proof. unfold tx_ok, tx. by destruct (frun finit ls). Qed.
Lemma tx_reach ls : tx_ok ls = true -> Forall fok ls -> freachable (tx ls).
Proof. intros H Hf. exists ls. split; [done|]. by apply tx_run. Qed.
Lemma tx_fok : Forall fok tx_dead.
Proof.
  unfold tx_dead, tx_dead1, tx_dead2, tx_kill2, tx_kill, tx_up, tx_runner. rewrite !Forall_app.
  assert (Hmap : forall (A : Type) (f : A -> flabel) l, (forall x, fok (f x)) -> Forall fok (map f l)) by (intros A f l H; apply Forall_forall; intros x Hx; apply elem_of_list_In, in_map_iff in Hx as (y & <- & _); apply H).
  split_and!; try (by apply Hmap); try (by apply Forall_replicate); repeat (apply Forall_cons; split; [by repeat constructor|]); try apply Forall_nil; done.
Qed.
Lemma fok_app ls ls' : Forall fok (ls ++ ls') -> Forall fok ls.
Proof. rewrite Forall_app. by intros [? _]. Qed.

(** ** Computable tests *)
Definition node_rest (nd : node) : bool :=
  match nd with
  | NEngine _ s => negb (Engine.s_running s) && forallb (fun x => match Engine.g_pc x.2 with Engine.PGone => true | _ => false end) (map_to_list (Engine.s_gors s))
  | NRunner P s => RunnerLive.rest_check P s && forallb (fun x => match Runner.w_pc x.2 with Runner.WGone => true | _ => false end) (map_to_list (Runner.c_gors (Runner.s_core s)))
  | NCatacomb me s =>
    forallb (fun l => negb (CatacombProgressSpec.internal l) || match Catacomb.step me s l with None => true | Some _ => false end) (CatacombMore.enabled_labels s) &&
    match Catacomb.x_work s with Catacomb.WkRun => false | _ => true end &&
    forallb (fun ev => match ev with Catacomb.EvWKill _ (Catacomb.WExt k) => match Catacomb.x_ended s !! k with Some _ => true | None => false end | _ => true end) (Catacomb.x_log s)
  | NPlain k f => match f with Some _ => true | None => negb k end
  end.
Lemma all_in {A} (m : gmap nat A) (p : nat * A -> bool) k x : forallb p (map_to_list m) = true -> m !! k = Some x -> p (k, x) = true.
Proof. intros H Hk. rewrite forallb_forall in H. apply H. apply elem_of_list_In. by apply elem_of_map_to_list. Qed.
Lemma node_rest_ok nd l : TreeProofs.node_ok nd -> node_rest nd = true -> bound_to_happen nd l -> nstep nd l = None.
Proof.
  intros Hok H Hb. destruct nd as [E s|P s|me s|kd f], l as [l|l|l|e]; try done; cbn [node_rest] in H; cbn [bound_to_happen] in Hb.
  - apply andb_true_iff in H as [H1 H2]. apply negb_true_iff in H1. unfold nstep. cbn [goexit]. destruct Hb as [Hi _].
    assert (Hg : forall g r, Engine.s_gors s !! g = Some r -> Engine.g_pc r = Engine.PGone).
    { intros g r Hr. pose proof (all_in _ _ _ _ H2 Hr) as K. cbn in K. by destruct (Engine.g_pc r). }
    destruct l; try done; cbn [Engine.step]; rewrite ?H1; try done; (destruct (Engine.s_gors s !! g) as [[]|] eqn:E0; [|done]); apply Hg in E0; cbn in E0; by subst.
  - apply andb_true_iff in H as [H1 H2]. pose proof (RunnerLive.rest_check_ok P s H1) as Hr. destruct Hb as [Hi _].
    assert (Hg : forall g r, Runner.c_gors (Runner.s_core s) !! g = Some r -> Runner.w_pc r = Runner.WGone).
    { intros g r Hgr. pose proof (all_in _ _ _ _ H2 Hgr) as K. cbn in K. by destruct (Runner.w_pc r). }
    unfold nstep. destruct (goexit (LRunner l)); [done|].
    destruct l as [l| | | | | | | | | | | | | | | | | | | | |]; try done; try (by rewrite Hr). destruct l; try done; try (by rewrite Hr).
    all: cbn [Runner.step Runner.own Runner.cstep negb]; (destruct (Runner.c_gors (Runner.s_core s) !! g) as [[]|] eqn:E0; [|done]); apply Hg in E0; cbn in E0; by subst.
  - apply andb_true_iff in H as [H H3]. apply andb_true_iff in H as [H1 H2]. unfold nstep. destruct (goexit (LCatacomb l)); [done|]. destruct Hok as [Hr _].
    destruct (CatacombProgressSpec.internal l) eqn:Hi.
    + destruct (Catacomb.step me s l) as [s'|] eqn:E; [|done]. pose proof (CatacombMore.enabled_in me s l s' (CatacombInv.reach_cinv me s Hr) E Hi) as Hin.
      rewrite forallb_forall in H1. apply elem_of_list_In in Hin. specialize (H1 l Hin). cbn beta in H1. by rewrite E, Hi in H1.
    + destruct l; try done; unfold Catacomb.step; destruct (Catacomb.x_crash s); try done; cbn [Catacomb.step1].
      * by destruct (Catacomb.x_work s).
      * destruct Hb as [who Hw]. rewrite forallb_forall in H3. apply elem_of_list_In in Hw. specialize (H3 _ Hw). cbn in H3. by destruct (Catacomb.x_ended s !! n).
  - subst kd. unfold nstep. cbn. by destruct f.
Qed.
Definition tx_rest (F : forest) : bool := forallb (fun x => node_rest x.2) (map_to_list (f_nodes F)).
Lemma tx_rest_ok F n : freachable F -> tx_rest F = true -> at_rest F n.
Proof.
  intros Hr H m nd l cs _ Hn Hb. pose proof (all_in _ _ _ _ H Hn) as K. cbn in K. cbn [fstep]. rewrite Hn. destruct (negb _); [done|]. destruct (negb _); [done|].
  rewrite (node_rest_ok nd l); try done. eapply TreeProofs.v_ok; [by apply TreeProofs.finv_reach|done].
Qed.
Definition node_sound (nd : node) : bool :=
  negb (crashed nd) && match nd with NCatacomb _ s => negb (existsb (fun ev => match ev with Catacomb.EvBind _ Catacomb.WSelf => true | _ => false end) (Catacomb.x_log s)) | _ => true end.
Lemma tx_sound_ok F n : forallb (fun x => node_sound x.2) (map_to_list (f_nodes F)) = true -> sound F n.
Proof.
  intros H m nd _ Hn. pose proof (all_in _ _ _ _ H Hn) as K. cbn in K. apply andb_true_iff in K as [K1 K2]. split; [by apply negb_true_iff in K1|].
  destruct nd as [E s|P s|me s|kd f]; try (by intros []). intros [b Hb]. apply negb_true_iff in K2. by eapply (CatacombExample.cx_absent _ _ K2 (Catacomb.EvBind b Catacomb.WSelf)).
Qed.
Lemma tx_acyclic_ok F (rank : nat -> nat) : forallb (fun x => rank x.2 <? rank x.1.1) (map_to_list (f_link F)) = true -> acyclic F.
Proof.
  intros H. exists rank. intros n k c Hl. rewrite forallb_forall in H. apply Nat.ltb_lt. apply (H ((n, k), c)). apply elem_of_list_In. by apply elem_of_map_to_list.
Qed.
Lemma has_ev {A} (p : A -> bool) (log : list A) : existsb p log = true -> exists ev, ev ∈ log /\ p ev = true.
Proof. intros H. apply existsb_exists in H as (ev & H1 & H2). exists ev. split; [by apply elem_of_list_In|done]. Qed.
Definition owns_check (nd : node) (k : nat) : bool :=
  match nd with
  | NEngine _ s => existsb (fun ev => match ev with Engine.EvStartRet g _ (inl (Snapshot.WExt _)) => g =? k | _ => false end) (Engine.s_log s)
  | NRunner _ s => existsb (fun ev => match ev with Runner.EvStartRet g _ (inl _) => g =? k | _ => false end) (RunnerSpec.rlog s)
  | NCatacomb _ s => existsb (fun ev => match ev with Catacomb.EvBind _ (Catacomb.WExt w) => w =? k | _ => false end) (Catacomb.x_log s)
  | NPlain _ _ => false
  end.
Definition child_check (F : forest) (n k c : nat) : bool :=
  match f_nodes F !! n with Some nd => owns_check nd k | None => false end && bool_decide (f_link F !! (n, k) = Some c).
Lemma child_ok F n k c : child_check F n k c = true -> child F n c.
Proof.
  unfold child_check. destruct (f_nodes F !! n) as [nd|] eqn:Hn; [|done]. intros [H1 H2]%andb_true_iff. apply bool_decide_eq_true in H2. exists nd, k. split; [done|]. split; [|done].
  destruct nd as [E s|P s|me s|kd f]; [| | |done]; apply has_ev in H1 as (ev & Hin & He); destruct ev; try done.
  - destruct r as [[]|]; try done. apply Nat.eqb_eq in He as ->. by eexists _, _.
  - destruct r; try done. apply Nat.eqb_eq in He as ->. by eexists _, _.
  - destruct w; try done. apply Nat.eqb_eq in He as ->. left. by eexists.
Qed.
Definition dying_check (F : forest) (n : nat) : bool :=
  match f_nodes F !! n with
  | Some (NEngine _ s) => existsb (fun ev => match ev with Engine.EvDying => true | _ => false end) (Engine.s_log s)
  | Some (NRunner _ s) => existsb (fun ev => match ev with Runner.EvKilled => true | _ => false end) (RunnerSpec.rlog s)
  | Some (NCatacomb _ s) => existsb (fun ev => match ev with Catacomb.EvKill _ _ => true | _ => false end) (Catacomb.x_log s)
  | Some (NPlain k _) => k
  | None => false
  end.
Lemma dying_ok F n : dying_check F n = true -> exists nd, f_nodes F !! n = Some nd /\ dying nd.
Proof.
  unfold dying_check. destruct (f_nodes F !! n) as [nd|] eqn:Hn; [|done]. intros H. exists nd. split; [done|].
  destruct nd as [E s|P s|me s|kd f]; [| | |done]; apply has_ev in H as (ev & Hin & He); destruct ev; try done; [by left|by eexists _, _].
Qed.

(** Two catacombs, each of which was given the worker around the other. *)
Definition cb (l : Catacomb.label) : flabel := FStep 0 (LCatacomb l) [].
Definition ty_down (f : Catacomb.label -> flabel) : list flabel :=
  map f ([Catacomb.LLisDying; Catacomb.LStopDying 0; Catacomb.LStopKill 0] ++ CatacombExample.work_ None).
Definition ty : list flabel :=
  [FNew 0 (NCatacomb 7 Catacomb.init); cb (Catacomb.LInvoke 0 (Catacomb.mkPlan "a" true true []))] ++ replicate 5 (cb (Catacomb.LInv 0)) ++
  [FNew 1 (NCatacomb 8 Catacomb.init); FStep 1 (LCatacomb (Catacomb.LInvoke 0 (Catacomb.mkPlan "b" true true [Some (Catacomb.WExt 0)]))) [0]] ++ replicate 6 (ca (Catacomb.LInv 0)) ++
  [FStep 0 (LCatacomb (Catacomb.LAdd 0 (Catacomb.WExt 0))) [1]; cb (Catacomb.LHand 0); cb Catacomb.LAdded; FKill 0] ++ ty_down cb ++ ty_down ca.
Lemma ty_fok : Forall fok ty.
Proof.
  unfold ty, ty_down. rewrite !Forall_app.
  assert (Hmap : forall (A : Type) (f : A -> flabel) l, (forall x, fok (f x)) -> Forall fok (map f l)) by (intros A f l H; apply Forall_forall; intros x Hx; apply elem_of_list_In, in_map_iff in Hx as (y & <- & _); apply H).
  split_and!; try (by apply Hmap); try (by apply Forall_replicate); repeat (apply Forall_cons; split; [by repeat constructor|]); try apply Forall_nil; done.
Qed.
(** Workers that were killed and have not finished: Wait of the other one does not return. *)
Definition ends_blocked (F : forest) (n : nat) (nd : node) : bool :=
  match nd with
  | NCatacomb me s =>
    forallb (fun l => negb (CatacombProgressSpec.internal l) || match Catacomb.step me s l with None => true | Some _ => false end) (CatacombMore.enabled_labels s) &&
    match Catacomb.x_work s with Catacomb.WkRun => false | _ => true end &&
    forallb (fun ev => match ev with Catacomb.EvWKill _ (Catacomb.WExt k) => match f_link F !! (n, k) with Some c => match (f_nodes F !! c) ≫= nwait with Some _ => false | None => true end | None => true end | _ => true end) (Catacomb.x_log s)
  | _ => false
  end.
Lemma blocked_ok F n : freachable F -> forallb (fun x => ends_blocked F x.1 x.2) (map_to_list (f_nodes F)) = true -> at_rest F n.
Proof.
  intros Hr H m nd l cs _ Hn Hb. pose proof (all_in _ _ _ _ H Hn) as K. cbn [fst snd] in K. pose proof (TreeProofs.v_ok F (TreeProofs.finv_reach F Hr) _ _ Hn) as Hok.
  destruct nd as [E s|P s|me s|kd f]; try done. unfold ends_blocked in K. apply andb_true_iff in K as [K K3]. apply andb_true_iff in K as [K1 K2]. destruct Hok as [Hrc _].
  cbn [fstep]. rewrite Hn. destruct (negb (bool_decide _)); [done|]. destruct l as [|  |l|]; try done. cbn [bound_to_happen] in Hb.
  assert (Hi : CatacombProgressSpec.internal l = true -> nstep (NCatacomb me s) (LCatacomb l) = None).
  { intros Hi. unfold nstep. destruct (goexit _); [done|]. destruct (Catacomb.step me s l) as [s'|] eqn:E; [|done]. pose proof (CatacombMore.enabled_in me s l s' (CatacombInv.reach_cinv me s Hrc) E Hi) as Hin.
    rewrite forallb_forall in K1. apply elem_of_list_In in Hin. specialize (K1 l Hin). cbn beta in K1. by rewrite E, Hi in K1. }
  destruct l; try done; try (rewrite Hi by done; by destruct (negb _)).
  - destruct (negb _); [done|]. unfold nstep. destruct (goexit _); [done|]. unfold Catacomb.step. destruct (Catacomb.x_crash s); [done|]. cbn [Catacomb.step1]. by destruct (Catacomb.x_work s).
  - cbn [waited]. destruct Hb as [who Hw]. rewrite forallb_forall in K3. apply elem_of_list_In in Hw. specialize (K3 _ Hw). cbn beta iota in K3. rename n0 into k.
    destruct (f_link F !! (m, k)) as [c|]; [|done]. cbn in K3. rewrite bool_decide_eq_false_2; [done|]. intros E. by rewrite E in K3.
Qed.
Lemma cycle_stuck : exists F, freachable F /\ sound F 0 /\ at_rest F 0 /\
  exists nd nd', f_nodes F !! 0 = Some nd /\ f_nodes F !! 1 = Some nd' /\ ready nd = true /\ dying nd /\ dying nd' /\ child F 0 1 /\ child F 1 0 /\ ~ dead nd /\ ~ dead nd'.
Proof.
  assert (Hr : freachable (tx ty)) by (apply tx_reach; [vm_compute; reflexivity|apply ty_fok]).
  assert (Hd : dying_check (tx ty) 0 = true /\ dying_check (tx ty) 1 = true) by (vm_compute; tauto). destruct Hd as [Hd0 Hd1].
  destruct (dying_ok _ _ Hd0) as (nd & Hn & Hdy), (dying_ok _ _ Hd1) as (nd' & Hn' & Hdy').
  exists (tx ty). split; [done|]. split; [apply tx_sound_ok; vm_compute; reflexivity|]. split; [apply blocked_ok; [done|vm_compute; reflexivity]|].
  exists nd, nd'. split; [done|]. split; [done|]. split.
  { assert (H : (f_nodes (tx ty) !! 0) ≫= (fun nd => Some (ready nd)) = Some true) by (vm_compute; reflexivity). rewrite Hn in H. by injection H. }
  split; [done|]. split; [done|]. split; [apply (child_ok _ 0 0 1); vm_compute; reflexivity|]. split; [apply (child_ok _ 1 0 0); vm_compute; reflexivity|].
  assert (H : (f_nodes (tx ty) !! 0) ≫= nwait = None /\ (f_nodes (tx ty) !! 1) ≫= nwait = None) by (vm_compute; tauto). destruct H as [H0 H1]. rewrite Hn in H0. rewrite Hn' in H1. cbn in H0, H1.
  unfold dead. rewrite H0, H1. split; by intros [? ?].
Qed.
Lemma running_top F n : dying_check F n = true -> match f_nodes F !! n with Some (NEngine _ s) => negb (t_dead (Engine.s_tomb s)) | _ => false end = true ->
  exists nd, f_nodes F !! n = Some nd /\ ready nd = true /\ killed nd /\ ~ dead nd.
Proof.
  intros Hc H. destruct (dying_ok F n Hc) as (nd & Hn & Hd). exists nd. rewrite Hn in H. destruct nd as [E s| | |]; try done. split; [exact Hn|]. split; [reflexivity|].
  split; [exact Hd|]. unfold dead. cbn [nwait]. destruct (t_dead _); [done|]. by intros [? ?].
Qed.
