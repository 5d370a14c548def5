(** Concrete infinite executions for C80. *)
From stdpp Require Import gmap strings list.
From Coq Require Import ZArith.
From RecordUpdate Require Import RecordSet.
From Verif Require Import Err Tomb FairSpec.
From Verif Require Engine EngineSpec EngineProgressSpec EngineProgress EngineExample FairEngineSpec FairEngine
  Runner RunnerSpec RunnerProgressSpec RunnerExample Catacomb CatacombSpec CatacombProgressSpec CatacombExample FairCatacombSpec.
Import RecordSetNotations.

(** Follow a schedule. *)
Fixpoint follow {S L} (step : S -> L -> option S) (s : S) (lab : nat -> option L) (i : nat) : S :=
  match i with
  | 0 => s
  | Datatypes.S i' => let s' := follow step s lab i' in match lab i' with Some l => default s' (step s' l) | None => s' end
  end.
Definition possible {S L} (step : S -> L -> option S) (s : S) (l : option L) : bool :=
  match l with Some l => match step s l with Some _ => true | None => false end | None => true end.
Definition check {S L} (step : S -> L -> option S) (s : S) (lab : nat -> option L) (n : nat) : bool :=
  forallb (fun i => possible step (follow step s lab i) (lab i)) (seq 0 n).
Lemma follow_exec {S L} (step : S -> L -> option S) s lab n : check step s lab n = true ->
  (forall i, n <= i -> possible step (follow step s lab i) (lab i) = true) -> execution step (follow step s lab) lab.
Proof.
  intros Hc Hn i. assert (Hp : possible step (follow step s lab i) (lab i) = true).
  { destruct (decide (n <= i)) as [H|H]; [by apply Hn|]. unfold check in Hc. rewrite forallb_forall in Hc. apply Hc. apply in_seq. lia. }
  cbn [follow Nat.add]. destruct (lab i) as [l|]; [|done]. cbn in Hp. by destruct (step _ l).
Qed.
(** Play a list, then nothing happens any more. *)
Lemma follow_stop {S L} (step : S -> L -> option S) s (ls : list L) i : length ls <= i -> follow step s (fun i => ls !! i) i = follow step s (fun i => ls !! i) (length ls).
Proof. intros H. induction H as [|i H IH]; [done|]. cbn [follow]. rewrite (lookup_ge_None_2 ls i) by done. exact IH. Qed.
Lemma play_exec {S L} (step : S -> L -> option S) s (ls : list L) : check step s (fun i => ls !! i) (length ls) = true -> execution step (follow step s (fun i => ls !! i)) (fun i => ls !! i).
Proof. intros H. apply (follow_exec _ _ _ (length ls) H). intros i Hi. by rewrite (lookup_ge_None_2 ls i). Qed.
Lemma play_fair {S L} (step : S -> L -> option S) (due : S -> L -> Prop) s (ls : list L) :
  (forall l, due (follow step s (fun i => ls !! i) (length ls)) l -> step (follow step s (fun i => ls !! i) (length ls)) l = None) ->
  not_starved step due (follow step s (fun i => ls !! i)) (fun i => ls !! i).
Proof. intros H i. exists (i `max` length ls). split; [lia|]. right. rewrite (follow_stop step s ls (i `max` length ls)) by lia. exact H. Qed.

(** ** Engine *)
Definition gone_pc (p : Engine.pc) : bool := match p with Engine.PGone => true | _ => false end.
Definition edead (s : Engine.state) : bool := negb (Engine.s_running s) && forallb (fun gr => gone_pc (Engine.g_pc (snd gr))) (map_to_list (Engine.s_gors s)).
Lemma edead_rest E s : edead s = true -> forall l, EngineProgressSpec.owed (Engine.s_log s) l -> Engine.step E s l = None.
Proof.
  unfold edead. rewrite andb_true_iff, negb_true_iff, forallb_forall. intros [Hr Hg] l [Hi _].
  assert (Hx : forall g r, Engine.s_gors s !! g = Some r -> Engine.g_pc r = Engine.PGone).
  { intros g r H. assert (Hin : In (g, r) (map_to_list (Engine.s_gors s))) by (apply elem_of_list_In; by apply elem_of_map_to_list). specialize (Hg _ Hin). cbn in Hg. by destruct (Engine.g_pc r). }
  destruct l; try done; cbn [Engine.step]; [by rewrite Hr|..]; (destruct (Engine.s_gors s !! g) as [[? ? ? ? ? p]|] eqn:E1; [|done]; pose proof (Hx _ _ E1) as H; cbn in H; by subst p).
Qed.

(** ** The clock runs for ever *)
Definition ticking (ls : list Engine.label) (i : nat) : option Engine.label := match ls !! i with Some l => Some l | None => Some (Engine.LTick 1) end.
Lemma ticking_state E s ls k : exists t, follow (Engine.step E) s (ticking ls) (length ls + k) = follow (Engine.step E) s (ticking ls) (length ls) <| Engine.s_now := t |> /\
  (t = Engine.s_now (follow (Engine.step E) s (ticking ls) (length ls)) + Z.of_nat k)%Z.
Proof.
  induction k as [|k (t & IH & Ht)].
  - exists (Engine.s_now (follow (Engine.step E) s (ticking ls) (length ls))). rewrite Nat.add_0_r. split; [by destruct (follow _ _ _ _)|lia].
  - rewrite Nat.add_succ_r. cbn [follow]. assert (H : ticking ls (length ls + k) = Some (Engine.LTick 1)) by (unfold ticking; by rewrite (lookup_ge_None_2 ls (length ls + k)) by lia).
    rewrite H, IH. exists (1 + t)%Z. split; [reflexivity|]. lia.
Qed.
Lemma ticking_exec E s ls : check (Engine.step E) s (ticking ls) (length ls) = true -> execution (Engine.step E) (follow (Engine.step E) s (ticking ls)) (ticking ls).
Proof. intros H. apply (follow_exec _ _ _ (length ls) H). intros i Hi. unfold ticking. by rewrite (lookup_ge_None_2 ls i). Qed.
Lemma ticking_time E s ls : forall t j, exists k, j <= k /\ (t <= Engine.s_now (follow (Engine.step E) s (ticking ls) k))%Z.
Proof.
  intros t j. pose (n0 := Engine.s_now (follow (Engine.step E) s (ticking ls) (length ls))). exists (length ls + (j + Z.to_nat (t - n0))). split; [lia|].
  destruct (ticking_state E s ls (j + Z.to_nat (t - n0))) as (u & -> & Hu). cbn -[follow Z.of_nat]. fold n0 in Hu. lia.
Qed.
Definition quietb (s : Engine.state) : bool := negb (Engine.dying s) && forallb (fun gr => match Engine.g_pc (snd gr) with Engine.PGone | Engine.PSelf => true
  | Engine.PWait _ => negb (existsb (EngineExample.is_kill_ev (fst gr)) (Engine.s_log s)) | _ => false end) (map_to_list (Engine.s_gors s)).
Lemma quietb_rest E s : quietb s = true -> forall l, EngineProgressSpec.owed (Engine.s_log s) l -> Engine.step E s l = None.
Proof.
  unfold quietb. rewrite andb_true_iff, negb_true_iff, forallb_forall. intros [Hd Hg] l [Hi Ho].
  assert (Hx : forall g r, Engine.s_gors s !! g = Some r -> match Engine.g_pc r with Engine.PGone | Engine.PSelf => true
    | Engine.PWait _ => negb (existsb (EngineExample.is_kill_ev g) (Engine.s_log s)) | _ => false end = true).
  { intros g r H. assert (Hin : In (g, r) (map_to_list (Engine.s_gors s))) by (apply elem_of_list_In; by apply elem_of_map_to_list). exact (Hg _ Hin). }
  destruct l; try done; cbn [Engine.step]; [by rewrite Hd, andb_false_r|..]; (destruct (Engine.s_gors s !! g) as [[? ? ? ? ? p]|] eqn:E1; [|done]; pose proof (Hx _ _ E1) as H; cbn in H; destruct p; try done).
  - exfalso. destruct Ho as (n & w' & Ho). apply negb_true_iff in H. eapply EngineExample.ex_absent in H; [by apply H in Ho|]. cbn. by apply bool_decide_eq_true_2.
  - by rewrite Hd.
Qed.
Lemma ticking_fair E s ls : quietb (follow (Engine.step E) s (ticking ls) (length ls)) = true ->
  not_starved (Engine.step E) (fun s => EngineProgressSpec.owed (Engine.s_log s)) (follow (Engine.step E) s (ticking ls)) (ticking ls).
Proof.
  intros H i. exists (length ls + i). split; [lia|]. right. apply quietb_rest. destruct (ticking_state E s ls i) as (t & -> & _). exact H.
Qed.
Lemma ticking_calm E s ls n : forallb (fun j => match ticking ls j with Some l => EngineExample.calmb (Engine.s_log (follow (Engine.step E) s (ticking ls) j)) l | None => true end) (seq n (length ls - n)) = true ->
  forall j l, n <= j -> ticking ls j = Some l -> EngineProgressSpec.calm (Engine.s_log (follow (Engine.step E) s (ticking ls) j)) l.
Proof.
  rewrite forallb_forall. intros H j l Hj Hl. destruct (decide (j < length ls)) as [Hlt|Hge].
  - specialize (H j ltac:(apply in_seq; lia)). rewrite Hl in H. by apply EngineExample.calmb_calm.
  - unfold ticking in Hl. rewrite (lookup_ge_None_2 ls j) in Hl by lia. by injection Hl as <-.
Qed.

(** ** Runner *)
Definition rdead (s : Runner.state) : bool := match Runner.c_loop (Runner.s_core s) with Runner.LEnded => true | _ => false end &&
  forallb (fun gr => match Runner.w_pc (snd gr) with Runner.WGone => true | _ => false end) (map_to_list (Runner.c_gors (Runner.s_core s))) && bool_decide (Runner.s_waits s = ∅).
Lemma rdead_rest P s : rdead s = true -> forall l, RunnerProgressSpec.owed (RunnerSpec.rlog s) l -> Runner.step P s l = None.
Proof.
  unfold rdead. rewrite !andb_true_iff, forallb_forall, bool_decide_eq_true. intros [[Hl Hg] Hw] l [Hi _].
  assert (Hx : forall g r, Runner.c_gors (Runner.s_core s) !! g = Some r -> Runner.w_pc r = Runner.WGone).
  { intros g r H. assert (Hin : In (g, r) (map_to_list (Runner.c_gors (Runner.s_core s)))) by (apply elem_of_list_In; by apply elem_of_map_to_list). specialize (Hg _ Hin). cbn in Hg. by destruct (Runner.w_pc r). }
  assert (Hloop : Runner.c_loop (Runner.s_core s) = Runner.LEnded) by (by destruct (Runner.c_loop (Runner.s_core s))).
  assert (Hcore : forall k, RunnerProgressSpec.internal (Runner.LCore k) = true -> Runner.cstep P (Runner.s_core s) k = None).
  { intros k Hk. destruct k; try done; cbn [Runner.cstep]; unfold Runner.at_select; rewrite ?Hloop; try done;
      (destruct (Runner.c_gors (Runner.s_core s) !! g) as [[? ? ? p]|] eqn:E1; [|done]; pose proof (Hx _ _ E1) as H; cbn in H; by subst p). }
  destruct l; try done; cbn [Runner.step]; rewrite ?Hw, ?lookup_empty; try done.
  destruct (negb (Runner.own l)); [done|]. by rewrite (Hcore l Hi).
Qed.
Definition no_lost (l : Runner.label) : bool := match l with Runner.LCore (Runner.KLost _) => false | _ => true end.
Lemma play_no_lost ls : forallb no_lost ls = true -> forall j g, (ls !! j : option Runner.label) <> Some (Runner.LCore (Runner.KLost g)).
Proof. rewrite forallb_forall. intros H j g Hj. apply elem_of_list_lookup_2, elem_of_list_In, H in Hj. done. Qed.
Lemma play_no_request ls n : forallb (fun l => negb (RunnerProgressSpec.request l)) (drop n ls) = true -> forall j l, n <= j -> (ls !! j : option Runner.label) = Some l -> RunnerProgressSpec.request l = false.
Proof.
  rewrite forallb_forall. intros H j l Hj Hl. apply negb_true_iff, H. apply elem_of_list_In. apply (elem_of_list_lookup_2 _ (j - n)). rewrite lookup_drop. by replace (n + (j - n)) with j by lia.
Qed.

(** ** Catacomb *)
Definition cdead (s : Catacomb.state) : bool :=
  match Catacomb.x_work s with Catacomb.WkOver => true | _ => false end && match Catacomb.x_lis s with Catacomb.LiGone => true | _ => false end &&
  forallb (fun ir => match snd ir with Catacomb.IReturned => true | _ => false end) (map_to_list (Catacomb.x_invs s)) &&
  forallb (fun ir => match snd ir with Catacomb.AReturned => true | _ => false end) (map_to_list (Catacomb.x_adds s)) &&
  forallb (fun br => match Catacomb.b_wait (snd br), Catacomb.b_stop (snd br) with Catacomb.VGone, Catacomb.SGone => true | _, _ => false end) (map_to_list (Catacomb.x_binds s)) &&
  forallb (fun ev => match ev with Catacomb.EvWKill _ (Catacomb.WExt k) => match Catacomb.x_ended s !! k with Some _ => true | None => false end | _ => true end) (Catacomb.x_log s).
Lemma in_map {A} (f : nat * A -> bool) (m : gmap nat A) i a : (forall x, In x (map_to_list m) -> f x = true) -> m !! i = Some a -> f (i, a) = true.
Proof. intros H Hi. apply H. apply elem_of_list_In. by apply elem_of_map_to_list. Qed.
Lemma cdead_rest me s : cdead s = true -> forall l, FairCatacombSpec.due s l -> Catacomb.step me s l = None.
Proof.
  unfold cdead. rewrite !andb_true_iff, !forallb_forall. intros [[[[[Hk Hl] Hi] Ha] Hb] He] l Hd. unfold Catacomb.step. destruct (Catacomb.x_crash s); [done|].
  assert (Hw : Catacomb.x_work s = Catacomb.WkOver) by (by destruct (Catacomb.x_work s)). assert (Hli : Catacomb.x_lis s = Catacomb.LiGone) by (by destruct (Catacomb.x_lis s)).
  assert (Hbind : forall b r, Catacomb.x_binds s !! b = Some r -> Catacomb.b_wait r = Catacomb.VGone /\ Catacomb.b_stop r = Catacomb.SGone).
  { intros b r H. pose proof (in_map _ _ _ _ Hb H) as H'. cbn in H'. by destruct (Catacomb.b_wait r), (Catacomb.b_stop r). }
  destruct l; try done; cbn [Catacomb.step1]; rewrite ?Hw, ?Hli; try done;
  lazymatch goal with
  | |- context [Catacomb.x_invs s !! ?i] => destruct (Catacomb.x_invs s !! i) as [pc|] eqn:E1; [|done]; pose proof (in_map _ _ _ _ Hi E1) as H; by destruct pc
  | |- context [Catacomb.x_adds s !! ?i] => destruct (Catacomb.x_adds s !! i) as [pc|] eqn:E1; [|done]; pose proof (in_map _ _ _ _ Ha E1) as H; by destruct pc
  | |- context [Catacomb.x_binds s !! ?b] => destruct (Catacomb.x_binds s !! b) as [[w v p]|] eqn:E1; [|done]; destruct (Hbind _ _ E1) as [H1 H2]; cbn in H1, H2; by subst
  | |- context [Catacomb.x_ended s !! ?k] => destruct Hd as [who Hd]; apply elem_of_list_In in Hd; specialize (He _ Hd); cbn in He; by destruct (Catacomb.x_ended s !! k)
  end.
Qed.
Lemma play_no_new_work ls n : forallb (fun l => negb (FairCatacombSpec.new_work l)) (drop n ls) = true -> forall j l, n <= j -> (ls !! j : option Catacomb.label) = Some l -> FairCatacombSpec.new_work l = false.
Proof.
  rewrite forallb_forall. intros H j l Hj Hl. apply negb_true_iff, H. apply elem_of_list_In. apply (elem_of_list_lookup_2 _ (j - n)). rewrite lookup_drop. by replace (n + (j - n)) with j by lia.
Qed.
Definition csound (s : Catacomb.state) : bool := negb (Catacomb.x_crash s) &&
  forallb (fun ev => match ev with Catacomb.EvWorkRet Catacomb.WkGoexit | Catacomb.EvBind _ Catacomb.WSelf => false | _ => true end) (Catacomb.x_log s).
Lemma csound_spec s : csound s = true -> Catacomb.x_crash s = false /\ Catacomb.EvWorkRet Catacomb.WkGoexit ∉ Catacomb.x_log s /\ forall b, Catacomb.EvBind b Catacomb.WSelf ∉ Catacomb.x_log s.
Proof.
  unfold csound. rewrite andb_true_iff, negb_true_iff, forallb_forall. intros [Hc H]. split; [done|]. split; [|intros b]; intros Hin; apply elem_of_list_In, H in Hin; done.
Qed.
Lemma play_sound me s ls : forallb (fun i => csound (follow (Catacomb.step me) s (fun i => ls !! i) i)) (seq 0 (S (length ls))) = true ->
  forall j, let t := follow (Catacomb.step me) s (fun i => ls !! i) j in Catacomb.x_crash t = false /\ Catacomb.EvWorkRet Catacomb.WkGoexit ∉ Catacomb.x_log t /\ forall b, Catacomb.EvBind b Catacomb.WSelf ∉ Catacomb.x_log t.
Proof.
  rewrite forallb_forall. intros H j t. apply csound_spec. subst t. destruct (decide (j <= length ls)) as [Hj|Hj]; [apply H, in_seq; lia|]. rewrite follow_stop by lia. apply H, in_seq. lia.
Qed.
