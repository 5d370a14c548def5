(** Progress of the catacomb. *)
From stdpp Require Import gmap strings list.
From Coq Require Import Lia.
From RecordUpdate Require Import RecordSet.
From Verif Require Import Err Tomb Sum Catacomb CatacombSpec CatacombProgressSpec CatacombInv CatacombTr CatacombLog CatacombHist.
Import RecordSetNotations.

(** ** Internal steps come to an end *)
Definition wv (v : vpc) : nat := match v with VWait => 4 | VKill _ => 3 | VClose => 2 | VWg => 1 | VGone => 0 end.
Definition ws (p : spc) : nat := match p with SSelect => 4 | SKill => 3 | SWait => 2 | SWg => 1 | SGone => 0 end.
Definition wb (_ : nat) (r : bind) : nat := wv (b_wait r) + ws (b_stop r).
Definition wa (_ : nat) (a : apc) : nat := match a with ASelect _ _ => 20 | AKill _ => 2 | AWait _ => 1 | AReturned => 0 end.
Definition wl (l : lpc) : nat := match l with LiGot _ => 10 | LiSelect => 1 | _ => 0 end.
Definition ww (w : kpc) : nat := match w with WkRun => 4 | WkKill _ => 3 | WkWg _ => 2 | WkDone => 1 | _ => 0 end.
Definition wi (_ : nat) (p : ipc) : nat :=
  match p with
  | IValidate p => 10 * length (p_init p) + 17
  | ICas p => 10 * length (p_init p) + 16
  | IAdd l => 10 * length l + 15
  | IListen => 12
  | IGo => 8
  | IStop l _ => 3 * length l + 1
  | IStopWait _ l _ => 3 * length l + 2
  | IReturned => 0
  end.
Definition budget (s : state) : nat := msum wi (x_invs s) + msum wa (x_adds s) + wl (x_lis s) + ww (x_work s) + msum wb (x_binds s).

Lemma budget_step me s l s' : cinv s -> tr me s l s' -> request l = false -> (if foreign l then budget s' <= budget s else S (budget s') <= budget s).
Proof.
  intros V Ht Hl. unfold budget.
  assert (Hn : x_binds s !! x_next s = None) by (destruct (x_binds s !! x_next s) eqn:E; [pose proof (c_next s V (x_next s) ltac:(eauto)); lia|done]).
  destruct Ht; try done; ccbn;
  repeat match goal with
  | H : x_invs s !! ?i = Some ?a |- context [<[?i := ?b]> (x_invs s)] => pose proof (msum_upd wi (x_invs s) i a b H); clear H
  | H : x_adds s !! ?i = Some ?a |- context [<[?i := ?b]> (x_adds s)] => pose proof (msum_upd wa (x_adds s) i a b H); clear H
  | H : x_binds s !! ?i = Some ?a |- context [<[?i := ?b]> (x_binds s)] => pose proof (msum_upd wb (x_binds s) i a b H); clear H
  | H : x_binds s !! ?i = None |- context [<[?i := ?b]> (x_binds s)] => pose proof (msum_new wb (x_binds s) i b H); clear H
  | H : x_lis s = _ |- _ => rewrite H; clear H
  | H : x_work s = _ |- _ => rewrite H; clear H
  end; unfold wb in *; cbn -[msum Nat.mul] in *; try lia.
  destruct g; cbn; lia.
Qed.
Lemma budget_run me ls : forall s s', reachable me s -> run me s ls = Some s' -> Forall (fun l => request l = false) ls -> length (filter (fun l => internal l = true) ls) <= budget s.
Proof.
  induction ls as [|l ls IH]; intros s s' Hr Hls Hf; [cbn; lia|]. cbn in Hls. destruct (step me s l) as [s1|] eqn:E; [|done].
  inversion Hf as [|? ? Hl Hf']; subst. pose proof (IH s1 s' (reach_step me s l s1 Hr E) Hls Hf') as H. pose proof (reach_cinv me s Hr) as V.
  destruct (step_tr me s l s1 V E) as [_ Ht]. pose proof (budget_step me s l s1 V Ht Hl) as Hb. rewrite filter_cons.
  assert (Hint : internal l = negb (foreign l)) by (unfold internal; by rewrite Hl). case_decide as Hd; rewrite Hint in Hd; destruct (foreign l); try done; cbn [length]; lia.
Qed.

(** ** What rest looks like *)
Record rested (s : state) : Prop := {
  r_lis : match x_lis s with LiGot _ => False | LiSelect => t_dying (x_tomb s) = false | _ => True end;
  r_work : match x_work s with WkNone | WkRun | WkOver | WkLost => True | WkWg _ => x_wg s <> 0 | _ => False end;
  r_invs : forall i pc, x_invs s !! i = Some pc -> match pc with IReturned => True | IStopWait w _ _ => worker_wait w s = None | _ => False end;
  r_adds : forall i a, x_adds s !! i = Some a ->
    match a with AReturned => True | ASelect _ ch => t_dying (x_tomb s) = false /\ (ch = true -> x_lis s <> LiSelect) | AWait w => worker_wait w s = None | AKill _ => False end;
  r_wait : forall b w v p, x_binds s !! b = Some (mkBind w v p) -> v = VWait /\ worker_wait w s = None \/ v = VGone;
  r_stop : forall b w v p, x_binds s !! b = Some (mkBind w v p) -> p = SSelect /\ v = VWait /\ t_dying (x_tomb s) = false \/ p = SWait /\ worker_wait w s = None \/ p = SGone
}.
Lemma rest_rested me s : x_crash s = false -> at_rest me s -> rested s.
Proof.
  intros Hc Hq.
  assert (Hs : forall l, internal l = true -> step1 me s l = None).
  { intros l Hl. pose proof (Hq l Hl) as H. unfold step in H. by rewrite Hc in H. }
  clear Hq. split.
  - destruct (x_lis s) eqn:E; [done| | |done].
    + pose proof (Hs LLisDying eq_refl) as H. cbn in H. rewrite E in H. by destruct (t_dying _).
    + pose proof (Hs LAdded eq_refl) as H. cbn in H. by rewrite E in H.
  - destruct (x_work s) eqn:E; try done.
    + pose proof (Hs LWorkKill eq_refl) as H. cbn in H. by rewrite E in H.
    + pose proof (Hs LWgWaited eq_refl) as H. cbn in H. rewrite E in H. by case_bool_decide.
    + pose proof (Hs LTombDone eq_refl) as H. cbn in H. by rewrite E in H.
  - intros i pc Hi. pose proof (Hs (LInv i) eq_refl) as H. cbn in H. rewrite Hi in H. destruct pc; cbn in H; try done.
    + by destruct (validate p).
    + by destruct (x_dirty s).
    + by destruct ws0 as [|[] ?].
    + by destruct (t_panic _).
    + by destruct ws0 as [|[] ?].
    + by destruct (worker_wait w s).
  - intros i a Ha. destruct a; [| | |done].
    + split; [pose proof (Hs (LAddDying i) eq_refl) as H; cbn in H; rewrite Ha in H; by destruct (t_dying _)|]. intros -> Hl. pose proof (Hs (LHand i) eq_refl) as H. cbn in H. by rewrite Ha, Hl in H.
    + pose proof (Hs (LAddKill i) eq_refl) as H. cbn in H. by rewrite Ha in H.
    + pose proof (Hs (LAddWaited i) eq_refl) as H. cbn in H. rewrite Ha in H. by destruct (worker_wait w s).
  - intros b w v p Hb. destruct v.
    + left. split; [done|]. pose proof (Hs (LWaitRet b) eq_refl) as H. cbn in H. rewrite Hb in H. destruct (worker_wait w s) as [[]|]; done.
    + pose proof (Hs (LWaitKill b) eq_refl) as H. cbn -[kill_or_crash] in H. by rewrite Hb in H.
    + pose proof (Hs (LWaitClose b) eq_refl) as H. cbn in H. by rewrite Hb in H.
    + pose proof (Hs (LWaitExit b) eq_refl) as H. cbn in H. by rewrite Hb in H.
    + by right.
  - intros b w v p Hb. destruct p.
    + left. split; [done|]. split.
      * destruct v; [done| | | |].
        -- pose proof (Hs (LWaitKill b) eq_refl) as H. cbn -[kill_or_crash] in H. by rewrite Hb in H.
        -- pose proof (Hs (LWaitClose b) eq_refl) as H. cbn in H. by rewrite Hb in H.
        -- pose proof (Hs (LStopDone b) eq_refl) as H. cbn in H. by rewrite Hb in H.
        -- pose proof (Hs (LStopDone b) eq_refl) as H. cbn in H. by rewrite Hb in H.
      * pose proof (Hs (LStopDying b) eq_refl) as H. cbn in H. rewrite Hb in H. by destruct (t_dying _).
    + pose proof (Hs (LStopKill b) eq_refl) as H. cbn in H. by rewrite Hb in H.
    + right; left. split; [done|]. pose proof (Hs (LStopWaited b) eq_refl) as H. cbn in H. rewrite Hb in H. by destruct (worker_wait w s).
    + pose proof (Hs (LStopExit b) eq_refl) as H. cbn in H. by rewrite Hb in H.
    + by right; right.
Qed.
