(** How often the runner calls start funcs (C86). *)
From stdpp Require Import gmap strings list.
From Coq Require Import ZArith Lia.
From Verif Require Import Err Tomb Runner RunnerSpec RunnerInv RunnerLog RunnerGor RunnerHist RunnerThms PaceSpec.
From Verif Require PaceEngine.

Lemma now_mono P c c' : ctrans P c c' -> (c_now c <= c_now c')%Z.
Proof. intros H. destruct H; cbn; try lia. all: repeat case_match; cbn; lia. Qed.
Lemma calls_past P c : creach P c -> forall g id f t, EvStartCall g id f t ∈ c_log c -> (t <= c_now c)%Z.
Proof.
  intros [ls Hls]. revert c Hls. induction ls as [|l ls IH] using rev_ind; intros c.
  - intros [= <-] g id f t H. by apply elem_of_nil in H.
  - rewrite foldl_app. cbn. destruct (foldl _ _ ls) as [c1|] eqn:Hc1; [|done]. cbn. intros Hc g id f t Hin.
    assert (creach P c1) as Hr by (by exists ls). pose proof (creach_all P c1 Hr) as HA.
    pose proof (cstep_trans P c1 l c (a_inv P c1 HA) Hc) as HT. pose proof (now_mono P c1 c HT).
    destruct (trans_log P c1 c HT) as [evs Hevs]. rewrite Hevs in Hin. apply elem_of_app in Hin as [Hin|Hin]; [|specialize (IH c1 eq_refl _ _ _ _ Hin); lia].
    apply elem_of_list_split in Hin as (a & b & ->). destruct (trans_emission P c1 c a _ b HT Hevs) as (_ & _ & -> & _). lia.
Qed.
Lemma spawn_after P s pre g id f d t post : reachable P s -> rlog s = pre ++ EvSpawn g id f d t :: post ->
  forall g' id' f' t', EvStartCall g' id' f' t' ∈ post -> (t' <= t)%Z.
Proof.
  intros Hr Hl. refine (creach_past P (fun ev post => match ev with EvSpawn g id f d t => forall g' id' f' t', EvStartCall g' id' f' t' ∈ post -> (t' <= t)%Z | _ => True end) _ _ (reach_core P s Hr) pre (EvSpawn g id f d t) post Hl). clear.
  intros c a ev b A Hc E. destruct ev; try done. destruct E as (_ & _ & -> & E). intros g' id' f' t' Hin. apply (calls_past P c Hc g' id' f').
  apply elem_of_app in Hin as [Hin|Hin]; [|done]. exfalso. destruct E as [(j & _ & -> & _)|(g1 & e & n & f1 & x & -> & _)]; rewrite ?elem_of_cons, elem_of_nil in Hin; naive_solver.
Qed.
Lemma call_charge P s pre g id f t post : reachable P s -> rlog s = pre ++ EvStartCall g id f t :: post -> in_charge post id = Some g.
Proof.
  intros Hr Hl. refine (past P (fun ev post => match ev with EvStartCall g id f t => in_charge post id = Some g | _ => True end) s Hr _ pre (EvStartCall g id f t) post Hl). clear.
  intros c a ev b A E. destruct ev; try done. destruct E as (-> & -> & -> & x & [(d & Hg & Hd)|(d & Hg & Hd)]); cbn [app]; apply (a_charge P c A); by eexists.
Qed.
Lemma charge_app l1 l0 id g : in_charge (l1 ++ l0) id = Some g -> (exists f d t, EvSpawn g id f d t ∈ l1) \/ in_charge l0 id = Some g.
Proof.
  induction l1 as [|ev l1 IH]; cbn [app]; [by right|].
  assert (in_charge (l1 ++ l0) id = Some g -> (exists f d t, EvSpawn g id f d t ∈ ev :: l1) \/ in_charge l0 id = Some g) as Hx.
  { intros H. destruct (IH H) as [(f & d & t & Hin)|H']; [left; exists f, d, t; by right|by right]. }
  destruct ev; cbn [in_charge]; try done; case_bool_decide; try done. intros [= ->]. subst. left. eexists _, _, _. left.
Qed.
Lemma spacing P s l2 g2 id f2 t2 l1 g1 f1 t1 l0 : reachable P s ->
  rlog s = l2 ++ EvStartCall g2 id f2 t2 :: l1 ++ EvStartCall g1 id f1 t1 :: l0 ->
  exists l1a l1b d t, l1 = l1a ++ EvSpawn g2 id f2 d t :: l1b /\ (t1 <= t)%Z /\ (t + d <= t2)%Z.
Proof.
  intros Hr Heq. pose proof (call_charge P s _ _ _ _ _ _ Hr Heq) as Hp2.
  assert (Heq1 : rlog s = (l2 ++ EvStartCall g2 id f2 t2 :: l1) ++ EvStartCall g1 id f1 t1 :: l0) by (rewrite Heq, <- app_assoc; done).
  pose proof (call_charge P s _ _ _ _ _ _ Hr Heq1) as Hp1.
  assert (Hne : g1 <> g2).
  { intros ->. apply (start_once P s _ _ _ _ _ _ Hr Heq). exists id, f1, t1. apply elem_of_app. right. left. }
  destruct (charge_app _ _ _ _ Hp2) as [(f & d & t & Hin)|H]; [|cbn in H; congruence].
  destruct (start_delay P s _ _ _ _ _ _ Hr Heq) as (d' & t' & Hin' & Hle).
  assert (EvSpawn g2 id f d t = EvSpawn g2 id f2 d' t') as [= -> -> ->].
  { apply (spawn_unique P s _ _ _ _ _ _ _ _ _ Hr); rewrite Heq; apply elem_of_app; right; right; [apply elem_of_app; by left|done]. }
  apply elem_of_list_split in Hin as (l1a & l1b & ->). exists l1a, l1b, d', t'. split; [done|]. split; [|done].
  assert (Heq3 : rlog s = (l2 ++ EvStartCall g2 id f2 t2 :: l1a) ++ EvSpawn g2 id f2 d' t' :: l1b ++ EvStartCall g1 id f1 t1 :: l0).
  { rewrite Heq. rewrite <- (app_assoc l1a), <- (app_assoc l2). done. }
  apply (spawn_after P s _ _ _ _ _ _ _ Hr Heq3 g1 id f1). apply elem_of_app. right. left.
Qed.

Definition start_of (id : string) (ev : event) : option Z := match ev with EvStartCall _ id' _ t => if bool_decide (id' = id) then Some t else None | _ => None end.
Lemma start_of_inv id ev t : start_of id ev = Some t -> exists g f, ev = EvStartCall g id f t.
Proof. destruct ev; cbn; try done. case_bool_decide; [|done]. intros [= ->]. subst. by eexists _, _. Qed.
Lemma runner_starts_omap log id : runner_starts log id = length (omap (start_of id) log).
Proof. induction log as [|ev log IH]; [done|]. destruct ev; try exact IH. cbn [runner_starts]. rewrite IH. cbn. by case_bool_decide. Qed.

Lemma runner_rate P s l2 mid l0 id a b : reachable P s -> rlog s = l2 ++ mid ++ l0 -> (forall f d, EvKnown id f d ∉ mid) ->
  (forall g f t, EvStartCall g id f t ∈ mid -> (a <= t <= b)%Z) ->
  0 < runner_starts mid id -> ((Z.of_nat (runner_starts mid id) - 1) * r_delay P <= b - a)%Z.
Proof.
  intros Hr Heq Hni Hab. rewrite runner_starts_omap. apply PaceEngine.gaps.
  - intros x u y v z t2 t1 Hmid (g2 & f2 & ->)%start_of_inv (g1 & f1 & ->)%start_of_inv.
    assert (Heq' : rlog s = (l2 ++ x) ++ EvStartCall g2 id f2 t2 :: y ++ EvStartCall g1 id f1 t1 :: z ++ l0).
    { rewrite Heq, Hmid, <- !app_assoc. cbn. by rewrite <- app_assoc. }
    destruct (spacing P s _ _ _ _ _ _ _ _ _ _ Hr Heq') as (ya & yb & d & t & -> & H1 & H2).
    enough (d = r_delay P) by lia.
    assert (Heq3 : rlog s = ((l2 ++ x) ++ EvStartCall g2 id f2 t2 :: ya) ++ EvSpawn g2 id f2 d t :: yb ++ EvStartCall g1 id f1 t1 :: z ++ l0).
    { rewrite Heq', <- (app_assoc ya), <- (app_assoc (l2 ++ x)). done. }
    destruct (spawn_reason P s _ _ _ _ _ _ _ Hr Heq3) as [(dc & post' & Hx & _)|(_ & _ & _ & _ & H)]; [exfalso|done].
    destruct yb as [|ev yb]; [done|]. injection Hx as -> _. apply (Hni f2 dc). rewrite Hmid. apply elem_of_app. right. right. apply elem_of_app. left. apply elem_of_app. right. right. left.
  - intros u t Hin (g & f & ->)%start_of_inv. by eapply Hab.
Qed.
