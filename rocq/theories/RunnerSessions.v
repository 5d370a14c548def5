(** What one call on the runner means for later ones (C87). *)
From stdpp Require Import gmap strings list.
From Coq Require Import ZArith Lia.
From RecordUpdate Require Import RecordSet.
From Verif Require Import Err Tomb Runner RunnerSpec RunnerInv RunnerLog RunnerGor RunnerHist RunnerThms RunnerCalls RunnerUse RunnerAnswers RunnerMore.
Import RecordSetNotations.

(** ** Lists *)
Ltac mem H := repeat match type of H with _ ∈ _ ++ _ => apply elem_of_app in H as [H|H] | _ ∈ _ :: _ => apply elem_of_cons in H as [H|H] end; try done; set_solver +H.
Lemma unique_after {A} (x y : A) : forall m r a b, m ++ x :: r = a ++ y :: b -> x <> y -> x ∉ r -> x ∈ b -> exists c, m = a ++ y :: c /\ b = c ++ x :: r.
Proof.
  induction m as [|z m IH]; intros r a b He Hne Hr Hb.
  - exfalso. destruct a as [|z a]; cbn in He; injection He as E1 E2; [done|]. apply Hr. rewrite E2. apply elem_of_app. right. by right.
  - destruct a as [|w a]; cbn in He; injection He as E1 E2.
    + subst. by exists m.
    + subst w. destruct (IH r a b E2 Hne Hr Hb) as (c & -> & ->). by exists c.
Qed.
Lemma known_stays l1 l0 id : (forall d, EvRemoved id d ∉ l1) -> known l0 id <> None -> known (l1 ++ l0) id <> None.
Proof.
  induction l1 as [|ev l1 IH]; intros Hn H0; [done|]. cbn [app].
  assert (known (l1 ++ l0) id <> None) as IH' by (apply IH; [|done]; intros d Hd; apply (Hn d); by right).
  destruct ev; cbn [known]; try done; case_bool_decide; try done. subst. destruct (Hn d). left.
Qed.
Lemma unknown_stays l1 l0 id : (forall f d, EvKnown id f d ∉ l1) -> known l0 id = None -> known (l1 ++ l0) id = None.
Proof.
  induction l1 as [|ev l1 IH]; intros Hn H0; [done|]. cbn [app].
  assert (known (l1 ++ l0) id = None) as IH' by (apply IH; [|done]; intros f d Hd; apply (Hn f d); by right).
  destruct ev; cbn [known]; try done; case_bool_decide; try done. subst. destruct (Hn f d). left.
Qed.
Lemma asked_stays l1 l0 id : (forall f d, EvKnown id f d ∉ l1) -> stop_asked l0 id = true -> stop_asked (l1 ++ l0) id = true.
Proof.
  induction l1 as [|ev l1 IH]; intros Hn H0; [done|]. cbn [app].
  assert (stop_asked (l1 ++ l0) id = true) as IH' by (apply IH; [|done]; intros f d Hd; apply (Hn f d); by right).
  destruct ev; cbn [stop_asked]; try done; case_bool_decide; try done. subst. destruct (Hn f d). left.
Qed.
Lemma known_dec (l : list event) id : (exists f d, EvKnown id f d ∈ l) \/ forall f d, EvKnown id f d ∉ l.
Proof.
  induction l as [|ev l [(f & d & IH)|IH]]; [right; intros; apply not_elem_of_nil|left; exists f, d; by right|].
  destruct ev; try (right; intros f1 d1 [[=]|H]%elem_of_cons; by destruct (IH f1 d1)).
  destruct (decide (id0 = id)) as [->|Hne]; [left; eexists _, _; left|right]. intros f1 d1 [[= -> -> ->]|H]%elem_of_cons; [done|by destruct (IH f1 d1)].
Qed.

(** ** The loop answers calls that were made *)
Definition made (ev : event) (post : list event) : Prop :=
  match ev with
  | EvAnswer i id f _ => EvC (CvCall i (KStart id f)) ∈ post
  | EvStopReq i id => EvC (CvCall i (KStop id)) ∈ post
  | _ => True
  end.
Lemma hist_split (Q : event -> list event -> Prop) (l : list event) : hist Q l -> forall pre ev post, l = pre ++ ev :: post -> Q ev post.
Proof. induction l as [|x l IH]; intros H [|y pre] ev post He; try done; cbn in He; injection He as -> ->; destruct H as [H1 H2]; [done|by eapply IH]. Qed.
Lemma hist_more (Q : event -> list event -> Prop) (l : list event) evs : hist Q l -> (forall a ev b, evs = a ++ ev :: b -> Q ev (b ++ l)) -> hist Q (evs ++ l).
Proof.
  intros H. induction evs as [|ev evs IH]; intros Hn; [done|]. split; [by apply (Hn [])|]. apply IH. intros a e b ->. by apply (Hn (ev :: a)).
Qed.
Lemma all_made P s : reachable P s -> hist made (rlog s).
Proof.
  revert s. apply (reach_ind P (fun s => hist made (rlog s))); [done|].
  intros s s' Hr IH Hr' HT. pose proof (reach_linv P s Hr) as L. unfold rlog in *.
  destruct HT; try exact IH; try (unfold return_, tell; cbn; by split).
  - cbn. pose proof (reach_all P s Hr) as A. pose proof (cstep_trans P _ _ _ (a_inv P _ A) H0) as CT. destruct (trans_log P _ _ CT) as [evs Hevs]. rewrite Hevs. apply hist_more; [done|].
    intros a ev b ->. pose proof (trans_emission P _ _ a ev b CT Hevs) as E. destruct ev; try done; cbn.
    + destruct E as (-> & Hl & _). apply (li_start s (reach_loopinv P s Hr)) in Hl. exact (li_pc s L _ _ Hl).
    + exfalso. destruct E as (-> & -> & Hl). cbn in Hevs. clear -H H0 Hevs Hl. destruct l; try done; cbn in H0;
        repeat (case_match; try done); simplify_eq; try (apply (f_equal length) in Hevs; cbn in Hevs; lia); unfold kill_tomb in *; repeat (cbn in Hevs; case_match; try done); try discriminate;
        try (apply (f_equal length) in Hevs; cbn in Hevs; lia).
  - unfold return_, tell. cbn. split; [done|]. split; [|done]. exact (li_pc s L _ _ H).
  - destruct r, k; cbn; by try split.
Qed.

Lemma start_effect P s pre i id f e post : reachable P s -> rlog s = pre ++ EvC (CvRet i (KStart id f) (RErr e)) :: post ->
  e = err_dead \/ exists p1 p2, post = p1 ++ EvAnswer i id f e :: p2 /\ EvC (CvCall i (KStart id f)) ∈ p2.
Proof.
  intros Hr Hl. destruct (start_result P s Hr _ _ _ _ _ _ Hl) as [(e' & [= <-] & Ha)|([= ->] & _)]; [right|by left].
  destruct (elem_split _ _ Ha) as (p1 & p2 & ->). exists p1, p2. split; [done|].
  apply (hist_split made _ (all_made P s Hr) (pre ++ EvC (CvRet i (KStart id f) (RErr e)) :: p1) (EvAnswer i id f e) p2). rewrite Hl. by rewrite <- (app_assoc pre).
Qed.
Lemma stop_effect P s pre i id post : reachable P s -> rlog s = pre ++ EvC (CvRet i (KStop id) (RErr None)) :: post ->
  exists p2, post = EvStopReq i id :: p2 /\ EvC (CvCall i (KStop id)) ∈ p2.
Proof.
  intros Hr Hl. destruct (client_read P s Hr _ _ _ Hl) as (s0 & Hr0 & _ & (Hpc & Hc)). destruct Hc as [(_ & ->)|([=] & _)].
  exists (rlog s0). split; [done|]. exact (li_pc s0 (reach_linv P s0 Hr0) _ _ Hpc).
Qed.

(** After an accepted StartWorker the id is known, until it is removed. *)
Lemma known_since P s pre x p1 i id f p2 : reachable P s -> rlog s = pre ++ (p1 ++ [x]) ++ EvAnswer i id f None :: p2 -> ~ stopping_all p2 ->
  (forall d, EvRemoved id d ∉ p1 ++ [x]) -> known ((p1 ++ [x]) ++ EvAnswer i id f None :: p2) id <> None.
Proof.
  intros Hr Hl Hns Hnr. assert (Hl' : rlog s = (pre ++ p1 ++ [x]) ++ EvAnswer i id f None :: p2) by (rewrite Hl, <- (app_assoc pre); done).
  destruct (start_answer P s _ _ _ _ _ _ Hr Hl') as (_ & H2 & H3). destruct (known p2 id) as [k|] eqn:Hk.
  - apply known_stays; [done|]. cbn. by rewrite Hk.
  - destruct (H3 Hns eq_refl) as (_ & pre' & g & d & t & Hp). apply (f_equal last) in Hp.
    change [EvSpawn g id f 0 t; EvKnown id f d] with ([EvSpawn g id f 0 t] ++ [EvKnown id f d]) in Hp. rewrite (app_assoc pre'), (app_assoc pre), !last_snoc in Hp. injection Hp as ->.
    rewrite <- app_assoc. apply known_stays; [intros d' Hd; apply (Hnr d'), elem_of_app; by left|]. cbn. by rewrite bool_decide_eq_true_2.
Qed.
Lemma snoc_view {A} (y : A) p : exists q z, y :: p = q ++ [z].
Proof. destruct (@exists_last _ (y :: p)) as (q & z & E); [done|]. by exists q, z. Qed.
Lemma known_since' P s pre m y p i id f p2 : reachable P s -> rlog s = pre ++ (m ++ y :: p) ++ EvAnswer i id f None :: p2 -> ~ stopping_all p2 ->
  (forall d, EvRemoved id d ∉ m ++ y :: p) -> known ((m ++ y :: p) ++ EvAnswer i id f None :: p2) id <> None.
Proof.
  intros Hr. destruct (snoc_view y p) as (q & z & ->). rewrite (app_assoc m). intros Hl Hns Hnr. by apply (known_since P s pre).
Qed.

Lemma start_names P s pre ns m i id f p1 p2 : reachable P s ->
  rlog s = pre ++ EvC (CvNames ns) :: m ++ EvC (CvRet i (KStart id f) (RErr None)) :: p1 ++ EvAnswer i id f None :: p2 ->
  ~ stopping_all p2 -> (forall d, EvRemoved id d ∉ m ++ p1) -> id ∈ ns.
Proof.
  intros Hr Hl Hns Hnr. apply (names_result P s _ _ _ Hr Hl). set (y := EvC (CvRet _ _ _)) in *.
  assert (E : m ++ y :: p1 ++ EvAnswer i id f None :: p2 = (m ++ y :: p1) ++ EvAnswer i id f None :: p2) by (rewrite <- (app_assoc m); done).
  rewrite E. apply (known_since' P s (pre ++ [EvC (CvNames ns)])); [done| |done|].
  - rewrite Hl, <- (app_assoc pre). cbn. by rewrite E.
  - intros d Hd. apply elem_of_app in Hd as [Hd|[Hd|Hd]%elem_of_cons]; [|done|]; apply (Hnr d), elem_of_app; auto.
Qed.

(** A call that began after an accepted StartWorker returned. *)
Lemma later_known P s pre a y b j k m1 m2 i id f p1 p2 : reachable P s ->
  rlog s = pre ++ m1 ++ EvC (CvCall j k) :: m2 ++ EvC (CvRet i (KStart id f) (RErr None)) :: p1 ++ EvAnswer i id f None :: p2 ->
  m1 ++ EvC (CvCall j k) :: m2 ++ EvC (CvRet i (KStart id f) (RErr None)) :: p1 ++ EvAnswer i id f None :: p2 = a ++ y :: b ->
  y <> EvC (CvCall j k) -> EvC (CvCall j k) ∈ b -> ~ stopping_all p2 -> (forall d, EvRemoved id d ∉ m1 ++ m2 ++ p1) ->
  known b id <> None /\ exists c, m1 = a ++ y :: c.
Proof.
  intros Hr Hl He Hne Hin Hns Hnr. set (x := EvC (CvCall j k)) in *. set (z := EvC (CvRet i _ _)) in *.
  assert (x ∉ m2 ++ z :: p1 ++ EvAnswer i id f None :: p2) as Hx.
  { refine (call_once P s (pre ++ m1) j k _ Hr _ k). rewrite Hl. by rewrite <- (app_assoc pre). }
  destruct (unique_after x y _ _ _ _ He (fun H => Hne (eq_sym H)) Hx Hin) as (c & -> & ->). split; [|by exists c].
  assert (E : c ++ x :: m2 ++ z :: p1 ++ EvAnswer i id f None :: p2 = ((c ++ x :: m2) ++ z :: p1) ++ EvAnswer i id f None :: p2).
  { rewrite <- (app_assoc (c ++ x :: m2)), <- (app_assoc c). done. }
  rewrite E. apply (known_since' P s (pre ++ a ++ [y])); [done| |done|].
  - rewrite Hl, <- E, <- !(app_assoc pre), <- !(app_assoc a). done.
  - intros d Hd. apply (Hnr d). mem Hd.
Qed.

Lemma start_worker P s pre k j r m1 m2 i id f p1 p2 : reachable P s -> k = KWorker id \/ k = KStopRm id ->
  rlog s = pre ++ EvC (CvRet j k r) :: m1 ++ EvC (CvCall j k) :: m2 ++ EvC (CvRet i (KStart id f) (RErr None)) :: p1 ++ EvAnswer i id f None :: p2 ->
  ~ stopping_all p2 -> (forall d, EvRemoved id d ∉ m1 ++ m2 ++ p1) -> r <> RErr (Some (ETyped TNotFound (MsgText id))).
Proof.
  intros Hr Hk Hl Hns Hnr ->.
  assert (exists q1 q2, m1 ++ EvC (CvCall j k) :: m2 ++ EvC (CvRet i (KStart id f) (RErr None)) :: p1 ++ EvAnswer i id f None :: p2 = q1 ++ EvC (CvLookup j id GNotFound) :: q2 /\
    known q2 id = None /\ EvC (CvCall j k) ∈ q2) as (q1 & q2 & He & Hu & Hin).
  { destruct Hk as [-> | ->].
    - destruct (worker_result P s _ _ _ _ _ Hr Hl) as (_ & [([=] & _)|[([=] & _)|(q1 & q2 & q & He & Hin & Hq)]]). destruct q; [|by destruct Hq as [[=] _]].
      destruct Hq as (_ & Hu & _). by exists q1, q2.
    - destruct (stoprm_other P s _ _ _ _ _ Hr Hl) as [(e & [=])|[([=] & _)|[([=] & _)|(_ & _ & q1 & q2 & He & Hu & Hin)]]]. by exists q1, q2. }
  apply (later_known P s (pre ++ [EvC (CvRet j k (RErr (Some (ETyped TNotFound (MsgText id)))))]) q1 _ q2 j k m1 m2 i id f p1 p2 Hr) in He as [Hkn _]; try done.
  rewrite Hl, <- (app_assoc pre). done.
Qed.

Lemma start_start P s pre j f' r m1 m2 i id f p1 p2 : reachable P s ->
  rlog s = pre ++ EvC (CvRet j (KStart id f') (RErr r)) :: m1 ++ EvC (CvCall j (KStart id f')) :: m2 ++ EvC (CvRet i (KStart id f) (RErr None)) :: p1 ++ EvAnswer i id f None :: p2 ->
  ~ stopping_all (m1 ++ m2 ++ p1 ++ p2) -> (forall d, EvRemoved id d ∉ m1 ++ m2 ++ p1) ->
  r = Some (ETyped TAlreadyExists (MsgText id)) \/ r = Some (EConst KRunnerDead).
Proof.
  intros Hr Hl Hns Hnr. destruct (start_effect P s _ _ _ _ _ _ Hr Hl) as [->|(q1 & q2 & He & Hin)]; [by right|left].
  assert (Hns2 : ~ stopping_all p2). { intros H. apply Hns. unfold stopping_all. rewrite !elem_of_app. auto. }
  pose proof He as He'.
  apply (later_known P s (pre ++ [EvC (CvRet j (KStart id f') (RErr r))]) q1 _ q2 j _ m1 m2 i id f p1 p2 Hr) in He' as [Hkn (c & ->)]; try done; [|rewrite Hl, <- (app_assoc pre); done].
  rewrite He in Hl. assert (Hl' : rlog s = (pre ++ EvC (CvRet j (KStart id f') (RErr r)) :: q1) ++ EvAnswer j id f' r :: q2) by (rewrite Hl, <- (app_assoc pre); done).
  destruct (start_answer P s _ _ _ _ _ _ Hr Hl') as (_ & H2 & _). apply H2; [|done].
  intros H. apply Hns. rewrite <- app_assoc in He. apply app_inv_head in He. cbn in He. injection He as He. unfold stopping_all in *. rewrite <- He in H. mem H.
Qed.

Lemma stop_start P s pre g id f d t m i post : reachable P s ->
  rlog s = pre ++ EvSpawn g id f d t :: m ++ EvC (CvRet i (KStop id) (RErr None)) :: post -> exists f' d', EvKnown id f' d' ∈ m.
Proof.
  intros Hr Hl. destruct (known_dec m id) as [H|Hn]; [done|exfalso].
  assert (Hl2 : rlog s = (pre ++ EvSpawn g id f d t :: m) ++ EvC (CvRet i (KStop id) (RErr None)) :: post) by (rewrite Hl, <- (app_assoc pre); done).
  destruct (stop_effect P s _ _ _ _ Hr Hl2) as (p2 & -> & _). pose proof (no_start_after_stop P s _ _ _ _ _ _ _ Hr Hl) as Hf.
  rewrite asked_stays in Hf; [done|done|]. cbn. by rewrite bool_decide_eq_true_2.
Qed.

(** The removal that StopAndRemoveWorker waits for comes after its lookup. *)
Lemma removed_later P s pre i id g w d post : reachable P s -> rlog s = pre ++ EvC (CvLookup i id (GWorker g w d)) :: post -> EvRemoved id d ∉ post.
Proof.
  intros Hr Hl H. destruct (client_read P s Hr _ _ _ Hl) as (s0 & Hr0 & Ha & Hc). destruct Hc as (-> & Hg & _). unfold get_worker in Hg.
  destruct (c_workers (s_core s0) !! id) as [n|] eqn:Hn; [|done]. destruct (i_worker n) as [[g' w']|] eqn:Hw; [|done]. injection Hg as -> -> <-.
  destruct (creach_rm P _ (reach_core P s0 Hr0) id (i_done n) H) as [_ Hx]. by apply (Hx id n).
Qed.
Lemma remove_start P s pre j f r m1 m2 i id e post : reachable P s ->
  rlog s = pre ++ EvC (CvRet j (KStart id f) (RErr r)) :: m1 ++ EvC (CvCall j (KStart id f)) :: m2 ++ EvC (CvRet i (KStopRm id) (RRemoved e)) :: post ->
  exists d p1 p2, post = p1 ++ EvRemoved id d :: p2 /\ EvC (CvCall i (KStopRm id)) ∈ p2 /\
    (r = None \/ r = Some (EConst KRunnerDead) \/ exists f' d', EvKnown id f' d' ∈ m1 ++ m2 ++ p1).
Proof.
  intros Hr Hl. set (x := EvC (CvCall j (KStart id f))) in *. set (z := EvC (CvRet i _ _)) in *.
  assert (Hl1 : rlog s = (pre ++ EvC (CvRet j (KStart id f) (RErr r)) :: m1 ++ x :: m2) ++ z :: post).
  { rewrite Hl, <- (app_assoc pre). cbn. by rewrite <- (app_assoc m1). }
  destruct (stoprm_result P s _ _ _ _ _ Hr Hl1) as (g & w & d & p3 & p4 & E1 & E2 & _ & _ & _ & _ & Hrem).
  assert (EvRemoved id d ∈ p3) as Hr3.
  { rewrite E1 in Hrem. apply elem_of_app in Hrem as [H|[[=]|H]%elem_of_cons]; [done|]. exfalso. revert H.
    refine (removed_later P s ((pre ++ EvC (CvRet j (KStart id f) (RErr r)) :: m1 ++ x :: m2) ++ z :: p3) i id g w d p4 Hr _). rewrite Hl1, E1. symmetry. apply (app_assoc_reverse _ (z :: p3)). }
  destruct (elem_split _ _ Hr3) as (p1 & p5 & ->). set (lk := EvC (CvLookup i id _)) in *. set (p2 := p5 ++ lk :: p4).
  assert (Hp : post = p1 ++ EvRemoved id d :: p2) by (rewrite E1, <- (app_assoc p1); done). clear E1.
  exists d, p1, p2. split; [done|]. split; [subst p2; apply elem_of_app; right; by right|].
  destruct (known_dec (m1 ++ m2 ++ p1) id) as [(f' & d' & H)|Hn]; [right; right; by exists f', d'|].
  destruct (start_effect P s _ _ _ _ _ _ Hr Hl) as [->|(q1 & q2 & He & Hin)]; [auto|].
  left. assert (x ∉ m2 ++ z :: post) as Hx.
  { refine (call_once P s (pre ++ EvC (CvRet j (KStart id f) (RErr r)) :: m1) j _ _ Hr _ _). rewrite Hl. by rewrite <- (app_assoc pre). }
  destruct (unique_after x (EvAnswer j id f r) _ _ _ _ He ltac:(done) Hx Hin) as (c & -> & ->).
  rewrite He in Hl. set (q2 := c ++ x :: m2 ++ z :: post) in *.
  assert (Hl' : rlog s = (pre ++ EvC (CvRet j (KStart id f) (RErr r)) :: q1) ++ EvAnswer j id f r :: q2) by (rewrite Hl, <- (app_assoc pre); done).
  destruct (start_answer P s _ _ _ _ _ _ Hr Hl') as (H1 & _ & H3). destruct (stop_dec q2) as [Hs|Hs]; [by apply H1|]. apply H3; [done|].
  subst q2. rewrite Hp. assert (E : c ++ x :: m2 ++ z :: p1 ++ EvRemoved id d :: p2 = ((c ++ x :: m2) ++ z :: p1) ++ EvRemoved id d :: p2).
  { rewrite <- (app_assoc (c ++ x :: m2)), <- (app_assoc c). done. }
  rewrite E. apply unknown_stays; [|cbn; by rewrite bool_decide_eq_true_2].
  intros f1 d1 Hd. apply (Hn f1 d1). mem Hd.
Qed.
