(** What the log of the runner says about its state. *)
From stdpp Require Import gmap strings list.
From Coq Require Import ZArith.
From RecordUpdate Require Import RecordSet.
From Verif Require Import Err Tomb Runner RunnerSpec RunnerInv.
Import RecordSetNotations.

(** ** Kill events in bulk *)
Lemma kae_ind (Q : list event -> Prop) m l log : Q log -> (forall g id w log', Q log' -> Q (EvKill g id w :: log')) -> Q (kill_all_events m l ++ log).
Proof.
  intros H0 Hs. induction l as [|id l IH]; cbn [kill_all_events app]; [done|].
  destruct (m !! id) as [i|]; [|done]. unfold kill_events. destruct (i_worker i) as [[g w]|]; [|done]. cbn. by apply Hs.
Qed.
Lemma ke_ind (Q : list event -> Prop) id i log : Q log -> (forall g id w log', Q log' -> Q (EvKill g id w :: log')) -> Q (kill_events id i ++ log).
Proof. intros H0 Hs. unfold kill_events. destruct (i_worker i) as [[g w]|]; [by apply Hs|done]. Qed.

Lemma known_kae m l log id : known (kill_all_events m l ++ log) id = known log id.
Proof. by apply (kae_ind (fun x => known x id = known log id)). Qed.
Lemma known_ke id' i log id : known (kill_events id' i ++ log) id = known log id.
Proof. by apply (ke_ind (fun x => known x id = known log id)). Qed.
Lemma spawn_kae m l log id : first_spawn (kill_all_events m l ++ log) id = first_spawn log id.
Proof. by apply (kae_ind (fun x => first_spawn x id = first_spawn log id)). Qed.
Lemma spawn_ke id' i log id : first_spawn (kill_events id' i ++ log) id = first_spawn log id.
Proof. by apply (ke_ind (fun x => first_spawn x id = first_spawn log id)). Qed.
Lemma charge_kae m l log id : in_charge (kill_all_events m l ++ log) id = in_charge log id.
Proof. by apply (kae_ind (fun x => in_charge x id = in_charge log id)). Qed.
Lemma charge_ke id' i log id : in_charge (kill_events id' i ++ log) id = in_charge log id.
Proof. by apply (ke_ind (fun x => in_charge x id = in_charge log id)). Qed.
Lemma asked_kae m l log id : stop_asked (kill_all_events m l ++ log) id = stop_asked log id.
Proof. by apply (kae_ind (fun x => stop_asked x id = stop_asked log id)). Qed.
Lemma asked_ke id' i log id : stop_asked (kill_events id' i ++ log) id = stop_asked log id.
Proof. by apply (ke_ind (fun x => stop_asked x id = stop_asked log id)). Qed.
Lemma final_kae P m l log : final_of P (kill_all_events m l ++ log) = final_of P log.
Proof. by apply (kae_ind (fun x => final_of P x = final_of P log)). Qed.
Lemma final_ke P id' i log : final_of P (kill_events id' i ++ log) = final_of P log.
Proof. by apply (ke_ind (fun x => final_of P x = final_of P log)). Qed.
Lemma in_ke id i log ev : ev ∈ kill_events id i ++ log <-> (exists g w, i_worker i = Some (g, w) /\ ev = EvKill g id w) \/ ev ∈ log.
Proof.
  unfold kill_events. rewrite elem_of_app. destruct (i_worker i) as [[g w]|].
  - rewrite elem_of_list_singleton. naive_solver.
  - rewrite elem_of_nil. naive_solver.
Qed.
Lemma in_kae (m : gmap string winfo) log ev : ev ∈ kill_all_events m (elements (dom m)) ++ log <->
  (exists id i g w, m !! id = Some i /\ i_worker i = Some (g, w) /\ ev = EvKill g id w) \/ ev ∈ log.
Proof.
  rewrite elem_of_app, kill_all_events_in. split; intros [H|H]; auto; left.
  - destruct H as (id & i & g & w & _ & H). eauto.
  - destruct H as (id & i & g & w & H & H'). exists id, i, g, w. split; [|done]. apply elem_of_elements, elem_of_dom. eauto.
Qed.

Lemma registered_ke id' i log id : registered log id' = i_worker i ->
  registered (kill_events id' i ++ log) id = if bool_decide (id' = id) then None else registered log id.
Proof. intros H. unfold kill_events. destruct (i_worker i) as [[g w]|]; cbn; case_bool_decide; subst; done. Qed.
Lemma registered_kae m l log id : (forall id, registered log id = match m !! id with Some i => i_worker i | None => None end) ->
  registered (kill_all_events m l ++ log) id = if bool_decide (id ∈ l) then None else registered log id.
Proof.
  intros H. induction l as [|id' l IH]; cbn [kill_all_events app]; [done|].
  rewrite <- app_assoc. destruct (decide (id' = id)) as [->|Hne].
  - rewrite (bool_decide_eq_true_2 (id ∈ id :: l)) by (by left). specialize (H id). destruct (m !! id) as [i|] eqn:Hi.
    + unfold kill_events. destruct (i_worker i) as [[g w]|] eqn:Hw; cbn.
      * by rewrite bool_decide_eq_true_2.
      * rewrite IH. case_bool_decide; congruence.
    + cbn. rewrite IH. case_bool_decide; congruence.
  - assert (registered ((match m !! id' with Some i => kill_events id' i | None => [] end) ++ kill_all_events m l ++ log) id
      = registered (kill_all_events m l ++ log) id) as ->.
    { destruct (m !! id') as [i|]; [|done]. unfold kill_events. destruct (i_worker i) as [[g w]|]; [|done]. cbn. by rewrite bool_decide_eq_false_2. }
    rewrite IH. destruct (decide (id ∈ l)).
    + rewrite !bool_decide_eq_true_2; [done|by right|done].
    + rewrite !bool_decide_eq_false_2; [done| |done]. rewrite elem_of_cons. naive_solver.
Qed.

(** ** Workers *)
Definition worker_log (P : rcfg) (c : core) : Prop := forall id,
  match c_workers c !! id with
  | None => known (c_log c) id = None /\ registered (c_log c) id = None /\ first_spawn (c_log c) id = None
  | Some i => (exists f, known (c_log c) id = Some (f, i_done i) /\ (i_start i = Some f \/ i_start i = None)) /\
      registered (c_log c) id = i_worker i /\ first_spawn (c_log c) id = Some (i_started i) /\ i_delay i = r_delay P
  end.
Lemma worker_log_reg P c : worker_log P c -> forall id, registered (c_log c) id = match c_workers c !! id with Some i => i_worker i | None => None end.
Proof. intros H id. specialize (H id). destruct (c_workers c !! id); naive_solver. Qed.

Lemma worker_log_trans P c c' : cinv c -> worker_log P c -> ctrans P c c' -> worker_log P c'.
Proof.
  intros V H HT. destruct HT; try exact H.
  - (* killall *) intros id. cbn. rewrite known_kae, spawn_kae, (registered_kae _ _ _ _ (worker_log_reg P c H)), lookup_fmap.
    pose proof (H id) as Hid. destruct (c_workers c !! id) as [i|] eqn:Hi; cbn.
    + rewrite bool_decide_eq_true_2 by (apply elem_of_elements, elem_of_dom; eauto). destruct Hid as ((f & Hf & _) & _ & Hs & Hd). eauto 10.
    + rewrite bool_decide_eq_false_2; [done|]. rewrite elem_of_elements, elem_of_dom. rewrite Hi. by intros [].
  - (* new *) intros id'. cbn. destruct (decide (id = id')) as [<-|Hne].
    + rewrite lookup_insert, !bool_decide_eq_true_2 by done. pose proof (H id) as Hid. rewrite H2 in Hid. destruct Hid as (_ & -> & ->). cbn. eauto 10.
    + rewrite lookup_insert_ne, !bool_decide_eq_false_2 by done. apply H.
  - (* stop *) intros id'. cbn. rewrite known_ke, spawn_ke. pose proof (H id) as Hid. rewrite H1 in Hid. destruct Hid as ((f & Hf & _) & Hr & Hs & Hd).
    rewrite registered_ke by done. destruct (decide (id = id')) as [<-|Hne].
    + rewrite lookup_insert, bool_decide_eq_true_2 by done. cbn. eauto 10.
    + rewrite lookup_insert_ne, bool_decide_eq_false_2 by done. apply H.
  - intros id'. cbn. destruct (decide (id = id')) as [<-|Hne].
    + rewrite lookup_insert, !bool_decide_eq_true_2 by done. pose proof (H id) as Hid. rewrite H2 in Hid. naive_solver.
    + rewrite lookup_insert_ne, !bool_decide_eq_false_2 by done. apply H.
  - intros id'. cbn. destruct (decide (id = id')) as [<-|Hne].
    + rewrite lookup_insert, !bool_decide_eq_true_2 by done. pose proof (H id) as Hid. rewrite H2 in Hid. cbn. naive_solver.
    + rewrite lookup_insert_ne, !bool_decide_eq_false_2 by done. apply H.
  - intros id'. cbn. destruct (decide (id = id')) as [<-|Hne].
    + rewrite lookup_delete, !bool_decide_eq_true_2 by done. done.
    + rewrite lookup_delete_ne, !bool_decide_eq_false_2 by done. apply H.
  - intros id'. assert (forall l, c_log c = l -> match delete id (c_workers c) !! id' with
      | Some i0 => (exists f0 : nat, known ((if c_dying c then [] else [EvStopAll]) ++ EvRemoved id (i_done i) :: EvDone g id (Some y) (c_now c) :: l) id' = Some (f0, i_done i0) /\ (i_start i0 = Some f0 \/ i_start i0 = None)) /\
         registered ((if c_dying c then [] else [EvStopAll]) ++ EvRemoved id (i_done i) :: EvDone g id (Some y) (c_now c) :: l) id' = i_worker i0 /\ first_spawn ((if c_dying c then [] else [EvStopAll]) ++ EvRemoved id (i_done i) :: EvDone g id (Some y) (c_now c) :: l) id' = Some (i_started i0) /\ i_delay i0 = r_delay P
      | None => known ((if c_dying c then [] else [EvStopAll]) ++ EvRemoved id (i_done i) :: EvDone g id (Some y) (c_now c) :: l) id' = None /\ registered ((if c_dying c then [] else [EvStopAll]) ++ EvRemoved id (i_done i) :: EvDone g id (Some y) (c_now c) :: l) id' = None /\ first_spawn ((if c_dying c then [] else [EvStopAll]) ++ EvRemoved id (i_done i) :: EvDone g id (Some y) (c_now c) :: l) id' = None end) as Hx; [|exact (Hx _ eq_refl)].
    intros l <-. destruct (decide (id = id')) as [<-|Hne].
    + rewrite lookup_delete. destruct (c_dying c); cbn; rewrite !bool_decide_eq_true_2 by done; done.
    + rewrite lookup_delete_ne by done. destruct (c_dying c); cbn; rewrite !bool_decide_eq_false_2 by done; apply H.
  - intros id'. cbn. destruct (decide (id = id')) as [<-|Hne].
    + rewrite lookup_insert, !bool_decide_eq_true_2 by done. pose proof (H id) as Hid. rewrite H2 in Hid. destruct Hid as (Hk & Hr & Hs & Hd). rewrite Hs. cbn. naive_solver.
    + rewrite lookup_insert_ne, !bool_decide_eq_false_2 by done. apply H.
  - intros id'. specialize (H id'). cbn. destruct (t_dead t); exact H.
Qed.
Lemma creach_worker_log P c : creach P c -> worker_log P c.
Proof.
  intros H. apply (creach_ind P (worker_log P)); [done| |done]. intros c1 c2 V I _ HT. by eapply worker_log_trans.
Qed.

(** ** Stopping *)
Definition stop_pending (c : core) (id : string) : Prop := c_loop c = LDo (AKill id) \/ c_loop c = LDo AKillAll.
Definition stop_log (c : core) : Prop :=
  (c_dying c = true <-> stopping_all (c_log c)) /\
  (c_dying c = true -> forall id, stop_asked (c_log c) id = true) /\
  (forall id, c_loop c = LDo (AKill id) -> stop_asked (c_log c) id = true) /\
  forall id i, c_workers c !! id = Some i ->
    (i_stopping i = true -> stop_asked (c_log c) id = true) /\
    (stop_asked (c_log c) id = true -> i_stopping i = true \/ stop_pending c id).

Lemma not_in_kae m l log ev : (forall g id w, ev <> EvKill g id w) -> ev ∈ kill_all_events m l ++ log <-> ev ∈ log.
Proof.
  intros H. rewrite elem_of_app, kill_all_events_in. split; [|auto]. intros [(id & i & g & w & _ & _ & _ & ->)|]; [|done]. by destruct (H g id w).
Qed.
Lemma not_in_ke id i log ev : (forall g id w, ev <> EvKill g id w) -> ev ∈ kill_events id i ++ log <-> ev ∈ log.
Proof. intros H. rewrite in_ke. split; [|auto]. intros [(g & w & _ & ->)|]; [|done]. by destruct (H g id w). Qed.

Lemma stopall_cons ev log : ev <> EvStopAll -> stopping_all (ev :: log) <-> stopping_all log.
Proof. unfold stopping_all. rewrite elem_of_cons. intros. naive_solver. Qed.

Lemma stop_log_trans P c c' : cinv c -> stop_log c -> ctrans P c c' -> stop_log c'.
Proof.
  intros V (S1 & S2 & S4 & S3) HT.
  assert (forall l p, c_loop c = l -> (forall id, l <> LDo (AKill id)) -> l <> LDo AKillAll ->
    forall id i, c_workers c !! id = Some i -> stop_asked (c_log c) id = true -> i_stopping i = true \/ stop_pending (set_loop p c) id) as S3'.
  { intros l p Hl Hn1 Hn2 id i Hi Ha. destruct (proj2 (S3 id i Hi) Ha) as [|[|]]; [by left| |]; naive_solver. }
  destruct HT; unfold stop_log, stop_pending in *; cbn -[stopping_all] in *; rewrite ?stopall_cons by done; try (by split_and!).
  - (* dying *) split_and!; [split; [by left|done]|done|done..|]. intros id i Hi. split; [done|]. auto.
  - split_and!; [done|done|done|]. intros id' i' Hi. destruct (S3 id' i' Hi). split; [done|]. intros Ha. by eapply S3'.
  - (* stopreq *) split_and!; [done|intros Hd id'; rewrite (S2 Hd); by case_bool_decide|intros ? [= ->]; by rewrite bool_decide_eq_true_2|]. intros id' i' Hi. destruct (S3 id' i' Hi) as [Ha Hb]. case_bool_decide as He.
    + subst. auto.
    + split; [done|]. intros Hs. by eapply S3'.
  - split_and!; [done|done|done|]. intros id' i' Hi. destruct (S3 id' i' Hi). split; [done|]. intros Ha. by eapply S3'.
  - split_and!; [done|done|done|]. intros id' i' Hi. destruct (S3 id' i' Hi). split; [done|]. intros Ha. by eapply S3'.
  - (* killall *) split_and!; [| |done|].
    + unfold stopping_all. by rewrite not_in_kae.
    + intros Hd id. rewrite asked_kae. auto.
    + intros id i. rewrite asked_kae, lookup_fmap, fmap_Some. intros (j & Hj & ->). cbn. split; [|auto]. intros _.
      apply S2. pose proof (ci_loop c V) as Hl. by rewrite H in Hl.
  - split_and!; [done|done|done|]. intros id' i' Hi. destruct (S3 id' i' Hi). split; [done|]. intros Ha. by eapply S3'.
  - split_and!; [done|done|done|]. intros id' i' Hi. destruct (S3 id' i' Hi). split; [done|]. intros Ha. by eapply S3'.
  - (* new *) split_and!; [done|congruence|done|]. intros id' i'. rewrite lookup_insert_Some. intros [[<- <-]|[Hne Hi]].
    + rewrite bool_decide_eq_true_2 by done. cbn. done.
    + rewrite bool_decide_eq_false_2 by done. destruct (S3 id' i' Hi). split; [done|]. intros Ha. by eapply S3'.
  - split_and!; [done|done|done|]. intros id' i' Hi. destruct (S3 id' i' Hi). split; [done|]. intros Ha. by eapply S3'.
  - split_and!; [done|done|done|]. intros id' i' Hi. destruct (S3 id' i' Hi) as [Ha Hb]. split; [done|]. intros Hs. left. destruct (Hb Hs) as [|[|]]; [done| |congruence]. congruence.
  - (* stop *) split_and!; [| |done|].
    + unfold stopping_all. by rewrite not_in_ke.
    + intros Hd id'. rewrite asked_ke. auto.
    + intros id' i'. rewrite asked_ke, lookup_insert_Some. intros [[<- <-]|[Hne Hi]].
      * cbn. split; [|auto]. intros _. by apply S4.
      * destruct (S3 id' i' Hi) as [Ha Hb]. split; [done|]. intros Hs. left. destruct (Hb Hs) as [|[|]]; [done| |congruence]. congruence.
  - split_and!; [done|done|done|]. intros id' i'. rewrite lookup_insert_Some. intros [[<- <-]|[Hne Hi]].
    + cbn. destruct (S3 id i H1) as [Ha Hb]. split; [done|]. intros Hs. by eapply S3'.
    + destruct (S3 id' i' Hi). split; [done|]. intros Ha. by eapply S3'.
  - split_and!; [done|done|done|]. intros id' i'. rewrite lookup_insert_Some. intros [[<- <-]|[Hne Hi]].
    + cbn. split; [|auto]. intros _. destruct H2 as [Hd|Hd]; [auto|]. by apply (S3 id i).
    + destruct (S3 id' i' Hi). split; [done|]. intros Ha. by eapply S3'.
  - split_and!; [done|done|done|]. intros id' i'. rewrite lookup_delete_Some. intros [Hne Hi].
    destruct (S3 id' i' Hi). split; [done|]. intros Ha. by eapply S3'.
  - (* fatal *) split_and!.
    + split; [|done]. intros _. unfold stopping_all. destruct (c_dying c) eqn:Hd; cbn; [|by left]. do 2 right. by apply S1.
    + intros _ id'. destruct (c_dying c) eqn:Hd; cbn; [|done]. auto.
    + intros id'. by destruct (c_dying c).
    + intros id' i'. rewrite lookup_delete_Some. intros [Hne Hi]. destruct (c_dying c) eqn:Hd; cbn.
      * destruct (S3 id' i' Hi) as [Ha Hb]. split; [done|]. intros Hs. by eapply S3'.
      * split; [done|]. auto.
  - split_and!; [done|done|done|]. intros id' i'. rewrite lookup_insert_Some. intros [[<- <-]|[Hne Hi]].
    + cbn. destruct (S3 id i H1) as [Ha Hb]. split; [done|]. intros Hs. by eapply S3'.
    + destruct (S3 id' i' Hi). split; [done|]. intros Ha. by eapply S3'.
  - split_and!; [done|done|done|]. intros id' i' Hi. destruct (S3 id' i' Hi). split; [done|]. intros Ha. by eapply S3'.
  - assert (forall l, stopping_all ((if t_dead t then [EvDead] else []) ++ l) <-> stopping_all l) as E1.
    { intros l. destruct (t_dead t); cbn; [by apply stopall_cons|done]. }
    assert (forall l id, stop_asked ((if t_dead t then [EvDead] else []) ++ l) id = stop_asked l id) as E2.
    { intros l id. by destruct (t_dead t). }
    rewrite E1. split_and!; [done|intros; rewrite E2; auto|done|]. intros id' i' Hi. rewrite !E2. destruct (S3 id' i' Hi). split; [done|]. intros Ha. by eapply S3'.
Qed.
Lemma creach_stop_log P c : creach P c -> stop_log c.
Proof.
  intros H. apply (creach_ind P stop_log); [|intros c1 c2 V I _ HT; by eapply stop_log_trans|done].
  split_and!; try done. split; [done|]. intros Hx. by apply elem_of_nil in Hx.
Qed.

(** ** The goroutine in charge *)
Definition charge_log (c : core) : Prop := forall id g, in_charge (c_log c) id = Some g <-> exists r, c_gors c !! g = Some r /\ w_id r = id /\ w_pc r <> WGone.
Lemma charge_put c g id f x p p' : c_gors c !! g = Some (mkWGor id f x p) -> p <> WGone -> p' <> WGone ->
  forall id' g', (exists r, c_gors c !! g' = Some r /\ w_id r = id' /\ w_pc r <> WGone) <->
                 (exists r, <[g := mkWGor id f x p']> (c_gors c) !! g' = Some r /\ w_id r = id' /\ w_pc r <> WGone).
Proof.
  intros Hg Hp Hp' id' g'. destruct (decide (g = g')) as [<-|Hne].
  - rewrite lookup_insert, Hg. split; intros (r & [= <-] & Hi & _); eexists; (split; [reflexivity|]); done.
  - by rewrite lookup_insert_ne.
Qed.
Lemma charge_log_trans P c c' : cinv c -> charge_log c -> ctrans P c c' -> charge_log c'.
Proof.
  intros V H HT. destruct HT; try exact H;
    try (intros id0 g0; cbn; (etransitivity; [apply H|]); by eapply charge_put).
  - intros id g. cbn. rewrite charge_kae. apply H.
  - (* new *) pose proof (fresh_next c V) as Hf. intros id' g'. cbn. case_bool_decide as He.
    + subst id'. split.
      * intros [= <-]. exists (mkWGor id f (Some i) (WBegin 0)). by rewrite lookup_insert.
      * intros (r & Hr & Hi & Hg). apply lookup_insert_Some in Hr as [[<- <-]|[Hne Hr]]; [done|].
        destruct (proj2 (ci_act c V id)) as [n Hn]; [eauto|]. congruence.
    + rewrite (H id' g'). split; intros (r & Hr & Hi & Hg).
      * exists r. rewrite lookup_insert_ne; [done|]. intros <-. congruence.
      * apply lookup_insert_Some in Hr as [[<- <-]|[Hne Hr]]; [done|]. eauto.
  - intros id' g. cbn. rewrite charge_ke. apply H.
  - (* remove *) intros id' g'. cbn. case_bool_decide as He.
    + subst id'. split; [done|]. intros (r & Hr & Hi & Hg). apply lookup_insert_Some in Hr as [[<- <-]|[Hne Hr]]; [done|].
      destruct Hne. by eapply (ci_uniq c V g g').
    + rewrite (H id' g'). split; intros (r & Hr & Hi & Hg).
      * exists r. rewrite lookup_insert_ne; [done|]. intros <-. rewrite H1 in Hr. injection Hr as <-. done.
      * apply lookup_insert_Some in Hr as [[<- <-]|[Hne Hr]]; [done|]. eauto.
  - (* fatal *) intros id' g'. cbn. assert (in_charge ((if c_dying c then [] else [EvStopAll]) ++ EvRemoved id (i_done i) :: EvDone g id (Some y) (c_now c) :: c_log c) id'
        = if bool_decide (id = id') then None else in_charge (c_log c) id') as -> by (by destruct (c_dying c)).
    case_bool_decide as He.
    + subst id'. split; [done|]. intros (r & Hr & Hi & Hg). apply lookup_insert_Some in Hr as [[<- <-]|[Hne Hr]]; [done|].
      destruct Hne. by eapply (ci_uniq c V g g').
    + rewrite (H id' g'). split; intros (r & Hr & Hi & Hg).
      * exists r. rewrite lookup_insert_ne; [done|]. intros <-. rewrite H1 in Hr. injection Hr as <-. done.
      * apply lookup_insert_Some in Hr as [[<- <-]|[Hne Hr]]; [done|]. eauto.
  - (* restart *) pose proof (fresh_next c V) as Hf. assert (g <> c_next c) as Hgn by congruence.
    intros id' g'. cbn. case_bool_decide as He.
    + subst id'. split.
      * intros [= <-]. exists (mkWGor id f' None (WBegin (i_delay i))). by rewrite lookup_insert.
      * intros (r & Hr & Hi & Hg). apply lookup_insert_Some in Hr as [[<- <-]|[Hne Hr]]; [done|].
        apply lookup_insert_Some in Hr as [[<- <-]|[Hne' Hr]]; [done|]. destruct Hne'. by eapply (ci_uniq c V g g').
    + rewrite (H id' g'). split; intros (r & Hr & Hi & Hg).
      * exists r. rewrite lookup_insert_ne by congruence. rewrite lookup_insert_ne; [done|]. intros <-. rewrite H1 in Hr. injection Hr as <-. done.
      * apply lookup_insert_Some in Hr as [[<- <-]|[Hne Hr]]; [done|].
        apply lookup_insert_Some in Hr as [[<- <-]|[Hne' Hr]]; [done|]. eauto.
  - intros id g. specialize (H id g). cbn. by destruct (t_dead t).
  - intros id0 g0. cbn. etransitivity; [apply H|]. eapply charge_put; [done|done|]. by destruct r.
Qed.
Lemma creach_charge_log P c : creach P c -> charge_log c.
Proof.
  intros H. apply (creach_ind P charge_log); [|intros c1 c2 V I _ HT; by eapply charge_log_trans|done].
  intros id g. cbn. split; [done|]. intros (r & Hr & _). by rewrite lookup_empty in Hr.
Qed.

(** ** The tomb and the final error *)
Definition final_log (P : rcfg) (c : core) : Prop := c_final c = final_of P (c_log c).
Lemma final_log_trans P c c' : final_log P c -> ctrans P c c' -> final_log P c'.
Proof.
  unfold final_log. intros H HT. destruct HT; cbn; rewrite ?final_kae, ?final_ke; try exact H.
  - destruct e; [|done]. cbn. by rewrite H3.
  - destruct (c_dying c); cbn; rewrite H, H3; done.
  - destruct e as [y|]; [|done]. cbn. unfold removes in H3. by destruct (r_isFatal P y).
  - by destruct (t_dead t).
Qed.
Lemma creach_final_log P c : creach P c -> final_log P c.
Proof. intros H. apply (creach_ind P (final_log P)); [done|intros c1 c2 V I _ HT; by eapply final_log_trans|done]. Qed.

Definition ended_tomb (t : tomb) (final : option err) (killed : Prop) : Prop :=
  (t_dead t = true /\ t_panic t = false /\ t_reason t = Reason final /\ final <> Some ETombDying /\ final <> Some ETombStillAlive) \/
  (t_dead t = true /\ t_panic t = false /\ t_reason t = Reason None /\ final = Some ETombDying /\ killed) \/
  (t_dead t = false /\ t_panic t = true /\ (final = Some ETombStillAlive \/ final = Some ETombDying)).
Definition tomb_log (c : core) : Prop :=
  (EvKilled ∈ c_log c -> t_dying (c_tomb c) = true) /\
  (c_loop c <> LEnded -> t_dying (c_tomb c) = true -> EvKilled ∈ c_log c) /\
  (t_dead (c_tomb c) = true <-> EvDead ∈ c_log c) /\
  (c_loop c = LEnded -> ended_tomb (c_tomb c) (c_final c) (EvKilled ∈ c_log c)).
Lemma ended_kill t f (K K' : Prop) : ended_tomb t f K -> t_dying t = false -> (K -> K') -> ended_tomb (t <| t_reason := Reason None |>) f K'.
Proof.
  intros [(H1 & H2 & H3 & H4)|[(H1 & H2 & H3 & H4)|(H1 & H2 & H3)]] Hd HK.
  - unfold t_dying in Hd. by rewrite H3 in Hd.
  - right. left. cbn. naive_solver.
  - right. right. done.
Qed.
Lemma ended_done t f (K : Prop) : (t_reason t = StillAlive \/ t_reason t = Reason None) -> t_alive t = 1 -> t_dead t = false -> t_panic t = false ->
  (t_dying t = true -> K) -> ended_tomb (tomb_done t f) f K.
Proof.
  destruct t as [rs al dd pn]. cbn. intros Hr -> -> -> HK. unfold ended_tomb, tomb_done, tomb_kill. unfold t_dying in HK.
  destruct f as [[]|], Hr as [-> | ->]; cbn in *; auto 10.
  all: left; split_and!; done.
Qed.
Lemma ended_mono t f (K K' : Prop) : ended_tomb t f K -> (K -> K') -> ended_tomb t f K'.
Proof. unfold ended_tomb. tauto. Qed.

Lemma in_cons_ne {A} (x y : A) l : x <> y -> x ∈ y :: l <-> x ∈ l.
Proof. rewrite elem_of_cons. naive_solver. Qed.
Lemma tomb_log_frame c c' : tomb_log c -> c_tomb c' = c_tomb c -> (c_loop c = LEnded -> c_loop c' = LEnded /\ c_final c' = c_final c) ->
  (c_loop c' = LEnded -> c_loop c = LEnded) ->
  (EvKilled ∈ c_log c' <-> EvKilled ∈ c_log c) -> (EvDead ∈ c_log c' <-> EvDead ∈ c_log c) -> tomb_log c'.
Proof.
  intros (T1 & T2 & T3 & T4) E1 E2 E3 E4 E5. unfold tomb_log. rewrite E1. split_and!.
  - intros H. apply T1, E4, H.
  - intros H Hd. apply E4, T2; [|done]. intros Hl. by apply H, E2.
  - by rewrite E5.
  - intros H. apply E3 in H. destruct (E2 H) as [_ ->]. eapply ended_mono; [by apply T4|apply E4].
Qed.
Ltac tl_frame H := refine (tomb_log_frame _ _ H _ _ _ _ _);
    [reflexivity
    |first [ intros Hx; split; [exact Hx|reflexivity] | cbn; congruence ]
    |first [ intros Hx; exact Hx | cbn; congruence ]| |].
Lemma tomb_log_trans P c c' : cinv c -> tomb_log c -> ctrans P c c' -> tomb_log c'.
Proof.
  intros V H HT. destruct HT.
  - exact H.
  - destruct H as (T1 & T2 & T3 & T4). unfold tomb_log; cbn -[elem_of]. rewrite (in_cons_ne EvDead) by done. split_and!; [done|by left|exact T3|].
    intros Hl. specialize (T4 Hl). eapply ended_kill; [done|done|]. by right.
  - tl_frame H; reflexivity.
  - tl_frame H; apply in_cons_ne; discriminate.
  - tl_frame H; reflexivity.
  - tl_frame H; apply in_cons_ne; discriminate.
  - tl_frame H; apply in_cons_ne; discriminate.
  - tl_frame H; reflexivity.
  - tl_frame H; apply in_cons_ne; discriminate.
  - tl_frame H; reflexivity.
  - tl_frame H; reflexivity.
  - tl_frame H; apply not_in_kae; discriminate.
  - tl_frame H; apply in_cons_ne; discriminate.
  - tl_frame H; apply in_cons_ne; discriminate.
  - tl_frame H; cbn -[elem_of]; rewrite !in_cons_ne by discriminate; reflexivity.
  - tl_frame H; reflexivity.
  - tl_frame H; reflexivity.
  - tl_frame H; apply not_in_ke; discriminate.
  - tl_frame H; apply in_cons_ne; discriminate.
  - tl_frame H; cbn -[elem_of]; rewrite !in_cons_ne by discriminate; reflexivity.
  - tl_frame H; cbn -[elem_of]; rewrite !in_cons_ne by discriminate; reflexivity.
  - refine (tomb_log_frame _ _ H _ _ _ _ _); [reflexivity|congruence|cbn; by destruct (c_dying c)| |]; cbn -[elem_of]; destruct (c_dying c); cbn [app]; rewrite !in_cons_ne by discriminate; reflexivity.
  - tl_frame H; cbn -[elem_of]; rewrite !in_cons_ne by discriminate; reflexivity.
  - tl_frame H; reflexivity.
  - destruct H as (T1 & T2 & T3 & T4).
    destruct (ci_tomb c V) as (Hr & Ha & Hd & Hp); [congruence|]. destruct (tomb_done_last (c_tomb c) (c_final c) Hr Ha Hd Hp) as (E1 & E2 & E3).
    assert (EvKilled ∈ (if t_dead t then [EvDead] else []) ++ c_log c <-> EvKilled ∈ c_log c) as E.
    { destruct (t_dead t); cbn [app]; [by rewrite in_cons_ne|done]. }
    fold t in E1, E2, E3. unfold tomb_log; cbn -[elem_of app]. split; [|split; [|split]].
    + intros Hk. apply E2, T1, E, Hk.
    + intros Hx. by destruct Hx.
    + destruct (t_dead t); cbn [app]; [split; [by left|done]|]. rewrite <- T3, Hd. done.
    + intros _. apply (ended_done (c_tomb c) (c_final c)); [exact Hr|exact Ha|exact Hd|exact Hp|]. intros Hdy. apply E, T2; [congruence|exact Hdy].
  - tl_frame H; reflexivity.
  - tl_frame H; apply in_cons_ne; discriminate.
  - tl_frame H; apply in_cons_ne; discriminate.
  - tl_frame H; reflexivity.
  - tl_frame H; apply in_cons_ne; discriminate.
  - tl_frame H; apply in_cons_ne; discriminate.
  - tl_frame H; reflexivity.
  - tl_frame H; reflexivity.
Qed.
Lemma creach_tomb_log P c : creach P c -> tomb_log c.
Proof.
  intros H. apply (creach_ind P tomb_log); [|intros c1 c2 V I _ HT; by eapply tomb_log_trans|done].
  split; [|split; [|split]]; [| | |done].
  - intros H1. by apply elem_of_nil in H1.
  - done.
  - split; [done|]. intros H1. by apply elem_of_nil in H1.
Qed.
