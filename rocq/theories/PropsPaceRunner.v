(** C86, the runner's half: start calls for one id are paced by RestartDelay. *)
From stdpp Require Import gmap strings list.
From Coq Require Import ZArith Lia.
From Verif Require Import Err Runner RunnerSpec RunnerExample PaceSpec.
From Verif Require PaceRunner.

(** The later call is made by a goroutine created after the earlier call, which waited out its delay [d]. *)
Theorem C86_runner_spacing : forall P s l2 g2 id f2 t2 l1 g1 f1 t1 l0, reachable P s ->
  rlog s = l2 ++ EvStartCall g2 id f2 t2 :: l1 ++ EvStartCall g1 id f1 t1 :: l0 ->
  exists l1a l1b d t, l1 = l1a ++ EvSpawn g2 id f2 d t :: l1b /\ (t1 <= t)%Z /\ (t + d <= t2)%Z.
Proof. exact PaceRunner.spacing. Qed.
Print Assumptions C86_runner_spacing.

(** Between two acceptances of StartWorker for the id, start calls are at least RestartDelay apart. *)
Theorem C86_runner_rate : forall P s l2 mid l0 id a b, reachable P s -> rlog s = l2 ++ mid ++ l0 -> (forall f d, EvKnown id f d ∉ mid) ->
  (forall g f t, EvStartCall g id f t ∈ mid -> (a <= t <= b)%Z) ->
  0 < runner_starts mid id -> ((Z.of_nat (runner_starts mid id) - 1) * r_delay P <= b - a)%Z.
Proof. exact PaceRunner.runner_rate. Qed.
Print Assumptions C86_runner_rate.

Definition is_known (id : string) (ev : event) : bool := match ev with EvKnown id' _ _ => bool_decide (id' = id) | _ => false end.
Definition call_in (id : string) (a b : Z) (ev : event) : bool := match ev with EvStartCall _ id' _ t => negb (bool_decide (id' = id)) || ((a <=? t)%Z && (t <=? b)%Z) | _ => true end.
Lemma calls_in id a b log : forallb (call_in id a b) log = true -> forall g f t, EvStartCall g id f t ∈ log -> (a <= t <= b)%Z.
Proof.
  intros H g f t Hin. apply elem_of_list_In in Hin. rewrite forallb_forall in H. specialize (H _ Hin). cbn in H. rewrite bool_decide_eq_true_2 in H by done. cbn in H.
  apply andb_true_iff in H as [H1%Z.leb_le H2%Z.leb_le]. lia.
Qed.
Lemma not_known id log : existsb (is_known id) log = false -> forall f d, EvKnown id f d ∉ log.
Proof. intros H f d. eapply rx_absent; [exact H|]. cbn. by apply bool_decide_eq_true_2. Qed.
Lemma whole (k : nat) s : rlog s = [] ++ take k (rlog s) ++ drop k (rlog s).
Proof. cbn. by rewrite take_drop. Qed.
Lemma between (i j : nat) s ev ev' : rlog s !! i = Some ev -> drop (S i) (rlog s) !! j = Some ev' ->
  rlog s = later i s ++ ev :: take j (drop (S i) (rlog s)) ++ ev' :: drop (S j) (drop (S i) (rlog s)).
Proof. intros H H'. rewrite (take_drop_middle _ _ _ H'). by apply rx_split. Qed.

(** "a" fails twice: its start func is called at times 0, 3 and 8. *)
Definition rl_thrice : list label := rl_fail ++ [LCore (KTick 3); LCore (KFire 2)] ++ ret_ 2 12 ++ down_ 2 (Some (EUser 1)) ++ [LCore (KBegin 3); LCore (KTick 5); LCore (KFire 3)].
Example C86_runner_spacing_example : let s := rx_state rx rl_thrice in reachable rx s /\
  rlog s = later 0 s ++ EvStartCall 3 "a" 1 8 :: take 5 (drop 1 (rlog s)) ++ EvStartCall 2 "a" 1 3 :: drop 6 (drop 1 (rlog s)).
Proof. intros s. split; [rx_go|]. apply between; rx_go. Qed.
Example C86_runner_rate_example : let s := rx_state rx rl_thrice in let mid := take 24 (rlog s) in reachable rx s /\
  rlog s = [] ++ mid ++ drop 24 (rlog s) /\ (forall f d, EvKnown "a" f d ∉ mid) /\
  (forall g f t, EvStartCall g "a" f t ∈ mid -> (0 <= t <= 8)%Z) /\ runner_starts mid "a" = 3.
Proof. intros s mid. split; [rx_go|]. split; [apply whole|]. split; [apply not_known; rx_go|]. split; [apply calls_in; rx_go|rx_go]. Qed.
