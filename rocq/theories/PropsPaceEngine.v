(** C86: restarts are paced. Two Start calls for one name are separated by the delay of the later attempt, counted from a moment
    not before the earlier call; so no window of time contains more Start calls than its length allows. *)
From stdpp Require Import gmap strings list.
From Coq Require Import ZArith Lia.
From Verif Require Import Err Snapshot Engine EngineSpec EngineExample PaceSpec.
From Verif Require PaceEngine.

(** The later call belongs to an attempt made after the earlier call, and waited out that attempt's delay [d]. *)
Theorem C86_engine_spacing : forall E s l2 g2 n f2 t2 l1 g1 f1 t1 l0, reachable E s ->
  s_log s = l2 ++ EvStartCall g2 n f2 t2 :: l1 ++ EvStartCall g1 n f1 t1 :: l0 ->
  exists l1a l1b sn t d, l1 = l1a ++ EvAttempt g2 n sn t d :: l1b /\ (t1 <= t)%Z /\ (t + d <= t2)%Z.
Proof. exact PaceEngine.spacing. Qed.
Print Assumptions C86_engine_spacing.

(** If every delay computed from a positive ErrorDelay or BounceDelay is at least [delta], then a stretch of history in which the
    name is not installed anew, and whose Start calls for it fall in [a, b], has at most 1 + (b - a) / delta of them. *)
Theorem C86_engine_rate : forall E s l2 mid l0 n delta a b, reachable E s -> s_log s = l2 ++ mid ++ l0 -> (forall m, EvInstalled n m ∉ mid) ->
  (0 < c_errorDelay (e_cfg E))%Z -> (0 < c_bounceDelay (e_cfg E))%Z -> (forall g base count, (0 < base)%Z -> (delta <= e_delay E g base count)%Z) ->
  (forall g f t, EvStartCall g n f t ∈ mid -> (a <= t <= b)%Z) ->
  0 < engine_starts mid n -> ((Z.of_nat (engine_starts mid n) - 1) * delta <= b - a)%Z.
Proof. exact PaceEngine.engine_rate_positive. Qed.
Print Assumptions C86_engine_rate.

Definition is_install (n : string) (ev : event) : bool := match ev with EvInstalled n' _ => bool_decide (n' = n) | _ => false end.
Definition call_in (n : string) (a b : Z) (ev : event) : bool := match ev with EvStartCall _ n' _ t => negb (bool_decide (n' = n)) || ((a <=? t)%Z && (t <=? b)%Z) | _ => true end.
Lemma calls_in n a b log : forallb (call_in n a b) log = true -> forall g f t, EvStartCall g n f t ∈ log -> (a <= t <= b)%Z.
Proof.
  intros H g f t Hin. apply elem_of_list_In in Hin. rewrite forallb_forall in H. specialize (H _ Hin). cbn in H. rewrite bool_decide_eq_true_2 in H by done. cbn in H.
  apply andb_true_iff in H as [H1%Z.leb_le H2%Z.leb_le]. lia.
Qed.
Lemma not_installed n log : existsb (is_install n) log = false -> forall m, EvInstalled n m ∉ log.
Proof. intros H m. eapply ex_absent; [exact H|]. cbn. by apply bool_decide_eq_true_2. Qed.
Lemma whole (k : nat) s : s_log s = [] ++ take k (s_log s) ++ drop k (s_log s).
Proof. cbn. by rewrite take_drop. Qed.
Lemma between (i j : nat) s ev ev' : s_log s !! i = Some ev -> drop (S i) (s_log s) !! j = Some ev' ->
  s_log s = later i s ++ ev :: take j (drop (S i) (s_log s)) ++ ev' :: drop (S j) (drop (S i) (s_log s)).
Proof. intros H H'. rewrite (take_drop_middle _ _ _ H'). by apply ex_split. Qed.

Example C86_engine_spacing_example : let s := ex_state ex_env ls_again in reachable ex_env s /\
  s_log s = later 3 s ++ EvStartCall 4 "api" 2 12 :: take 8 (drop 4 (s_log s)) ++ EvStartCall 3 "api" 2 2 :: drop 9 (drop 4 (s_log s)).
Proof. intros s. split; [apply ex_reach; ex_go|]. apply between; ex_go. Qed.
(** Three Start calls of "api" in the window [0, 12]. *)
Example C86_engine_rate_example : let s := ex_state ex_env ls_again in let mid := take 26 (s_log s) in reachable ex_env s /\
  s_log s = [] ++ mid ++ drop 26 (s_log s) /\ (forall m, EvInstalled "api" m ∉ mid) /\ (0 < c_errorDelay (e_cfg ex_env))%Z /\ (0 < c_bounceDelay (e_cfg ex_env))%Z /\
  (forall g base count, (0 < base)%Z -> (1 <= e_delay ex_env g base count)%Z) /\
  (forall g f t, EvStartCall g "api" f t ∈ mid -> (0 <= t <= 12)%Z) /\ engine_starts mid "api" = 3.
Proof.
  intros s mid. split; [apply ex_reach; ex_go|]. split; [apply whole|]. split; [apply not_installed; ex_go|]. split; [ex_go|]. split; [ex_go|].
  split; [intros g base count H; cbn; lia|]. split; [apply calls_in; ex_go|ex_go].
Qed.
