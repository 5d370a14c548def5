(** An engine execution that never ends its attempts' contexts (C67). *)
From stdpp Require Import gmap strings list.
From Coq Require Import ZArith.
From RecordUpdate Require Import RecordSet.
From Verif Require Import Err Tomb Snapshot Engine EngineSpec.
Import RecordSetNotations.
Local Open Scope Z_scope.

(** A worker whose Start func always fails, with an error that is not fatal and an ErrorDelay of 3. *)
Definition lk_cfg : config := mkConfig (fun _ => false) (fun _ worst => worst) None 3 1 100.
Definition lk_env : env := mkEnv lk_cfg (fun _ => false) (fun _ n => String.length n) (fun _ d _ => d) (fun _ _ _ => None) (fun _ => false) (fun _ _ => 0%nat).
Definition lk_man : manifold := mkManifold [] 1 None None.
Definition lk_round (N : nat) : list label :=
  [LTick 3; LDelayFire N; LStartRet N (inr (EUser 1)); LExpire N; LStopped N].

(** The engine in the middle of attempt [N], whose goroutine is at [p]. *)
Definition lk_gen (N : nat) (G : gmap nat gor) (now : Z) (polls att rec : nat) (log : list event) : state :=
  mkState (tomb_go tomb_new) None {["db" := lk_man]} ∅
    {["db" := mkInfo true false (Some N) None None [] None 0 att rec]} true true G (S N) ∅ now polls log.
Definition lk_mid (N : nat) (x : bool) (p : pc) (now : Z) (polls att rec : nat) (gs : gmap nat gor) (log : list event) : state :=
  lk_gen N (<[N := mkGor "db" 1 (mkSnap ∅ ∅) x [] p]> gs) now polls att rec log.
Lemma lk_pc N x p p' now polls att rec gs log : set_pc N p' (lk_mid N x p now polls att rec gs log) = lk_mid N x p' now polls att rec gs log.
Proof.
  unfold lk_mid. change (lk_gen N (alter (fun r => r <| g_pc := p' |>) N (<[N := mkGor "db" 1 (mkSnap ∅ ∅) x [] p]> gs)) now polls att rec log
    = lk_gen N (<[N := mkGor "db" 1 (mkSnap ∅ ∅) x [] p']> gs) now polls att rec log). by rewrite alter_insert.
Qed.
Lemma lk_gor N x p now polls att rec gs log : s_gors (lk_mid N x p now polls att rec gs log) !! N = Some (mkGor "db" 1 (mkSnap ∅ ∅) x [] p).
Proof. apply lookup_insert. Qed.

Lemma lk_tick N z now polls att rec gs log : step lk_env (lk_mid N false (PDelay z) now polls att rec gs log) (LTick 3) =
  Some (lk_mid N false (PDelay z) (3 + now) polls att rec gs log).
Proof. reflexivity. Qed.
Lemma lk_fire N z now polls att rec gs log : z <= now -> step lk_env (lk_mid N false (PDelay z) now polls att rec gs log) (LDelayFire N) =
  Some (lk_mid N false PStart now polls att rec gs (EvStartCall N "db" 1 now :: log)).
Proof.
  intros Hz. cbn [step]. rewrite lk_gor, lk_pc. unfold lk_mid at 1, lk_gen at 1. cbn [s_now].
  replace (z <=? now) with true by (symmetry; by apply Z.leb_le). reflexivity.
Qed.
Lemma lk_ret N now polls att rec gs log r : step lk_env (lk_mid N false PStart now polls att rec gs log) (LStartRet N r) =
  Some (lk_mid N false (PReturned r) now polls att rec gs (EvStartRet N "db" r :: log)).
Proof. cbn [step]. by rewrite lk_gor, lk_pc. Qed.
Lemma lk_expire N now polls att rec gs log : step lk_env (lk_mid N false (PReturned (inr (EUser 1))) now polls att rec gs log) (LExpire N) =
  Some (lk_mid N true (PSendStopped (Some (EUser 1))) now polls att rec gs log).
Proof.
  cbn [step]. rewrite lk_gor. cbn [err_is]. rewrite <- (lk_pc N true (PReturned (inr (EUser 1)))). do 2 f_equal.
  unfold lk_mid. change (lk_gen N (alter (fun r => r <| g_expired := true |>) N (<[N := mkGor "db" 1 (mkSnap ∅ ∅) false [] (PReturned (inr (EUser 1)))]> gs)) now polls att rec log
    = lk_gen N (<[N := mkGor "db" 1 (mkSnap ∅ ∅) true [] (PReturned (inr (EUser 1)))]> gs) now polls att rec log). by rewrite alter_insert.
Qed.
Lemma lk_stopped N now polls att rec gs log : step lk_env (lk_mid N true (PSendStopped (Some (EUser 1))) now polls att rec gs log) (LStopped N) =
  Some (lk_mid (S N) false (PDelay (now + 3)) now (S (S (S polls))) (S att) (S rec) (<[N := mkGor "db" 1 (mkSnap ∅ ∅) true [] PGone]> gs)
    (EvAttempt (S N) "db" (mkSnap ∅ ∅) now 3 :: EvStopped N "db" (Some (EUser 1)) (Some (EUser 1)) now :: log)).
Proof.
  cbn [step]. rewrite lk_gor, lk_pc. unfold lk_mid at 3, lk_gen at 1.
  assert (forall a b c : info, ({["db" := a]} : gmap string info) = <["db" := a]> (<["db" := b]> {["db" := c]})) as Hm.
  { intros a b c. by rewrite !insert_singleton. }
  rewrite (Hm _ (mkInfo false false None None (Some (EUser 1)) [] None 0 att (S rec)) (mkInfo true false (Some N) None None [] None 0 att rec)).
  reflexivity.
Qed.

Lemma lk_round_run N z now polls att rec gs log : z <= 3 + now -> exists polls' att' rec' gs',
  run lk_env (lk_mid N false (PDelay z) now polls att rec gs log) (lk_round N) =
  Some (lk_mid (S N) false (PDelay (3 + now + 3)) (3 + now) polls' att' rec' gs'
    (EvAttempt (S N) "db" (mkSnap ∅ ∅) (3 + now) 3 :: EvStopped N "db" (Some (EUser 1)) (Some (EUser 1)) (3 + now)
     :: EvStartRet N "db" (inr (EUser 1)) :: EvStartCall N "db" 1 (3 + now) :: log)).
Proof.
  intros Hz. unfold lk_round. cbn [run]. rewrite lk_tick, lk_fire, lk_ret, lk_expire, lk_stopped by lia. eauto.
Qed.

Lemma lk_install : exists polls gs log, step lk_env init (LInstall "db" lk_man) = Some (lk_mid 0 false (PDelay 0) 0 polls 1 0 gs log).
Proof.
  exists 3%nat, ∅, [EvInstall "db" lk_man None; EvAttempt 0 "db" (mkSnap ∅ ∅) 0 0; EvInstalled "db" lk_man].
  unfold lk_mid, lk_gen.
  assert (forall a b : info, ({["db" := a]} : gmap string info) = <["db" := a]> {["db" := b]}) as Hm.
  { intros a b. by rewrite !insert_singleton. }
  rewrite (Hm _ info0). reflexivity.
Qed.

Fixpoint lk_rounds (N : nat) : list label :=
  match N with O => [LInstall "db" lk_man] | S k => lk_rounds k ++ lk_round k end.

Lemma lk_run_app E s l1 l2 s1 : run E s l1 = Some s1 -> run E s (l1 ++ l2) = run E s1 l2.
Proof.
  revert s. induction l1 as [|l l1 IH]; intros s H; simpl in *; [by injection H as ->|].
  destruct (step E s l); [|done]. by apply IH.
Qed.
Lemma lk_all N : exists z now polls att rec gs log,
  run lk_env init (lk_rounds N) = Some (lk_mid N false (PDelay z) now polls att rec gs log) /\ z <= 3 + now /\
  forall g, (g < N)%nat -> exists raw e t, EvStopped g "db" raw e t ∈ log.
Proof.
  induction N as [|N (z & now & polls & att & rec & gs & log & Hr & Hz & Hs)].
  - destruct lk_install as (polls & gs & log & H). exists 0, 0, polls, 1%nat, 0%nat, gs, log. split_and!; [|lia|lia].
    cbn [lk_rounds run]. by rewrite H.
  - destruct (lk_round_run N z now polls att rec gs log Hz) as (polls' & att' & rec' & gs' & H).
    eexists _, _, _, _, _, _, _. split; [cbn [lk_rounds]; rewrite (lk_run_app _ _ _ _ _ Hr); exact H|]. split; [lia|].
    intros g Hg. destruct (decide (g = N)) as [->|Hne].
    + eexists _, _, _. right. left.
    + destruct (Hs g ltac:(lia)) as (raw & e & t & Hin). exists raw, e, t. do 4 right. exact Hin.
Qed.

Lemma ctx_leak : exists E, forall N : nat, exists s, reachable E s /\ dying s = false /\
  forall g, (g < N)%nat -> (exists n raw e t, EvStopped g n raw e t ∈ s_log s) /\ ctx_done s g = false.
Proof.
  exists lk_env. intros N. destruct (lk_all N) as (z & now & polls & att & rec & gs & log & Hr & _ & Hs).
  eexists. split; [by eexists|]. split; [done|]. intros g Hg. split; [|done].
  destruct (Hs g Hg) as (raw & e & t & H). by exists "db", raw, e, t.
Qed.
