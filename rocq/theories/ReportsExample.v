(** Concrete reports, for the Examples beside the theorems of C82. *)
From stdpp Require Import gmap strings list relations.
From Verif Require Import Err Tomb Tree TreeSpec TreeProofs TreeFinish TreeExample Reports ReportsSpec.
From Verif Require Snapshot Engine EngineExample Runner RunnerExample Catacomb.

(** As in TreeExample.v, but the worker of the engine has a Report method. *)
Notation rp_up := (
  [FNew 0 (NEngine EngineExample.ex_env Engine.init); en (Engine.LInstall "db" EngineExample.m_db); en (Engine.LDelayFire 0);
   FNew 2 (NRunner RunnerExample.rx Runner.init); FNew 3 (NPlain false None); FNew 1 (NCatacomb 7 Catacomb.init); FStep 1 (LCatacomb (Catacomb.LInvoke 0 tx_plan)) [2; 3]] ++
  replicate 7 (ca (Catacomb.LInv 0)) ++
  [FStep 0 (LEngine (Engine.LStartRet 0 (inl (Snapshot.WExt 6)))) [1]; en (Engine.LExpire 0); en (Engine.LStarted 0)] ++ tx_runner).
(** Call 0 is Report on the engine: it asks 1, which asks 2 and 3. *)
Notation rp_down := (map RForest rp_up ++ [RCall 0 0; REnter 0 []; RAsk 0 0; REnter 0 [0; 1]; RAsk 0 0]).
(** Meanwhile call 1, on the runner, comes first, and the engine is killed. *)
Notation rp_mid := (rp_down ++ [RCall 1 2; REnter 1 []; RForest (FKill 0)]).
(** Everybody answers. *)
Notation rp_end := (rp_mid ++ [RAsk 1 0; REnter 1 []; RLeave 1; RLeave 1; REnter 0 []; RAsk 0 0; REnter 0 []; RLeave 0; RLeave 0; RAsk 0 1; REnter 0 []; RLeave 0; RLeave 0; RLeave 0]).
Definition rp (ls : list rlabel) : rstate := default rinit (rrun rinit ls).
Definition rp_ok (ls : list rlabel) : bool := match rrun rinit ls with Some _ => true | None => false end.
Lemma rp_run ls : rp_ok ls = true -> rrun rinit ls = Some (rp ls).
Proof. unfold rp_ok, rp. by destruct (rrun rinit ls). Qed.
Lemma rp_fok : Forall rok rp_end.
Proof.
  rewrite !Forall_app. split_and!; try (by repeat constructor).
Qed.
Definition rp_rank (n : nat) : nat := match n with 0 => 3 | 1 => 2 | 2 => 1 | _ => 0 end.
(** Who is asked: the worker numbers in the report, and below. *)
Fixpoint shape (t : rtree) : list (list nat) :=
  match t with RT _ _ kids => map fst kids :: flat_map (fun x => shape x.2) kids end.
Lemma rp_ranked_check F : forallb (fun x => rp_rank x.2 <? rp_rank x.1.1) (map_to_list (f_link F)) = true -> forall n k c, f_link F !! (n, k) = Some c -> rp_rank c < rp_rank n.
Proof. intros H n k c Hc. apply elem_of_map_to_list, elem_of_list_In in Hc. rewrite forallb_forall in H. apply H in Hc. by apply Nat.ltb_lt in Hc. Qed.
(** A runner whose worker is itself. Call 0 is Report. *)
Notation rp_self := (map RForest ([FNew 0 (NRunner RunnerExample.rx Runner.init)] ++ map (fun l => FStep 0 (LRunner l) []) (RunnerExample.start_ 0 "a" 1) ++
  [FStep 0 (LRunner (Runner.LCore (Runner.KBegin 0))) []; FStep 0 (LRunner (Runner.LCore (Runner.KStartRet 0 (inl 10)))) [0];
   FStep 0 (LRunner (Runner.LCore (Runner.KRecvStarted 0))) []; FStep 0 (LRunner RunnerExample.A) []; FStep 0 (LRunner RunnerExample.A) []]) ++ [RCall 0 0; REnter 0 []; RAsk 0 0]).
Lemma rp_self_fok : Forall rok rp_self.
Proof. rewrite !Forall_app. split_and!; by repeat constructor. Qed.
Lemma rp_app ls : forall R ls', rrun R (ls ++ ls') = match rrun R ls with Some R' => rrun R' ls' | None => None end.
Proof. induction ls as [|l ls IH]; intros R ls'; cbn; [done|]. destruct (rstep R l); [apply IH|done]. Qed.
Lemma rp_reach ls : rp_ok ls = true -> Forall rok ls -> rreachable (rp ls).
Proof. intros H1 H2. exists ls. split; [done|]. by apply rp_run. Qed.
Lemma rok_app ls ls' : Forall rok (ls ++ ls') -> Forall rok ls.
Proof. rewrite Forall_app. by intros [? _]. Qed.
Lemma rp_tree0 (c : option rpc) : match c with Some (Returned 0 (RT (Some (Engine.EStarted, None)) tb k)) => bool_decide (shape (RT None tb k) = [[0]; [0; 1]; [0]; []; []]) | _ => false end = true ->
  exists t, c = Some (Returned 0 t) /\ shape t = [[0]; [0; 1]; [0]; []; []] /\ exists tb k, t = RT (Some (Engine.EStarted, None)) tb k.
Proof. intros H. destruct c as [[| |[|] [[[[] []]|] tb k]]|]; try done. apply bool_decide_eq_true in H. eexists. split; [reflexivity|]. split; [exact H|]. eauto. Qed.
Lemma rp_tree1 (c : option rpc) : match c with Some (Returned 2 t) => bool_decide (shape t = [[0]; []]) | _ => false end = true -> exists t, c = Some (Returned 2 t) /\ shape t = [[0]; []].
Proof. intros H. destruct c as [[| |[|[|[|]]] t]|]; try done. apply bool_decide_eq_true in H. eauto. Qed.
Lemma rp_wait R : match r_calls R !! 0 with Some (Entering 2 [_; (_, f)]) => bool_decide (fr_node f = 0) | _ => false end = true ->
  (exists st, r_calls R !! 0 = Some (Entering 2 st)) /\ waits_in R 0 0.
Proof.
  intros Hc. unfold waits_in. destruct (r_calls R !! 0) as [[[|[|[|]]] [|? [|[k f] []]]| |]|]; try done. apply bool_decide_eq_true in Hc. split; [eauto|].
  exists k, f. split; [done|]. left. eexists _, _. split; [reflexivity|]. right. by left.
Qed.
Lemma rp_dying (c : option node) : match c with Some (NEngine E s) => t_dying (Engine.s_tomb s) | _ => false end = true -> exists E s, c = Some (NEngine E s) /\ t_dying (Engine.s_tomb s) = true.
Proof. destruct c as [[E s| | |]|]; try done. eauto. Qed.
