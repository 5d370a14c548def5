(** The engine's three tables: engine.go:172-179 [manifolds], [dependents] and [current]. *)
From stdpp Require Import gmap strings list.
From Coq Require Import ZArith Lia.
From RecordUpdate Require Import RecordSet.
From Verif Require Import Err Tomb Order Validate ValidateSpec ValidateProofs Snapshot Engine EngineSpec EngineMicro EngineSteps EngineLog EngineTablesSpec.
Import RecordSetNotations.

Record tabs (s : state) : Prop := {
  tb_key : forall x, is_Some (s_dependents s !! x) <-> ever_input (s_log s) x;
  tb_occ : forall x d m, s_manifolds s !! d = Some m -> count d (dependents_of s x) <= count x (m_inputs m)
}.

Lemma count_occ d l : count d l = occ d l.
Proof. induction l as [|y l IH]; [done|]. cbn [count]. by rewrite occ_cons, IH. Qed.

Lemma add_dependents_key n l ds x : is_Some (add_dependents n l ds !! x) <-> is_Some (ds !! x) \/ x ∈ l.
Proof.
  unfold add_dependents. revert ds. induction l as [|y l IH]; intros ds; simpl.
  { split; [auto|]. intros [?|H]; [done|]. by apply elem_of_nil in H. }
  rewrite IH, elem_of_cons. destruct (decide (x = y)) as [->|Hne].
  - rewrite lookup_insert. split; [auto|]. intros _. left. eauto.
  - rewrite lookup_insert_ne by done. tauto.
Qed.

Lemma uninstall_list_occ rank n l d : occ d (uninstall_list rank n l) <= occ d l.
Proof.
  pose proof (occ_nodup d _ (uninstall_list_nodup rank n l)) as H1.
  destruct (decide (d ∈ uninstall_list rank n l)) as [Hi|Hi].
  - apply uninstall_list_elem in Hi as [Hi _]. apply occ_elem in Hi. lia.
  - rewrite occ_elem in Hi. lia.
Qed.

Lemma ever_cons ev log x : ever_input (ev :: log) x <-> (exists d m, ev = EvInstalled d m /\ x ∈ m_inputs m) \/ ever_input log x.
Proof. unfold ever_input. setoid_rewrite elem_of_cons. naive_solver. Qed.

Lemma step_tabs E s D s' D' : inv s -> linv E s -> tabs s -> micro E s D s' D' -> tabs s'.
Proof.
  intros V L [Hk Ho] H.
  assert (forall x, s_manifolds s !! x = None -> forall y, x ∉ dependents_of s y) as Hno.
  { intros x Hx y Hin. apply (v_deps s V) in Hin as (m & Hm & _). congruence. }
  mnorm V; try (split; simpl; [intros y; rewrite ?ever_cons; rewrite Hk; naive_solver|exact Ho]).
  - split; simpl.
    + intros y. rewrite add_dependents_key, Hk, ever_cons. naive_solver.
    + intros y d m' Hd. unfold dependents_of in *. simpl. rewrite !count_occ, add_dependents_occ. destruct (decide (n = d)) as [<-|Hne].
      * rewrite lookup_insert in Hd. injection Hd as <-. specialize (Hno n H0 y). rewrite occ_elem in Hno. lia.
      * rewrite lookup_insert_ne in Hd by done. specialize (Ho y d m' Hd). rewrite !count_occ in Ho. lia.
  - split; simpl.
    + intros y. rewrite lookup_fmap, fmap_is_Some, Hk, ever_cons. naive_solver.
    + intros y d m' [Hne Hd]%lookup_delete_Some. unfold dependents_of in *. simpl. rewrite lookup_fmap. specialize (Ho y d m' Hd). rewrite !count_occ in *.
      destruct (s_dependents s !! y) as [l|]; simpl in *; [|done]. pose proof (uninstall_list_occ (e_rank E (s_polls s)) n l d). lia.
Qed.

Lemma reachable_tabs E s : reachable E s -> tabs s.
Proof.
  intros Hr. apply (reach_ind2 E (fun s D => tabs s)); [| |done].
  - split; [|done]. intros x. split; [by intros [? ?]|]. intros (d & m & H & _). by apply elem_of_nil in H.
  - intros s1 D1 s2 D2 V L _ _ T H. by apply (step_tabs E s1 D1 s2 D2).
Qed.

Lemma tables_current E s n : reachable E s -> s_manifolds s !! n = installed (s_log s) n /\ (is_Some (s_current s !! n) <-> is_Some (installed (s_log s) n)).
Proof. intros Hr. destruct (reachable_linv E s Hr) as [V L]. rewrite (l_inst E s L). split; [done|apply (v_dom s V)]. Qed.
Lemma tables_dependents E s x d : reachable E s ->
  (exists l, s_dependents s !! x = Some l /\ d ∈ l) <-> exists m, installed (s_log s) d = Some m /\ x ∈ m_inputs m.
Proof.
  intros Hr. destruct (reachable_linv E s Hr) as [V L]. rewrite (l_inst E s L). rewrite <- (v_deps s V). unfold dependents_of.
  destruct (s_dependents s !! x) as [l|]; simpl; [naive_solver|]. split; [naive_solver|]. intros H. by apply elem_of_nil in H.
Qed.
Lemma tables_count E s x d m l : reachable E s -> installed (s_log s) d = Some m -> s_dependents s !! x = Some l -> count d l <= count x (m_inputs m).
Proof.
  intros Hr Hm Hl. destruct (reachable_linv E s Hr) as [V L]. rewrite (l_inst E s L) in Hm. pose proof (tb_occ s (reachable_tabs E s Hr) x d m Hm) as H.
  unfold dependents_of in H. by rewrite Hl in H.
Qed.
Lemma tables_keys E s x : reachable E s -> is_Some (s_dependents s !! x) <-> ever_input (s_log s) x.
Proof. intros Hr. apply (tb_key s (reachable_tabs E s Hr)). Qed.
