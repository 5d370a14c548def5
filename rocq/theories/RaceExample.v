(** Executions used by PropsRace.v, and a way to see that two events are not ordered. *)
From stdpp Require Import gmap strings list relations.
From Coq Require Import Lia.
From Verif Require Import Race RaceSpec RaceProgs.

#[global] Instance act_eq_dec : EqDecision act.
Proof. solve_decision. Defined.
Definition parts (e : nat * act) : list nat := e.1 :: match e.2 with AMeet u => [u] | _ => [] end.
Definition edgeb (tr : trace) (i j : nat) : bool :=
  bool_decide (i < j) &&
  match tr !! i, tr !! j with
  | Some e, Some e' =>
    existsb (fun t => bool_decide (t ∈ parts e')) (parts e) ||
    match e.2 with AGo t => bool_decide (t ∈ parts e') | AUnlock m => bool_decide (e'.2 = ALock m) | AClose c => bool_decide (e'.2 = AClosed c) | _ => false end
  | _, _ => false
  end.
Lemma parts_part t e : part t e <-> t ∈ parts e.
Proof.
  destruct e as [u a]. unfold part, parts. cbn. rewrite elem_of_cons. destruct a; cbn; rewrite ?elem_of_nil, ?elem_of_list_singleton; naive_solver.
Qed.
Lemma edgeb_edge tr i j : edge tr i j -> edgeb tr i j = true.
Proof.
  intros (Hij & e & e' & He & He' & H). unfold edgeb. rewrite He, He'. apply andb_true_iff. split; [by apply bool_decide_eq_true|].
  apply orb_true_iff. destruct H as [(t & H1 & H2)|[(t & H1 & H2)|[(m & H1 & H2)|(c & H1 & H2)]]].
  - left. apply existsb_exists. exists t. split; [apply elem_of_list_In; by apply parts_part|]. apply bool_decide_eq_true. by apply parts_part.
  - right. rewrite H1. apply bool_decide_eq_true. by apply parts_part.
  - right. rewrite H1. by apply bool_decide_eq_true.
  - right. rewrite H1. by apply bool_decide_eq_true.
Qed.
(** [S] is closed under happens-before. *)
Definition upclosed (tr : trace) (S : list nat) : bool :=
  forallb (fun i => forallb (fun j => negb (edgeb tr i j) || bool_decide (j ∈ S)) (seq 0 (length tr))) S.
Lemma upclosed_hb tr S i j : upclosed tr S = true -> i ∈ S -> hb tr i j -> j ∈ S.
Proof.
  intros HS Hi H. induction H as [i j H|i j k H _ IH].
  - unfold upclosed in HS. rewrite forallb_forall in HS. specialize (HS i). rewrite forallb_forall in HS.
    specialize (HS ltac:(by apply elem_of_list_In) j). pose proof H as (_ & e & e' & _ & He' & _). apply lookup_lt_Some in He'.
    specialize (HS ltac:(apply in_seq; lia)). apply edgeb_edge in H. rewrite H in HS. cbn in HS. by apply bool_decide_eq_true in HS.
  - apply IH. unfold upclosed in HS. rewrite forallb_forall in HS. specialize (HS i). rewrite forallb_forall in HS.
    specialize (HS ltac:(by apply elem_of_list_In) j). pose proof H as (_ & e & e' & _ & He' & _). apply lookup_lt_Some in He'.
    specialize (HS ltac:(apply in_seq; lia)). apply edgeb_edge in H. rewrite H in HS. cbn in HS. by apply bool_decide_eq_true in HS.
Qed.
Lemma hb_lt tr i j : hb tr i j -> i < j.
Proof. intros H. induction H as [i j [H _]|i j k [H _] _ IH]; lia. Qed.
Lemma not_ordered tr S i j : upclosed tr S = true -> i ∈ S -> j ∉ S -> i < j -> ~ (hb tr i j \/ hb tr j i).
Proof. intros HS Hi Hj Hij [H|H]; [by apply Hj; eapply upclosed_hb|apply hb_lt in H; lia]. Qed.

Definition mx (P : prog) (ls : list (nat * nat)) : mstate := default (minit P) (mrun (minit P) ls).
Definition mx_ok (P : prog) (ls : list (nat * nat)) : bool := match mrun (minit P) ls with Some _ => true | None => false end.
Lemma mx_reach P ls : mx_ok P ls = true -> mreachable P (mx P ls).
Proof. unfold mx_ok, mx. destruct (mrun (minit P) ls) as [x|] eqn:H; [|done]. intros _. by exists ls. Qed.

Definition times (n : nat) (x : nat * nat) : list (nat * nat) := repeat x n.

(** Runner: client 2 starts a worker, the loop (1) registers it, client 2 asks for it. *)
Definition ls_runner : list (nat * nat) :=
  [(0,0); (0,1); (0,0)] ++                                             (* the loop, the client *)
  [(2,1); (2,0); (2,0); (2,0)] ++ [(1,1); (1,0); (1,0); (1,1); (2,1)] ++   (* StartWorker *)
  [(1,0); (1,2)] ++ times 13 (1,0) ++ [(1,2)] ++
  [(3,0); (3,1); (3,0); (3,1)] ++ [(1,1); (1,0); (1,0); (1,3); (3,1)] ++   (* the worker is started *)
  times 5 (1,0) ++ [(1,0); (1,0)] ++
  [(2,1); (2,2); (2,0); (2,0); (2,1); (2,0); (2,0)].                   (* Worker *)
(** Engine: client 2 installs a manifold, whose attempt is goroutine 4. *)
Definition ls_install : list (nat * nat) :=
  [(0,0); (0,1); (0,0)] ++ [(2,1); (2,2); (2,0); (2,1)] ++ [(1,1); (1,2); (2,1)] ++
  [(1,0); (1,0); (1,2); (1,0); (1,0); (1,0); (1,0)] ++ [(1,0); (1,0); (1,1); (1,0); (1,0); (1,0); (1,0); (1,0); (1,0); (1,2)].
(** Without a leak: the Start func gets an input; later the engine is dead and the client asks for a report. *)
Definition ls_engine : list (nat * nat) :=
  ls_install ++ [(4,0); (4,0); (4,1); (4,1); (4,0); (4,0); (4,1); (4,0); (4,0); (4,0); (4,0); (4,0); (4,0); (4,0); (4,0)] ++
  [(1,0); (1,1); (1,4); (4,1)] ++ [(1,0); (1,0); (1,0); (1,0); (1,0); (1,0); (1,0); (1,0); (1,0)] ++
  [(2,1); (2,1); (2,0); (2,1); (2,0); (2,1); (2,0); (2,0)].
(** With a leak: goroutine 5, started by the Start func, calls Get while 4 reads the access log. *)
Definition ls_leak : list (nat * nat) :=
  ls_install ++ [(4,0); (4,0); (4,1); (4,1); (4,0); (4,0); (4,0)] ++ [(5,1); (5,0); (5,1); (5,0); (5,0); (5,0)] ++
  [(4,0); (4,1); (4,0); (5,0)].                                       (* expire, the ticket; the append *)
(** Catacomb: goroutine 1 invokes, 3 is the add loop, 5 was started after Invoke returned and calls Add. *)
Definition ls_add : list (nat * nat) :=
  [(0,1); (0,0); (0,0)] ++ [(1,0); (1,0); (1,1); (1,0); (1,0); (1,0); (1,0); (1,0); (1,0); (1,0); (1,1); (1,0)] ++
  [(3,1); (3,0)] ++ [(5,1); (5,0); (5,1); (5,0); (5,3)].
(** Goroutine 1 calls Add while 2 is in Invoke. *)
Definition ls_early : list (nat * nat) :=
  [(0,1); (0,0); (0,0); (0,1); (0,1); (0,0)] ++ [(1,1); (1,0); (1,0)] ++ [(2,0); (2,0); (2,1); (2,0); (2,0); (2,0)] ++ [(1,0)].

(** The access of the leaked getter (event 28) and the read by runWorker (event 27). *)
Definition tr_leak : trace := m_tr (mx (E.prog true) ls_leak).
Lemma leak_race : ~ (hb tr_leak 27 28 \/ hb tr_leak 28 27).
Proof. apply (not_ordered _ [27]); [vm_compute; reflexivity| | |lia]; rewrite elem_of_list_singleton; lia. Qed.
Lemma leak_refuted : exists s, mreachable (E.prog true) s /\ ~ race_free (m_tr s).
Proof.
  exists (mx (E.prog true) ls_leak). split; [apply mx_reach; vm_compute; reflexivity|].
  intros H. apply leak_race. apply (H ("snapshot.accessLog"%string, 3) 27 28 4 (ARd ("snapshot.accessLog"%string, 3)) 5 (AWr ("snapshot.accessLog"%string, 3))).
  - done.
  - vm_compute; reflexivity.
  - vm_compute; reflexivity.
  - right. done.
  - lia.
Qed.
Definition tr_early : trace := m_tr (mx (C.prog true) ls_early).
Lemma early_race : ~ (hb tr_early 5 6 \/ hb tr_early 6 5).
Proof. apply (not_ordered _ [5]); [vm_compute; reflexivity| | |lia]; rewrite elem_of_list_singleton; lia. Qed.
Lemma early_refuted : exists s, mreachable (C.prog true) s /\ ~ race_free (m_tr s).
Proof.
  exists (mx (C.prog true) ls_early). split; [apply mx_reach; vm_compute; reflexivity|].
  intros H. apply early_race. apply (H ("adds"%string, 0) 5 6 2 (AWr ("adds"%string, 0)) 1 (ARd ("adds"%string, 0))).
  - done.
  - vm_compute; reflexivity.
  - vm_compute; reflexivity.
  - left. split; [done|]. by right.
  - lia.
Qed.
