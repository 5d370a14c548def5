From stdpp Require Import gmap strings list relations.
From RecordUpdate Require Import RecordSet.
From Verif Require Import Err Validate ValidateSpec.
Import RecordSetNotations.

Lemma flag_insert m k b k' : flag (<[k:=b]> m) k' = if bool_decide (k = k') then b else flag m k'.
Proof.
  unfold flag. case_bool_decide as H; [subst; by rewrite lookup_insert|by rewrite lookup_insert_ne].
Qed.

Lemma inputs_of_depends g a b : b ∈ inputs_of g a <-> depends g a b.
Proof.
  unfold inputs_of, depends. split.
  - destruct (g !! a) as [l|]; simpl; [eauto|]. intros H. by apply elem_of_nil in H.
  - intros (l & -> & H). exact H.
Qed.

(** nodes of the graph that are not being visited *)
Definition idle (g : graph) (s : vstate) : gset string :=
  filter (fun n => flag (v_doing s) n = false) (dom g).

Definition well_founded_at (g : graph) (n : string) := Acc (fun b a => depends g a b) n.

Lemma wf_no_cycle g n : well_founded_at g n -> ~ on_cycle g n.
Proof.
  intros H. induction H as [n Hn IH]. intros Hc.
  unfold on_cycle in *.
  assert (exists m, depends g n m /\ rtc (depends g) m n) as (m & Hm & Hmn).
  { inversion Hc; subst; eexists; split; eauto using rtc_refl, tc_rtc. }
  apply (IH m Hm). eapply tc_rtc_l; [exact Hmn|]. by apply tc_once.
Qed.

(** What one successful visit achieves. *)
Definition visited (g : graph) (s s' : vstate) : Prop :=
  (forall n, flag (v_doing s') n = flag (v_doing s) n) /\
  (forall n, flag (v_done s) n = true -> flag (v_done s') n = true) /\
  ((forall n, flag (v_done s) n = true -> well_founded_at g n) ->
   (forall n, flag (v_done s') n = true -> well_founded_at g n)).

Lemma visited_refl g s : visited g s s.
Proof. done. Qed.
Lemma visited_trans g s1 s2 s3 : visited g s1 s2 -> visited g s2 s3 -> visited g s1 s3.
Proof. intros (A & B & C) (A' & B' & C'). split_and!; [intros n; by rewrite A'|eauto|eauto]. Qed.

Definition visit_spec (g : graph) (node : string) (s : vstate) (r : vres) : Prop :=
  match r with
  | VOk s' => visited g s s' /\ flag (v_done s') node = true
  | VCycle n => on_cycle g n
  | VBudget => False
  end.

Lemma visit_list_ok g (f : string -> vstate -> vres) l s :
  (forall x s', x ∈ l -> (forall n, flag (v_doing s') n = flag (v_doing s) n) -> visit_spec g x s' (f x s')) ->
  match visit_list f l s with
  | VOk s' => visited g s s' /\ (forall x, x ∈ l -> flag (v_done s') x = true)
  | VCycle n => on_cycle g n
  | VBudget => False
  end.
Proof.
  revert s. induction l as [|x l IH]; intros s Hf; simpl.
  { split; [apply visited_refl|]. intros x Hx. by apply elem_of_nil in Hx. }
  pose proof (Hf x s (elem_of_list_here _ _) (fun _ => eq_refl)) as Hx.
  destruct (f x s) as [s1|n|]; simpl in Hx; [|exact Hx|exact Hx].
  destruct Hx as (Hv & Hd).
  specialize (IH s1). feed specialize IH.
  { intros y s' Hy Hs'. apply Hf; [by constructor|]. intros n. rewrite Hs'. apply Hv. }
  destruct (visit_list f l s1) as [s2|n|]; [|exact IH|exact IH].
  destruct IH as (Hv2 & Hl). split; [by eapply visited_trans|].
  intros y [->|Hy]%elem_of_cons; [|by apply Hl]. by apply Hv2.
Qed.

Lemma visit_ok g fuel : forall node s,
  size (idle g s) < fuel ->
  (forall x, flag (v_doing s) x = true -> tc (depends g) x node) ->
  visit_spec g node s (visit fuel g node s).
Proof.
  induction fuel as [|fuel IH]; intros node s Hsize Hpath; [lia|].
  cbn [visit].
  destruct (flag (v_doing s) node) eqn:Hdoing; simpl.
  { unfold on_cycle. by apply Hpath. }
  destruct (flag (v_done s) node) eqn:Hdone; simpl.
  { split; [apply visited_refl|done]. }
  set (s1 := s <| v_doing ::= <[node:=true]> |>).
  assert (Hs1 : forall n, flag (v_doing s1) n = if bool_decide (node = n) then true else flag (v_doing s) n).
  { intros n. apply flag_insert. }
  pose proof (visit_list_ok g (visit fuel g) (inputs_of g node) s1) as HL.
  feed specialize HL.
  { intros x s' Hx Hs'. apply inputs_of_depends in Hx. apply IH.
    - assert (Hne : node ∈ idle g s).
      { apply elem_of_filter. split; [done|]. destruct Hx as (l & Hl & _). by apply elem_of_dom_2 in Hl. }
      assert (Hsub : idle g s' ⊆ idle g s ∖ {[node]}).
      { intros n. unfold idle. rewrite !elem_of_filter, Hs', Hs1. intros [Hn Hdom].
        case_bool_decide as Hb; [done|]. apply elem_of_difference. rewrite elem_of_filter.
        split; [done|]. set_solver. }
      apply subseteq_size in Hsub. rewrite size_difference in Hsub by set_solver.
      rewrite size_singleton in Hsub.
      assert (size (idle g s) <> 0).
      { intros H0%size_empty_inv. set_solver. }
      lia.
    - intros y. rewrite Hs', Hs1. case_bool_decide as Hb.
      + intros _. subst y. by apply tc_once.
      + intros Hy. eapply tc_r; [by apply Hpath|exact Hx]. }
  destruct (visit_list (visit fuel g) (inputs_of g node) s1) as [s2|n|]; [|exact HL|exact HL].
  destruct HL as ((Hdo & Hmono & Hwf) & Hall).
  assert (Hdn : forall n, flag (v_done (s2 <| v_done ::= <[node:=true]> |> <| v_doing ::= <[node:=false]> |>)) n
     = if bool_decide (node = n) then true else flag (v_done s2) n) by (intros; apply flag_insert).
  split; [split_and!|].
  - intros n. etransitivity; [apply flag_insert|]. rewrite Hdo, Hs1.
    case_bool_decide; [by subst|done].
  - intros n Hn. rewrite Hdn. case_bool_decide; [done|]. by apply Hmono.
  - intros Hw n. rewrite Hdn. case_bool_decide as Hb; [|by apply Hwf].
    intros _. subst n. constructor. intros m Hm. apply Hwf; [done|]. apply Hall. by apply inputs_of_depends.
  - rewrite Hdn. by rewrite bool_decide_eq_true_2.
Qed.

Lemma validate_ok g order :
  match validate g order with
  | VOk _ => forall n, n ∈ order -> ~ on_cycle g n
  | VCycle n => on_cycle g n
  | VBudget => False
  end.
Proof.
  unfold validate.
  pose proof (visit_list_ok g (visit (S (S (size g))) g) order (mkV ∅ ∅)) as HL.
  feed specialize HL.
  { intros x s' _ Hs'. apply visit_ok.
    - assert (idle g s' ⊆ dom g) as Hsub by (intros n; unfold idle; rewrite elem_of_filter; tauto).
      apply subseteq_size in Hsub. rewrite size_dom in Hsub. lia.
    - intros y. rewrite Hs'. done. }
  destruct (visit_list _ order _) as [s|n|]; [|exact HL|exact HL].
  destruct HL as ((_ & _ & Hwf) & Hall).
  intros n Hn. apply wf_no_cycle. apply Hwf; [done|]. by apply Hall.
Qed.

Lemma on_cycle_in_dom g n : on_cycle g n -> is_Some (g !! n).
Proof. intros H. inversion H as [? ? (l & Hl & _)|? ? ? (l & Hl & _)]; subst; eauto. Qed.

Lemma map_order_elem {A} (m : gmap string A) order n : map_order m order -> n ∈ order <-> is_Some (m !! n).
Proof.
  intros Ho. rewrite Ho. rewrite elem_of_list_fmap. split.
  - intros ((k & v) & -> & Hkv%elem_of_map_to_list). simpl. eauto.
  - intros [v Hv]. exists (n, v). split; [done|]. by apply elem_of_map_to_list.
Qed.

Lemma validate_err_none g order :
  map_order g order -> validate_err g order = None <-> acyclic g.
Proof.
  intros Ho. unfold validate_err. pose proof (validate_ok g order) as H.
  destruct (validate g order) as [s|n|]; [|split; [done|]|done].
  - split; [|done]. intros _ n Hc. apply (H n); [|done].
    apply (map_order_elem _ _ _ Ho). by eapply on_cycle_in_dom.
  - intros Ha. by destruct (Ha n).
Qed.

Lemma validate_err_some g order e :
  validate_err g order = Some e ->
  exists n, on_cycle g n /\ e = EWrap MsgTrace (EMsg (MsgCycle n)).
Proof.
  unfold validate_err. pose proof (validate_ok g order) as H.
  destruct (validate g order) as [s|n|]; [done| |done].
  intros [= <-]. eauto.
Qed.

Lemma install_all_spec {St M} (inst : St -> string -> M -> St * option err) :
  forall order s s' called r, install_all inst s order = (s', called, r) ->
  (* the calls are a prefix of the order *)
  called `prefix_of` order /\
  (* the state is the one produced by exactly these calls, one after the other *)
  s' = fold_left (fun s nm => (inst s nm.1 nm.2).1) called s /\
  (* all but the last call succeeded; the last one failed exactly if an error is returned *)
  match r with
  | None => called = order /\
      forall pre n m post, order = pre ++ (n, m) :: post ->
        (inst (fold_left (fun s nm => (inst s nm.1 nm.2).1) pre s) n m).2 = None
  | Some e => exists pre n m e0,
      called = pre ++ [(n, m)] /\ e = EWrap MsgTrace e0 /\
      (inst (fold_left (fun s nm => (inst s nm.1 nm.2).1) pre s) n m).2 = Some e0 /\
      forall pre' n' m' post', pre = pre' ++ (n', m') :: post' ->
        (inst (fold_left (fun s nm => (inst s nm.1 nm.2).1) pre' s) n' m').2 = None
  end.
Proof.
  induction order as [|[n m] rest IH]; intros s s' called r; simpl.
  { intros [= <- <- <-]. split_and!; [done|done|done|].
    intros pre n m post H. by destruct pre. }
  destruct (inst s n m) as [s1 [e|]] eqn:Hi.
  - intros [= <- <- <-]. split_and!.
    + by exists rest.
    + simpl. by rewrite Hi.
    + exists [], n, m, e. split_and!; [done|done|simpl; by rewrite Hi|].
      intros pre' n' m' post' H. by destruct pre'.
  - destruct (install_all inst s1 rest) as [[s2 c2] r2] eqn:Hrec.
    intros [= <- <- <-]. specialize (IH _ _ _ _ Hrec) as (Hp & Hs & Hr).
    split_and!.
    + by apply prefix_cons.
    + simpl. by rewrite Hi.
    + destruct r2 as [e|].
      * destruct Hr as (pre & n1 & m1 & e0 & -> & -> & He & Hpre).
        exists ((n, m) :: pre), n1, m1, e0. split_and!; [done|done|simpl; by rewrite Hi|].
        intros [|[n2 m2] pre'] n' m' post'; simpl; intros [= <- <- Heq]; [by rewrite Hi|].
        rewrite Hi. simpl. by eapply Hpre.
      * destruct Hr as (-> & Hr). split; [done|].
        intros [|[n2 m2] pre'] n' m' post'; simpl; intros [= <- <- Heq]; [by rewrite Hi|].
        rewrite Hi. simpl. by eapply Hr.
Qed.
