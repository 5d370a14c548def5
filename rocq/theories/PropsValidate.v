(** Properties C01 and C02.  Vocabulary: ValidateSpec.v. *)
From stdpp Require Import gmap strings list.
From Verif Require Import Err Validate ValidateSpec ValidateProofs.

(** C01: for every manifolds graph and every map iteration order, Validate returns nil exactly if there is
    no dependency cycle. *)
Theorem C01_validate_nil_iff_acyclic (g : graph) (order : list string) :
  map_order g order -> validate_err g order = None <-> acyclic g.
Proof. exact (validate_err_none g order). Qed.
Print Assumptions C01_validate_nil_iff_acyclic.

(** C01: when it fails, the manifold it names really is on a cycle. *)
Theorem C01_validate_names_cycle (g : graph) (order : list string) (e : err) :
  validate_err g order = Some e -> exists n, on_cycle g n /\ e = EWrap MsgTrace (EMsg (MsgCycle n)).
Proof. exact (validate_err_some g order e). Qed.
Print Assumptions C01_validate_names_cycle.

(** A cyclic and an acyclic graph (with an input that is not a manifold), with admissible orders. *)
Example C01_example_cycle :
  let g : graph := {[ "a" := ["b"; "zzz"]; "b" := ["c"]; "c" := ["a"] ]} in
  map_order g ["c"; "b"; "a"] /\ validate_err g ["c"; "b"; "a"] = Some (EWrap MsgTrace (EMsg (MsgCycle "c"))).
Proof.
  intros g. split; [|vm_compute; reflexivity]. unfold map_order. apply NoDup_Permutation.
  - by apply (bool_decide_unpack _).
  - apply NoDup_fst_map_to_list.
  - intros x. rewrite (map_order_elem g ((map_to_list g).*1) x) by (unfold map_order; reflexivity). unfold g.
    rewrite !elem_of_cons, elem_of_nil. split.
    + intros [->|[->|[->|[]]]]; eexists; vm_compute; reflexivity.
    + intros [l Hl]. rewrite !lookup_insert_Some, lookup_singleton_Some in Hl. naive_solver.
Qed.
Example C01_example_acyclic :
  let g : graph := {[ "a" := ["b"; "zzz"]; "b" := ["c"; "c"]; "c" := [] ]} in
  validate_err g ["b"; "a"; "c"] = None.
Proof. vm_compute. reflexivity. Qed.

(** C02: for every (also stateful) Installer and every order: the manifolds are installed one after the
    other, up to and including the first one that fails, whose error (traced) is returned. *)
Theorem C02_install_first_failure {St M} (inst : St -> string -> M -> St * option err) order s s' called r :
  install_all inst s order = (s', called, r) ->
  called `prefix_of` order /\
  s' = fold_left (fun s nm => (inst s nm.1 nm.2).1) called s /\
  match r with
  | None => called = order /\
      forall pre n m post, order = pre ++ (n, m) :: post ->
        (inst (fold_left (fun s nm => (inst s nm.1 nm.2).1) pre s) n m).2 = None
  | Some e => exists pre n m e0,
      called = pre ++ [(n, m)] /\ e = EWrap MsgTrace e0 /\
      (inst (fold_left (fun s nm => (inst s nm.1 nm.2).1) pre s) n m).2 = Some e0 /\
      forall pre' n' m' post', pre = pre' ++ (n', m') :: post' ->
        (inst (fold_left (fun s nm => (inst s nm.1 nm.2).1) pre' s) n' m').2 = None
  end.
Proof. exact (install_all_spec inst order s s' called r). Qed.
Print Assumptions C02_install_first_failure.

Example C02_example :
  let inst (s : list string) (n : string) (_ : unit) := (s ++ [n], if bool_decide (n = "b") then Some (EUser 7) else None) in
  install_all inst [] [("a", tt); ("b", tt); ("c", tt)] =
  (["a"; "b"], [("a", tt); ("b", tt)], Some (EWrap MsgTrace (EUser 7))).
Proof. vm_compute. reflexivity. Qed.
