(** Property C57: the Getter for tests (dependency/testing/stub.go). Statements only: every theorem is closed by a lemma proved
    elsewhere. Vocabulary: Stub.v, StubSpec.v. *)
From stdpp Require Import gmap strings list.
From Verif Require Import Err Stub StubSpec StubProofs.
Local Open Scope string_scope.

(** C57: an unknown name fails and stores nothing. *)
Theorem C57_unknown R rs n out : rs !! n = None -> exists e, get R rs n out = Returns (Some e) None.
Proof. exact (get_unknown R rs n out). Qed.
Print Assumptions C57_unknown.

(** C57: a configured error is returned first, whatever the out pointer is. *)
Theorem C57_error R rs n out r e : rs !! n = Some r -> rs_error r = Some e -> get R rs n out = Returns (Some e) None.
Proof. exact (get_error R rs n out r e). Qed.
Print Assumptions C57_error.

(** C57: a nil out pointer succeeds. *)
Theorem C57_nil_out R rs n r : rs !! n = Some r -> rs_error r = None -> get R rs n ONil = Returns None None.
Proof. exact (get_nil R rs n r). Qed.
Print Assumptions C57_nil_out.

(** C57: an out argument that is not a pointer fails. *)
Theorem C57_not_pointer R rs n r : rs !! n = Some r -> rs_error r = None -> exists e, get R rs n ONotPtr = Returns (Some e) None.
Proof. exact (get_not_ptr R rs n r). Qed.
Print Assumptions C57_not_pointer.

(** C57: the first convertible output is stored; it fails if there is none. *)
Theorem C57_stores R rs n r t : rs !! n = Some r -> rs_error r = None ->
  (forall t' x y, first_fit R t (rs_outputs r) t' x -> rf_convert R t' t x = Some y -> get R rs n (OPtr t) = Returns None (Some y)) /\
  (no_fit R t (rs_outputs r) -> exists e, get R rs n (OPtr t) = Returns (Some e) None).
Proof. exact (get_ptr R rs n r t). Qed.
Print Assumptions C57_stores.

(** C57: out is touched only by a successful Get, and then holds the first convertible output. *)
Theorem C57_atomic R rs n out e y : get R rs n out = Returns e (Some y) ->
  e = None /\ exists r t t' x, rs !! n = Some r /\ rs_error r = None /\ out = OPtr t /\ first_fit R t (rs_outputs r) t' x /\ rf_convert R t' t x = Some y.
Proof. exact (get_atomic R rs n out e y). Qed.
Print Assumptions C57_atomic.

(** C57: the only ways to panic: a typed nil pointer, a nil output before the first convertible one, a Convert that panics. *)
Theorem C57_panics R rs n out : get R rs n out = Panics <-> exists r, rs !! n = Some r /\ rs_error r = None /\
  ((exists t, out = ONilPtr t) \/
   exists t, out = OPtr t /\ (nil_first R t (rs_outputs r) \/ exists t' x, first_fit R t (rs_outputs r) t' x /\ rf_convert R t' t x = None)).
Proof. exact (get_panics R rs n out). Qed.
Print Assumptions C57_panics.

(** C57: NewStubResources: an error is an error, a slice is a list of outputs, anything else is one output. *)
Theorem C57_resources m n : match m !! n with
  | None => new_resources m !! n = None
  | Some (RawError e) => new_resources m !! n = Some (mkResource [] (Some e))
  | Some (RawSlice l) => new_resources m !! n = Some (mkResource l None)
  | Some (RawOther v) => new_resources m !! n = Some (mkResource [v] None)
  end.
Proof. exact (resources_lookup m n). Qed.
Print Assumptions C57_resources.

Definition rx : reflection := mkReflection (fun a b => bool_decide (a = b) || bool_decide (a = 0)) (fun a b x => Some (x + 100 * a)).
Definition mx : gmap string raw := <["bad" := RawError (EUser 7)]> (<["many" := RawSlice [VVal 1 10; VVal 2 20; VVal 2 30]]> {["one" := RawOther (VVal 3 40)]}).
Example C57_example : let rs := new_resources mx in
  get rx rs "many" (OPtr 2) = Returns None (Some 220) /\ get rx rs "bad" (OPtr 2) = Returns (Some (EUser 7)) None /\
  get rx rs "one" (OPtr 2) = Returns (Some (EMsg (MsgText "cannot set"))) None /\ get rx rs "one" (OPtr 3) = Returns None (Some 340) /\
  get rx rs "none" (OPtr 2) = Returns (Some (EMsg (MsgText "unexpected resource name"))) None.
Proof. repeat split; vm_compute; reflexivity. Qed.
Example C57_example_fit : first_fit rx 2 [VVal 1 10; VVal 2 20; VVal 2 30] 2 20 /\ no_fit rx 2 [VVal 3 40].
Proof.
  split.
  - exists [VVal 1 10], [VVal 2 30]. split; [reflexivity|]. split; [reflexivity|]. intros v ->%elem_of_list_singleton. exists 1, 10. split; reflexivity.
  - intros v ->%elem_of_list_singleton. exists 3, 40. split; reflexivity.
Qed.
(** Get panics for a typed nil pointer and for a nil output. *)
Theorem C57_never_panics_refuted : exists R rs, get R rs "one" (ONilPtr 2) = Panics /\ get R rs "nil" (OPtr 2) = Panics.
Proof. exists rx, (new_resources (<["nil" := RawOther VNil]> mx)). split; vm_compute; reflexivity. Qed.
Print Assumptions C57_never_panics_refuted.
