(** Model of dependency/testing/stub.go: the Getter for tests of Start funcs.

    Go types and the payload of values are numbers. What reflection says about them is left open ([reflection]):
    Type.ConvertibleTo, and Value.Convert, which may panic even for convertible types. *)
From stdpp Require Import gmap strings list.
From Verif Require Import Err.

(** A value of type interface{}: nil, or a type and a payload. stub.go:26 (Outputs). *)
Inductive value := VNil | VVal (t x : nat).
(** The argument outPtr: nil, something that is not a pointer, a nil pointer to a [t], a pointer to a variable of type [t].
    stub.go:74. *)
Inductive out_ptr := ONil | ONotPtr | ONilPtr (t : nat) | OPtr (t : nat).
(** reflect.Type.ConvertibleTo and reflect.Value.Convert (Go's standard library), stub.go:95-96. *)
Record reflection := mkReflection {
  rf_convertible : nat -> nat -> bool;
  rf_convert : nat -> nat -> nat -> option nat;     (* from, to, payload; None: panic *)
}.

(** stub.go:25-28 [StubResource] *)
Record resource := mkResource { rs_outputs : list value; rs_error : option err }.
(** stub.go:19-21 [NewStubResource] *)
Definition new_resource (outputs : list value) : resource := mkResource outputs None.

(** A value of the raw map, as the type switch of stub.go:37-44 sees it: an error, a slice of values, anything else. *)
Inductive raw := RawError (e : err) | RawSlice (l : list value) | RawOther (v : value).
(** stub.go:33-48 [NewStubResources] *)
Definition new_resources (m : gmap string raw) : gmap string resource :=
  (fun r => match r with
            | RawError e => mkResource [] (Some e)
            | RawSlice l => mkResource l None
            | RawOther v => mkResource [v] None
            end) <$> m.

(** A call panics, or returns an error, having stored a payload in the variable that outPtr points to, or nothing.
    stub.go:74-102 [Get]. *)
Inductive result := Panics | Returns (e : option err) (stored : option nat).

(** stub.go:91-101, the loop *)
Fixpoint store (R : reflection) (t : nat) (outputs : list value) : result :=
  match outputs with
  | [] => Returns (Some (EMsg (MsgText "cannot set"))) None
  | VNil :: _ => Panics                             (* reflect.ValueOf(nil).Type() *)
  | VVal t' x :: l =>
    if rf_convertible R t' t then
      match rf_convert R t' t x with Some y => Returns None (Some y) | None => Panics end
    else store R t l
  end.
(** stub.go:74-102 [Get] *)
Definition get (R : reflection) (rs : gmap string resource) (name : string) (out : out_ptr) : result :=
  match rs !! name with
  | None => Returns (Some (EMsg (MsgText "unexpected resource name"))) None
  | Some r =>
    match rs_error r with
    | Some e => Returns (Some e) None
    | None =>
      match out with
      | ONil => Returns None None
      | ONotPtr => Returns (Some (EMsg (MsgText "outPtr should be a pointer"))) None
      | ONilPtr _ => Panics                         (* the zero Value has no Type *)
      | OPtr t => store R t (rs_outputs r)
      end
    end
  end.
