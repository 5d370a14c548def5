(** Model of dependency/util.go: the [Install] helper and the cycle check [Validate].

    A [Manifolds] map is reduced to its Inputs: [graph] maps a manifold name to its inputs.  Go ranges over
    maps in an unspecified order, so the functions that range over a map take that order as an argument. *)
From stdpp Require Import gmap strings list.
From RecordUpdate Require Import RecordSet.
From Verif Require Import Err.
Import RecordSetNotations.

Notation graph := (gmap string (list string)).

(** util.go:48-52, the two boolean maps of the validator (inputs is the graph) *)
Record vstate := mkV { v_doing : gmap string bool; v_done : gmap string bool }.
Global Instance eta_vstate : Settable _ := settable! mkV <v_doing; v_done>.

(** [m[k]] on a map[string]bool: absent means false. util.go:64-76 (marks of the validator, util.go:48-52). *)
Definition flag (m : gmap string bool) (k : string) : bool := default false (m !! k).

(** [v.inputs[node]]: absent means nil. util.go:69. *)
Definition inputs_of (g : graph) (n : string) : list string := default [] (g !! n).

(** Result of visiting: the state after success, the node named in the cycle error, or (never, see
    [validate_no_budget]) exhaustion of the recursion budget that makes the function total in Coq. util.go:63-79. *)
Inductive vres := VOk (s : vstate) | VCycle (n : string) | VBudget.

(** util.go:69-74: the loop over the inputs of a node, stops at the first error *)
Fixpoint visit_list (visit : string -> vstate -> vres) (l : list string) (s : vstate) : vres :=
  match l with
  | [] => VOk s
  | x :: l' => match visit x s with VOk s' => visit_list visit l' s' | r => r end
  end.

(** util.go:63-79 [validator.visit] *)
Fixpoint visit (fuel : nat) (g : graph) (node : string) (s : vstate) : vres :=
  match fuel with
  | 0 => VBudget
  | S fuel =>
    if flag (v_doing s) node then VCycle node
    else if flag (v_done s) node then VOk s
    else
      let s1 := s <| v_doing ::= <[node := true]> |> in
      match visit_list (visit fuel g) (inputs_of g node) s1 with
      | VOk s2 => VOk (s2 <| v_done ::= <[node := true]> |> <| v_doing ::= <[node := false]> |>)
      | r => r
      end
  end.

(** util.go:54-61 [validator.run] and util.go:33-43 [Validate]: [order] is the iteration order over the map. *)
Definition validate (g : graph) (order : list string) : vres :=
  visit_list (visit (S (S (size g))) g) order (mkV ∅ ∅).

(** The error returned by [Validate]: nil, or a traced cycle error. util.go:33-43, 54-61. *)
Definition validate_err (g : graph) (order : list string) : option err :=
  match validate g order with
  | VOk _ => None
  | VCycle n => Some (EWrap MsgTrace (EMsg (MsgCycle n)))
  | VBudget => Some (EMsg (MsgText "unreachable"))
  end.

(** util.go:19-29 [Install]: an [Installer] is any function with state [S] (it may be stateful);
    [order] is the iteration order of the Manifolds map [ms].  Returns the installer's state, the
    manifolds whose Install was called, in order, and the error. *)
Section Install.
  Context {S M : Type} (install : S -> string -> M -> S * option err).
  Fixpoint install_all (s : S) (order : list (string * M)) : S * list (string * M) * option err :=
    match order with
    | [] => (s, [], None)
    | (n, m) :: rest =>
      match install s n m with
      | (s', Some e) => (s', [(n, m)], Some (EWrap MsgTrace e))
      | (s', None) =>
        let '(s'', called, r) := install_all s' rest in (s'', (n, m) :: called, r)
      end
    end.
End Install.
