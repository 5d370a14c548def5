(** Vocabulary for C80 and C81: infinite executions. *)
From stdpp Require Import list.

(** [tr] are the states of an execution, [lab] are its steps; [None]: nothing happens at that time. *)
Definition execution {S L} (step : S -> L -> option S) (tr : nat -> S) (lab : nat -> option L) : Prop :=
  forall i, match lab i with Some l => step (tr i) l = Some (tr (1 + i)) | None => tr (1 + i) = tr i end.

(** The steps in [due] are not put off for ever: again and again one of them happens, or there comes a time at which none of
    them is possible. *)
Definition not_starved {S L} (step : S -> L -> option S) (due : S -> L -> Prop) (tr : nat -> S) (lab : nat -> option L) : Prop :=
  forall i, exists j, i <= j /\
    ((exists l, lab j = Some l /\ due (tr j) l) \/ (forall l, due (tr j) l -> step (tr j) l = None)).
