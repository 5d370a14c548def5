(** The clients of the engine: calls of Install, Report and Wait, each with a beginning, a moment at which the engine
    serves it, and a return. A layer over Engine.v; handlers of the loop are atomic (C73). *)
From stdpp Require Import gmap strings list.
From RecordUpdate Require Import RecordSet.
From Verif Require Import Err Tomb Validate Snapshot Engine.
Import RecordSetNotations.

(** Calls; engine.go:322 [Install], :247 [Report], :235 [Wait]. *)
Inductive ecall := KInstall (n : string) (m : manifold) | KReport | KWait.
(** What they return. engine.go:235, 247, 322. *)
Inductive eanswer := AnsInstall (e : option err) | AnsReport (r : report) | AnsWait (e : option err).
(** Where a call is: in its select statement (Wait: in tomb.Wait), holding its answer, returned.
    engine.go:236, 249-253, 324-327. *)
Inductive epc := Asking (k : ecall) | Holding (k : ecall) (a : eanswer) | Returned.
(** The history of the calls, newest first. The numbers are lengths of the engine's log at that moment (before and after
    the step that serves the call), so that they tell how calls and events of the engine are ordered.
    A record for the specification; engine.go has nothing like it. *)
Inductive hist := HCall (i : nat) (k : ecall) (t : nat) | HServed (i : nat) (k : ecall) (a : eanswer) (t t' : nat) | HRet (i : nat) (k : ecall) (a : eanswer) (t : nat).
(** The engine (Engine.v, engine.go:156-188), the calls, the history. *)
Record cstate := mkCState { x_e : state; x_calls : gmap nat epc; x_hist : list hist }.
#[global] Instance eta_cstate : Settable _ := settable! mkCState <x_e; x_calls; x_hist>.
(** engine.go:132-153 [NewEngine]. *)
Definition cinit : cstate := mkCState init ∅ [].

(** The answer is in the newest answering event of the step that serves the call (the loop may add other events after it
    answered, when its iteration ends). engine.go:212, 215, 326, 265, 236-244. *)
Definition answer_of (ev : event) : option eanswer :=
  match ev with EvInstall _ _ r => Some (AnsInstall r) | EvReport r => Some (AnsReport r) | EvWait e => Some (AnsWait e) | _ => None end.
(** As above (engine.go:212, 215). *)
Fixpoint first_answer (l : list event) : option eanswer :=
  match l with [] => None | ev :: l' => match answer_of ev with Some a => Some a | None => first_answer l' end end.
(** What a step of Engine.v (engine.go:201-227) added to the log. *)
Definition new_events (s s' : state) : list event := take (length (s_log s') - length (s_log s)) (s_log s').

(** How a call is served: Install by the loop (engine.go:213-215, :327) or refused (:325); Report by the loop (:210-212,
    :250) or by the caller itself (:253); Wait (:236). *)
Definition serve_label (k : ecall) (late : bool) : label :=
  match k with
  | KInstall n m => if late then LInstallRefused n m else LInstall n m
  | KReport => if late then LReportDead else LReport
  | KWait => LWait
  end.
(** These steps happen only for a call. engine.go:210-215, 253, 325, 236. *)
Definition serves (l : label) : bool := match l with LInstall _ _ | LInstallRefused _ _ | LReport | LReportDead | LWait => true | _ => false end.

(** A call is made, served, returns; any other step of the engine (engine.go:235-331). *)
Inductive clabel := CCall (i : nat) (k : ecall) | CServe (i : nat) (late : bool) | CRet (i : nat) | CEng (l : label).
(** The length of the log: a time stamp, engine.go has nothing like it. *)
Definition now (x : cstate) : nat := length (s_log (x_e x)).
(** engine.go:235-244 [Wait], 247-268 [Report], 322-331 [Install]. *)
Definition cstep (E : env) (x : cstate) (l : clabel) : option cstate :=
  match l with
  | CCall i k =>
    match x_calls x !! i with
    | None => Some (x <| x_calls ::= <[i := Asking k]> |> <| x_hist ::= cons (HCall i k (now x)) |>)
    | Some _ => None
    end
  | CServe i late =>
    match x_calls x !! i with
    | Some (Asking k) =>
      match step E (x_e x) (serve_label k late) with
      | Some s' =>
        match first_answer (new_events (x_e x) s') with
        | Some a => Some (x <| x_e := s' |> <| x_calls ::= <[i := Holding k a]> |> <| x_hist ::= cons (HServed i k a (now x) (length (s_log s'))) |>)
        | None => None   (* does not happen: the step answers *)
        end
      | None => None
      end
    | _ => None
    end
  | CRet i =>
    match x_calls x !! i with
    | Some (Holding k a) => Some (x <| x_calls ::= <[i := Returned]> |> <| x_hist ::= cons (HRet i k a (now x)) |>)
    | _ => None
    end
  | CEng l => if serves l then None else match step E (x_e x) l with Some s' => Some (x <| x_e := s' |>) | None => None end
  end.
(** Executions (engine.go:201-331). *)
Fixpoint crun (E : env) (x : cstate) (ls : list clabel) : option cstate :=
  match ls with [] => Some x | l :: ls' => match cstep E x l with Some x' => crun E x' ls' | None => None end end.
(** As above (engine.go:201-331). *)
Definition creachable (E : env) (x : cstate) : Prop := exists ls, crun E cinit ls = Some x.
