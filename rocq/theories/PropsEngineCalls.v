(** Property C75. Statements only: every theorem is closed by a lemma proved elsewhere.
    Vocabulary: EngineCalls.v (calls and their history), EngineCallsSpec.v (right_answer, log_at), EngineSpec.v (the log). *)
From stdpp Require Import gmap strings list.
From Coq Require Import ZArith Lia.
From Verif Require Import Err Tomb Validate Snapshot Engine EngineSpec EngineCalls EngineCallsSpec EngineCallsProofs EngineExample.

(** C75: every call takes effect at one moment between its beginning and its return, and what it returns is right for the
    engine of that moment. *)
Theorem C75_linearizable E x pre i k a t2 post : creachable E x -> x_hist x = pre ++ HRet i k a t2 :: post ->
  exists t1 u u', HCall i k t1 ∈ post /\ HServed i k a u u' ∈ post /\ t1 <= u /\ u < u' /\ u' <= t2 /\
    right_answer E k a (log_at x u) (log_at x u').
Proof. exact (call_linear E x pre i k a t2 post). Qed.
Print Assumptions C75_linearizable.

(** C75: the moments of different calls are different, *)
Theorem C75_moments_differ E x i k a u u' j k' a' v v' : creachable E x ->
  HServed i k a u u' ∈ x_hist x -> HServed j k' a' v v' ∈ x_hist x -> i <> j -> u' <= v \/ v' <= u.
Proof. exact (served_disjoint E x i k a u u' j k' a' v v'). Qed.
Print Assumptions C75_moments_differ.

(** C75: and a call takes effect once and returns once. *)
Theorem C75_effect_once E x pre i k a u u' post : creachable E x -> x_hist x = pre ++ HServed i k a u u' :: post ->
  forall k' a' v v', HServed i k' a' v v' ∉ post.
Proof. exact (once_served E x pre i k a u u' post). Qed.
Print Assumptions C75_effect_once.
Theorem C75_return_once E x pre i k a t post : creachable E x -> x_hist x = pre ++ HRet i k a t :: post ->
  forall k' a' t', HRet i k' a' t' ∉ post.
Proof. exact (once_ret E x pre i k a t post). Qed.
Print Assumptions C75_return_once.

(** C75: the order of calls that do not overlap is kept: the numbers of a call that begins after another returned are not
    smaller. *)
Theorem C75_real_time E x pre i k t post i' k' a' t' : creachable E x -> x_hist x = pre ++ HCall i k t :: post ->
  HRet i' k' a' t' ∈ post -> t' <= t.
Proof. exact (call_then E x pre i k t post i' k' a' t'). Qed.
Print Assumptions C75_real_time.

(** C75: a call of Install or Report can always be served, by the loop or without it, whatever the state of the engine; so
    can a call of Wait once the engine is dead, and not before; *)
Theorem C75_never_blocked E x i k : creachable E x -> x_calls x !! i = Some (Asking k) -> k <> KWait \/ EvDead ∈ s_log (x_e x) ->
  exists late x' a, cstep E x (CServe i late) = Some x' /\ x_calls x' !! i = Some (Holding k a).
Proof. exact (never_blocked E x i k). Qed.
Print Assumptions C75_never_blocked.
Theorem C75_wait_blocked E x i late x' : creachable E x -> x_calls x !! i = Some (Asking KWait) ->
  cstep E x (CServe i late) = Some x' -> EvDead ∈ s_log (x_e x).
Proof. exact (wait_blocked E x i late x'). Qed.
Print Assumptions C75_wait_blocked.
(** C75: and then it returns. *)
Theorem C75_returns E x i k a : x_calls x !! i = Some (Holding k a) ->
  exists x', cstep E x (CRet i) = Some x' /\ x_hist x' = HRet i k a (now x) :: x_hist x.
Proof. exact (answer_returns E x i k a). Qed.
Print Assumptions C75_returns.

(** C75: calls that begin after a Wait has returned: Install is refused, Report says "stopped" with the error of that Wait, and
    Wait returns the same again. *)
Theorem C75_after_wait E x pre j k a t mid t1 mid2 i e t0 post : creachable E x ->
  x_hist x = pre ++ HRet j k a t :: mid ++ HCall j k t1 :: mid2 ++ HRet i KWait (AnsWait e) t0 :: post ->
  match k, a with
  | KInstall _ _, AnsInstall r => r = Some (EMsg MsgShuttingDown)
  | KReport, AnsReport r => rp_state r = EStopped /\ rp_error r = e
  | KWait, AnsWait e' => e' = e
  | _, _ => False
  end.
Proof. exact (after_wait E x pre j k a t mid t1 mid2 i e t0 post). Qed.
Print Assumptions C75_after_wait.

(** C75: of two successful Installs with one name, the second took effect after the manifold of the first was uninstalled. *)
Theorem C75_install_exclusive E x i n m u u' j m' v v' : creachable E x ->
  HServed i (KInstall n m) (AnsInstall None) u u' ∈ x_hist x -> HServed j (KInstall n m') (AnsInstall None) v v' ∈ x_hist x ->
  i <> j -> u <= v -> exists new, log_at x v = new ++ log_at x u' /\ EvUninstall n ∈ new.
Proof. exact (install_exclusive E x i n m u u' j m' v v'). Qed.
Print Assumptions C75_install_exclusive.

(** Two concurrent Installs of one name, a Wait, a Report; then the engine is killed, and more calls follow. *)
Definition cc_live : list clabel := [CCall 0 (KInstall "db" m_db); CCall 1 (KInstall "db" m_db); CCall 2 KWait; CServe 1 false; CCall 3 KReport; CServe 0 false; CRet 0; CRet 1] ++
  map CEng (up 0 10) ++ [CServe 3 false; CRet 3].
Definition cc_dead : list clabel := cc_live ++ [CEng LKill; CCall 4 (KInstall "api" m_api); CServe 4 true; CRet 4; CEng LDying] ++ map CEng (down 0 (Some (EUser 99))) ++
  [CServe 2 false; CRet 2; CCall 5 KReport; CServe 5 true; CRet 5; CCall 6 KWait; CServe 6 false; CCall 7 (KInstall "ui" m_ui); CRet 6; CServe 7 true; CRet 7].
Definition cc_state (ls : list clabel) : cstate := default cinit (crun ex_env cinit ls).
Definition cc_ok (ls : list clabel) : bool := match crun ex_env cinit ls with Some _ => true | None => false end.
Lemma cc_reach ls : cc_ok ls = true -> creachable ex_env (cc_state ls).
Proof. unfold cc_ok, cc_state. destruct (crun ex_env cinit ls) as [x|] eqn:H; [|done]. intros _. by exists ls. Qed.
(** What a history entry says, without the manifold and the report. *)
Inductive brief := BCall (i : nat) | BServed (i u u' : nat) | BInstall (i : nat) (e : option err) (t : nat) | BReport (i : nat) (st : estate) (e : option err) (t : nat) | BWait (i : nat) (e : option err) (t : nat).
Definition brief_of (h : hist) : brief :=
  match h with
  | HCall i _ _ => BCall i
  | HServed i _ _ u u' => BServed i u u'
  | HRet i _ (AnsInstall e) t => BInstall i e t
  | HRet i _ (AnsReport r) t => BReport i (rp_state r) (rp_error r) t
  | HRet i _ (AnsWait e) t => BWait i e t
  end.
Example C75_live : creachable ex_env (cc_state cc_live) /\
  map brief_of (x_hist (cc_state cc_live)) =
    [BReport 3 EStarted None 9; BServed 3 8 9; BInstall 1 None 4; BInstall 0 (Some (EMsg (MsgAlreadyInstalled "db"))) 4; BServed 0 3 4; BCall 3; BServed 1 0 3; BCall 2; BCall 1; BCall 0] /\
  x_calls (cc_state cc_live) !! 2 = Some (Asking KWait).
Proof. split; [apply cc_reach; vm_compute; reflexivity|]. split; vm_compute; reflexivity. Qed.
Definition cc_error : option err := Some (EWrap (MsgNote 1) (EUser 99)).
Example C75_dead : creachable ex_env (cc_state cc_dead) /\
  take 11 (map brief_of (x_hist (cc_state cc_dead))) =
    [BInstall 7 (Some (EMsg MsgShuttingDown)) 20; BServed 7 19 20; BWait 6 cc_error 19; BCall 7; BServed 6 18 19; BCall 6; BReport 5 EStopped cc_error 18; BServed 5 17 18; BCall 5; BWait 2 cc_error 17; BServed 2 16 17].
Proof. split; [apply cc_reach; vm_compute; reflexivity|]. vm_compute. reflexivity. Qed.
(** A name is used again after its manifold was uninstalled. *)
Fixpoint as_calls (i : nat) (ls : list label) : list clabel :=
  match ls with
  | [] => []
  | LInstall n m :: ls' => CCall i (KInstall n m) :: CServe i false :: CRet i :: as_calls (S i) ls'
  | l :: ls' => CEng l :: as_calls i ls'
  end.
Example C75_again : creachable ex_env (cc_state (as_calls 0 ls_reinst)) /\
  map brief_of (x_hist (cc_state (as_calls 0 ls_reinst))) =
    [BInstall 2 None 42; BServed 2 39 42; BCall 2; BInstall 1 None 10; BServed 1 7 10; BCall 1; BInstall 0 None 3; BServed 0 0 3; BCall 0].
Proof. split; [apply cc_reach; vm_compute; reflexivity|]. vm_compute. reflexivity. Qed.
