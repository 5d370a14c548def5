(** C76, C77: data races. *)
From stdpp Require Import gmap strings list relations.
From Verif Require Import Race RaceSpec RaceProgs RaceTyped RaceExample.

(** C76: in no execution of the runner do two accesses to one of its variables race. *)
Theorem C76_runner : forall s, mreachable R.prog s -> race_free (m_tr s).
Proof. exact R_race_free. Qed.
Print Assumptions C76_runner.
(* goroutine 1, the loop, stores a worker; client 2 reads the field in Worker *)
Example C76_runner_ex :
  let s := mx R.prog ls_runner in
  mreachable R.prog s /\
  m_tr s !! 29 = Some (1, AWr ("workerInfo.worker"%string, 0)) /\ m_tr s !! 35 = Some (2, ARd ("workerInfo.worker"%string, 0)) /\
  m_tr s !! 32 = Some (1, AUnlock 0) /\ m_tr s !! 33 = Some (2, ALock 0).
Proof. cbv zeta. split; [apply mx_reach; vm_compute; reflexivity|]. repeat split; vm_compute; reflexivity. Qed.

(** C76: nor in the engine, if Start funcs call the getter in their own goroutine. *)
Theorem C76_engine : forall s, mreachable (E.prog false) s -> race_free (m_tr s).
Proof. exact E_race_free. Qed.
Print Assumptions C76_engine.
(* goroutine 4, an attempt, writes its access log that the loop initialised; client 2 reports on a dead engine *)
Example C76_engine_ex :
  let s := mx (E.prog false) ls_engine in
  mreachable (E.prog false) s /\
  m_tr s !! 17 = Some (1, AWr ("snapshot.accessLog"%string, 3)) /\ m_tr s !! 25 = Some (4, AWr ("snapshot.accessLog"%string, 3)) /\
  m_tr s !! 32 = Some (1, AWr ("current"%string, 0)) /\ m_tr s !! 36 = Some (2, ARd ("current"%string, 0)).
Proof. cbv zeta. split; [apply mx_reach; vm_compute; reflexivity|]. repeat split; vm_compute; reflexivity. Qed.

(** C76: nor in a catacomb, if Add is called after Invoke returned or from Work. *)
Theorem C76_catacomb : forall s, mreachable (C.prog false) s -> race_free (m_tr s).
Proof. exact C_race_free. Qed.
Print Assumptions C76_catacomb.
(* goroutine 1, in Invoke, makes the channel; 5 reads the field in Add *)
Example C76_catacomb_ex :
  let s := mx (C.prog false) ls_add in
  mreachable (C.prog false) s /\
  m_tr s !! 4 = Some (1, AWr ("adds"%string, 0)) /\ m_tr s !! 10 = Some (5, ARd ("adds"%string, 0)).
Proof. cbv zeta. split; [apply mx_reach; vm_compute; reflexivity|]. repeat split; vm_compute; reflexivity. Qed.

(** C76: the condition on Add is needed. *)
Theorem C76_early_add_races : exists s, mreachable (C.prog true) s /\ ~ race_free (m_tr s).
Proof. exact early_refuted. Qed.
Print Assumptions C76_early_add_races.

(** C77, the part that holds: if Start funcs pass the getter to other goroutines, nothing but an access log is raced for. *)
Theorem C77_late_get_partial :
  forall s, mreachable (E.prog true) s -> race_free_on (fun l => l.1 <> "snapshot.accessLog"%string) (m_tr s).
Proof. exact E_late_get. Qed.
Print Assumptions C77_late_get_partial.

(** C77 itself is false: a Get by a goroutine of the Start func races with the engine's own read of the access log. *)
Theorem C77_late_get_refuted : exists s, mreachable (E.prog true) s /\ ~ race_free (m_tr s).
Proof. exact leak_refuted. Qed.
Print Assumptions C77_late_get_refuted.
(* the two events *)
Example C77_late_get_ex :
  let s := mx (E.prog true) ls_leak in
  mreachable (E.prog true) s /\
  m_tr s !! 27 = Some (4, ARd ("snapshot.accessLog"%string, 3)) /\ m_tr s !! 28 = Some (5, AWr ("snapshot.accessLog"%string, 3)).
Proof. cbv zeta. split; [apply mx_reach; vm_compute; reflexivity|]. repeat split; vm_compute; reflexivity. Qed.
