(** The programs of RaceProgs.v respect permissions. *)
From stdpp Require Import gmap strings list relations.
From Coq Require Import Lia.
From Verif Require Import Race RaceSpec RaceProofs RaceProgs.

Section tools.
Context (grd : loc -> perms) (pay : nat -> perms).
Lemma ty_end T F T' F' : T' ⊆ T -> F' ⊆ F -> ty grd pay T F [] T' F'.
Proof. intros H1 H2. eapply (ty_ghost _ _ T F [] T' F' T' F' ∅); [set_solver|set_solver|set_solver|constructor]. Qed.
Lemma ty_sub T F p T' F' T1 F1 : T1 ⊆ T -> F1 ⊆ F -> ty grd pay T1 F1 p T' F' -> ty grd pay T F p T' F'.
Proof. intros H1 H2 H. eapply (ty_ghost _ _ T F p T' F' T1 F1 ∅); [set_solver|set_solver|set_solver|done]. Qed.
Lemma ty_freeze T F p T' F' K : K ⊆ T -> ty grd pay (T ∖ K) (F ∪ K) p T' F' -> ty grd pay T F p T' F'.
Proof. intros H1 H2. eapply (ty_ghost _ _ T F p T' F' (T ∖ K) (F ∪ K) K); [set_solver|set_solver|set_solver|done]. Qed.
Lemma ty_post T F p T1 F1 T' F' : ty grd pay T F p T1 F1 -> T' ⊆ T1 -> F' ⊆ F1 -> ty grd pay T F p T' F'.
Proof. intros H H1 H2. rewrite <- (app_nil_r p). eapply ty_app; [exact H|by apply ty_end]. Qed.
(** A piece that leaves some permissions as they are, wherever it stands. *)
Lemma ty_piece T F c p T1 F1 T' F' : ty grd pay T1 F1 [c] T1 F1 -> T1 ⊆ T -> F1 ⊆ F -> ty grd pay T1 F1 p T' F' -> ty grd pay T F (c :: p) T' F'.
Proof. intros Hc H1 H2 Hp. eapply ty_sub; [exact H1|exact H2|]. exact (ty_app _ _ _ _ [c] _ _ p _ _ Hc Hp). Qed.
Lemma ty_seq T F q p T1 F1 T' F' : ty grd pay T1 F1 q T1 F1 -> T1 ⊆ T -> F1 ⊆ F -> ty grd pay T1 F1 p T' F' -> ty grd pay T F (q ++ p) T' F'.
Proof. intros Hc H1 H2 Hp. eapply ty_sub; [exact H1|exact H2|]. by eapply ty_app. Qed.
Lemma ty_choose_last T F ps T' F' : (forall q, q ∈ ps -> ty grd pay T F q T' F') -> ty grd pay T F [Choose ps] T' F'.
Proof. intros H. eapply ty_choose; [exact H|apply ty_nil]. Qed.
Lemma ty_choose_same T F ps p T' F' : (forall q, q ∈ ps -> ty grd pay T F q T F) -> ty grd pay T F p T' F' -> ty grd pay T F (Choose ps :: p) T' F'.
Proof. intros H Hp. eapply ty_choose; [exact H|exact Hp]. Qed.
Lemma all_nil (P : list cmd -> Prop) : forall q, q ∈ ([] : list (list cmd)) -> P q.
Proof. intros q Hq. by apply elem_of_nil in Hq. Qed.
Lemma all_cons (P : list cmd -> Prop) x ps : P x -> (forall q, q ∈ ps -> P q) -> forall q, q ∈ x :: ps -> P q.
Proof. intros H1 H2 q. rewrite elem_of_cons. intros [-> |H]; [done|by apply H2]. Qed.
End tools.

(** [guards]: rewrites guard sets. *)

(** ** The runner: the loop holds [TSt 0]; nobody writes [consts], [TSt 1]. *)
Definition grdR (l : loc) : perms :=
  if bool_decide (l = consts) then {[TSt 1]}
  else if bool_decide (l ∈ [R.isDying; R.finalError; R.i_labels; R.i_restartDelay]) then {[TSt 0]}
  else {[TSt 0; TMu R.mu]}.
Definition payN (c : nat) : perms := ∅.
Lemma gR_consts : grdR consts = {[TSt 1]}. Proof. done. Qed.
Lemma gR_1 : grdR R.isDying = {[TSt 0]}. Proof. done. Qed.
Lemma gR_2 : grdR R.finalError = {[TSt 0]}. Proof. done. Qed.
Lemma gR_3 : grdR R.i_labels = {[TSt 0]}. Proof. done. Qed.
Lemma gR_4 : grdR R.i_restartDelay = {[TSt 0]}. Proof. done. Qed.
Lemma gR_5 : grdR R.workers = {[TSt 0; TMu R.mu]}. Proof. done. Qed.
Lemma gR_6 : grdR R.i_worker = {[TSt 0; TMu R.mu]}. Proof. done. Qed.
Lemma gR_7 : grdR R.i_start = {[TSt 0; TMu R.mu]}. Proof. done. Qed.
Lemma gR_8 : grdR R.i_stopping = {[TSt 0; TMu R.mu]}. Proof. done. Qed.
Lemma gR_9 : grdR R.i_done = {[TSt 0; TMu R.mu]}. Proof. done. Qed.
Lemma gR_10 : grdR R.i_started = {[TSt 0; TMu R.mu]}. Proof. done. Qed.
Ltac gR := rewrite ?gR_consts, ?gR_1, ?gR_2, ?gR_3, ?gR_4, ?gR_5, ?gR_6, ?gR_7, ?gR_8, ?gR_9, ?gR_10.
Ltac solR := gR; first [reflexivity | assumption | set_solver].
Ltac stepR :=
  lazymatch goal with
  | |- ty _ _ _ _ [] _ _ => apply ty_end; solR
  | |- ty _ _ _ _ (Rd consts :: _) _ _ => apply ty_rd with (k := TSt 1); [solR|right; solR|]
  | |- ty _ _ _ _ (Rd _ :: _) _ _ => first [apply ty_rd with (k := TSt 0); [solR|left; solR|] | apply ty_rd with (k := TMu R.mu); [solR|left; solR|]]
  | |- ty _ _ _ _ (Wr _ :: _) _ _ => apply ty_wr; [solR|]
  | |- ty _ _ _ _ (Lock _ :: _) _ _ => apply ty_lock
  | |- ty _ _ _ _ (Unlock _ :: _) _ _ => apply ty_unlock; [solR|]
  | |- ty _ _ _ _ (Send _ :: _) _ _ => apply ty_send
  | |- ty _ _ _ _ (Recv _ :: _) _ _ => apply ty_recv
  | |- ty _ _ _ _ (Closed _ :: _) _ _ => apply ty_closed
  | |- ty _ _ _ _ [Choose _] _ _ => apply ty_choose_last
  | |- ty _ _ _ _ (Choose _ :: _) _ _ => apply ty_choose_same
  | |- ty _ _ _ _ (Many _ :: _) _ _ => apply ty_many
  | |- forall q, q ∈ [] -> _ => apply all_nil
  | |- forall q, q ∈ _ :: _ -> _ => apply all_cons
  end.
Notation F1 := ({[TSt 1]} : perms).
Lemma R_waiter : ty grdR payN {[TMu R.mu]} F1 R.waiter ∅ F1.
Proof. unfold R.waiter, R.getWorker. cbn [app]. repeat stepR. Qed.
Lemma R_user T : T = ∅ -> ty grdR payN T F1 [R.user] T F1.
Proof.
  intros ->. unfold R.user, R.api, R.StartWorker, R.StopWorker, R.workerInfo, R.getWorker, R.WorkerNames, R.Report. cbn [app].
  repeat (stepR || (eapply (ty_go _ _ _ _ R.waiter _ _ _ {[TMu R.mu]}); [solR|eapply ty_sub; [reflexivity| |apply R_waiter]; solR|])).
Qed.
Ltac userR := lazymatch goal with
  | |- ty _ _ ?T _ (R.user :: _) _ _ => apply (ty_piece _ _ _ _ _ _ T F1); [|reflexivity|solR|]
  end.
Lemma R_runWorker : ty grdR payN ∅ F1 R.runWorker ∅ F1.
Proof.
  unfold R.runWorker. repeat (stepR || (apply (ty_piece _ _ _ _ _ _ ∅ F1 _ _ (R_user ∅ eq_refl)); [solR..|])).
Qed.
Ltac goR := eapply (ty_go _ _ _ _ R.runWorker _ _ _ ∅); [solR|eapply ty_sub; [reflexivity| |apply R_runWorker]; solR|].
Notation T0 := ({[TSt 0]} : perms).
Lemma R_run : ty grdR payN T0 F1 R.run T0 F1.
Proof.
  unfold R.run, R.startWorker, R.killWorker, R.setWorker, R.workerDone, R.removeWorker, R.killAll, R.killWorkerLocked. cbn [app].
  repeat (stepR || goR || (apply ty_close; [solR|])).
Qed.
Lemma R_main : exists T F, ty grdR payN {[TSt 0; TSt 1]} ∅ R.main T F.
Proof.
  exists ∅, F1. apply (ty_freeze _ _ _ _ _ _ _ {[TSt 1]}); [set_solver|]. unfold R.main.
  eapply (ty_go _ _ _ _ R.run _ _ _ T0); [set_solver|eapply ty_sub; [reflexivity| |apply R_run]; set_solver|].
  apply (ty_sub _ _ _ _ _ _ _ ∅ F1); [set_solver..|]. apply ty_many; [|apply ty_nil].
  eapply (ty_go _ _ _ _ [R.user] _ _ _ ∅); [set_solver|by apply R_user|]. apply ty_end; set_solver.
Qed.
Lemma R_race_free s : mreachable R.prog s -> race_free (m_tr s).
Proof.
  destruct R_main as (T & F & H). intros Hs l i j t a u b _. eapply (typed_race_free grdR payN R.prog); [| |exact H|exact Hs|]; [intros; set_solver..|].
  unfold grdR. repeat case_bool_decide; set_solver.
Qed.

(** ** The engine: the loop holds [TSt 0] until the engine is dead; a snapshot belongs to one runWorker goroutine.
    [leak]: the getter gets out of that goroutine, and nothing is promised about the access log. *)
Definition grdE (leak : bool) (l : loc) : perms :=
  if bool_decide (l = consts) then {[TSt 1]}
  else if bool_decide (l.1 = "snapshot"%string) then {[TObj l.2]}
  else if bool_decide (l.1 = "snapshot.accessLog"%string) then (if leak then ∅ else {[TObj l.2]})
  else {[TSt 0]}.
Definition payE (c : nat) : perms := match c with 0 => {[TSt 0]} | _ => ∅ end.
Lemma gE_consts k : grdE k consts = {[TSt 1]}. Proof. done. Qed.
Lemma gE_1 k : grdE k E.worstError = {[TSt 0]}. Proof. done. Qed.
Lemma gE_2 k : grdE k E.manifolds = {[TSt 0]}. Proof. done. Qed.
Lemma gE_3 k : grdE k E.dependents = {[TSt 0]}. Proof. done. Qed.
Lemma gE_4 k : grdE k E.current = {[TSt 0]}. Proof. done. Qed.
Lemma gE_5 k o : grdE k (E.snap o) = {[TObj o]}. Proof. done. Qed.
Lemma gE_6 o : grdE false (E.accessLog o) = {[TObj o]}. Proof. done. Qed.
Lemma gE_7 o : grdE true (E.accessLog o) = ∅. Proof. done. Qed.
Lemma pE_expired o : payE (E.expired o) = ∅. Proof. done. Qed.
Lemma pE : payE dead = {[TSt 0]}. Proof. done. Qed.
Ltac gE := rewrite ?gE_consts, ?gE_1, ?gE_2, ?gE_3, ?gE_4, ?gE_5, ?gE_6, ?gE_7, ?pE, ?pE_expired.
Ltac solE := gE; first [reflexivity | assumption | set_solver].
Ltac stepE :=
  lazymatch goal with
  | |- ty _ _ _ _ [] _ _ => apply ty_end; solE
  | |- ty _ _ _ _ (Rd consts :: _) _ _ => apply ty_rd with (k := TSt 1); [solE|right; solE|]
  | |- ty _ _ _ _ (Rd (E.snap ?o) :: _) _ _ => apply ty_rd with (k := TObj o); [solE|first [left; solE|right; solE]|]
  | |- ty _ _ _ _ (Rd (E.accessLog ?o) :: _) _ _ => first [apply ty_rd_any; [apply gE_7|] | apply ty_rd with (k := TObj o); [solE|left; solE|]]
  | |- ty _ _ _ _ (Rd _ :: _) _ _ => apply ty_rd with (k := TSt 0); [solE|first [left; solE|right; solE]|]
  | |- ty _ _ _ _ (Wr _ :: _) _ _ => apply ty_wr; [solE|]
  | |- ty _ _ _ _ (Send _ :: _) _ _ => apply ty_send
  | |- ty _ _ _ _ (Recv _ :: _) _ _ => apply ty_recv
  | |- ty _ _ _ _ (Closed _ :: _) _ _ => apply ty_closed
  | |- ty _ _ _ _ (Open _ :: _) _ _ => apply ty_open
  | |- ty _ _ _ _ (Close _ :: _) _ _ => apply ty_close; [solE|]
  | |- ty _ _ _ _ [Choose _] _ _ => apply ty_choose_last
  | |- ty _ _ _ _ (Choose _ :: _) _ _ => apply ty_choose_same
  | |- ty _ _ _ _ (Many _ :: _) _ _ => apply ty_many
  | |- forall q, q ∈ [] -> _ => apply all_nil
  | |- forall q, q ∈ _ :: _ -> _ => apply all_cons
  end.
Lemma E_user lk T F : TSt 1 ∈ F -> ty (grdE lk) payE T F [E.user] T F.
Proof.
  intros HF. unfold E.user, E.api, E.Wait, E.Report, E.Install, E.Wait, E.manifoldsReport. cbn [app]. repeat stepE.
Qed.
Ltac userE := lazymatch goal with |- ty _ _ ?T ?F (E.user :: _) _ _ => apply (ty_piece _ _ T F _ _ T F); [apply E_user; set_solver|reflexivity..|] end.
(** What a runWorker goroutine starts with. *)
Definition snapT (lk : bool) (o : nat) : perms := if lk then ∅ else {[TObj o]}.
Definition snapF (lk : bool) (o : nat) : perms := if lk then {[TSt 1; TObj o]} else F1.
Lemma E_runWorker lk o : ty (grdE lk) payE (snapT lk o) (snapF lk o) (E.runWorker lk o) (snapT lk o) (snapF lk o).
Proof.
  unfold E.runWorker, E.start_func, E.get, E.api, E.Wait, E.Report, E.Install, E.Wait, E.manifoldsReport. destruct lk; cbn [app snapT snapF].
  - repeat (stepE || userE || (lazymatch goal with |- ty _ _ _ _ (Go ?q :: _) _ _ => eapply (ty_go _ _ _ _ q _ _ _ ∅ ∅ ∅); [solE| |] end)).
  - repeat (stepE || userE).
Qed.
Lemma E_requestStart lk : ty (grdE lk) payE T0 F1 (E.requestStart lk) T0 F1.
Proof.
  unfold E.requestStart. repeat stepE. eapply (ty_new _ _ _ _ _ _ _ _ T0 F1); [|apply ty_nil]. intros o. destruct lk.
  - repeat stepE. apply (ty_freeze _ _ _ _ _ _ _ {[TObj o]}); [set_solver|].
    eapply (ty_go _ _ _ _ (E.runWorker true o) _ _ _ ∅); [solE|eapply ty_sub; [| |apply (E_runWorker true o)]; cbn; set_solver|].
    apply ty_end; set_solver.
  - repeat stepE. eapply (ty_go _ _ _ _ (E.runWorker false o) _ _ _ {[TObj o]}); [solE|apply (E_runWorker false o)|]. stepE.
Qed.
Opaque E.requestStart.
Ltac startE := lazymatch goal with
  | |- ty _ _ _ _ (E.requestStart _) _ _ => eapply ty_post; [eapply (ty_sub _ _ _ _ _ _ _ T0 F1); [solE|solE|apply E_requestStart]|solE|solE]
  | |- ty _ _ _ _ (E.requestStart _ ++ _) _ _ => apply (ty_seq _ _ _ _ _ _ T0 F1 _ _ (E_requestStart _)); [solE..|]
  end.
Lemma E_bounce lk : ty (grdE lk) payE T0 F1 (E.bounceDependents lk) T0 F1.
Proof. unfold E.bounceDependents, E.requestStop. cbn [app]. repeat (stepE || startE). Qed.
Opaque E.bounceDependents.
Ltac bounceE := lazymatch goal with
  | |- ty _ _ _ _ (E.bounceDependents _) _ _ => eapply ty_post; [eapply (ty_sub _ _ _ _ _ _ _ T0 F1); [solE|solE|apply E_bounce]|solE|solE]
  end.
Lemma E_loop lk : exists T F, ty (grdE lk) payE T0 F1 (E.loop lk) T F.
Proof.
  exists ∅, F1. unfold E.loop, E.gotInstall, E.gotStarted, E.gotStopped, E.uninstall, E.requestStop, E.liveReport, E.manifoldsReport. cbn [app].
  rewrite <- ?app_assoc.
  repeat (stepE || startE || bounceE).
Qed.
Lemma E_main lk : exists T F, ty (grdE lk) payE {[TSt 0; TSt 1]} ∅ (E.main lk) T F.
Proof.
  exists ∅, F1. apply (ty_freeze _ _ _ _ _ _ _ {[TSt 1]}); [set_solver|]. unfold E.main. destruct (E_loop lk) as (T & F & HL).
  eapply (ty_go _ _ _ _ (E.loop lk) _ _ _ T0); [set_solver|eapply ty_sub; [reflexivity| |exact HL]; set_solver|].
  apply (ty_sub _ _ _ _ _ _ _ ∅ F1); [set_solver..|]. apply ty_many; [|apply ty_nil].
  eapply (ty_go _ _ _ _ [E.user] _ _ _ ∅); [set_solver|apply E_user; set_solver|]. apply ty_end; set_solver.
Qed.
Lemma E_race_free_on lk s : mreachable (E.prog lk) s -> race_free_on (fun l => lk = true -> l.1 <> "snapshot.accessLog"%string) (m_tr s).
Proof.
  destruct (E_main lk) as (T & F & H). intros Hs l i j t a u b Hl. eapply (typed_race_free (grdE lk) payE (E.prog lk)); [| |exact H|exact Hs|]; [intros; set_solver..|].
  unfold grdE. repeat case_bool_decide; try set_solver. destruct lk; [by destruct Hl|set_solver].
Qed.
Lemma E_race_free s : mreachable (E.prog false) s -> race_free (m_tr s).
Proof. intros Hs l i j t a u b _. by apply (E_race_free_on false s Hs). Qed.

(** ** The catacomb: [adds] belongs to the caller of Invoke that won, and to nobody afterwards. *)
Definition grdC (l : loc) : perms := if bool_decide (l = C.adds) then {[TMu C.dirty]} else {[TObj l.2]}.
Lemma gC_1 : grdC C.adds = {[TMu C.dirty]}. Proof. done. Qed.
Lemma gC_2 o : grdC (C.init o) = {[TObj o]}. Proof. done. Qed.
Ltac gC := rewrite ?gC_1, ?gC_2.
Ltac solC := gC; first [reflexivity | assumption | set_solver].
Ltac stepC :=
  lazymatch goal with
  | |- ty _ _ _ _ [] _ _ => apply ty_end; solC
  | |- ty _ _ _ _ (Rd C.adds :: _) _ _ => apply ty_rd with (k := TMu C.dirty); [solC|right; solC|]
  | |- ty _ _ _ _ (Rd (C.init ?o) :: _) _ _ => apply ty_rd with (k := TObj o); [solC|left; solC|]
  | |- ty _ _ _ _ (Wr _ :: _) _ _ => apply ty_wr; [solC|]
  | |- ty _ _ _ _ (Send _ :: _) _ _ => apply ty_send
  | |- ty _ _ _ _ (Recv _ :: _) _ _ => apply ty_recv
  | |- ty _ _ _ _ (Closed _ :: _) _ _ => apply ty_closed
  | |- ty _ _ _ _ (Close _ :: _) _ _ => apply ty_close; [solC|]
  | |- ty _ _ _ _ [Choose _] _ _ => apply ty_choose_last
  | |- ty _ _ _ _ (Choose _ :: _) _ _ => apply ty_choose_same
  | |- ty _ _ _ _ (Many _ :: _) _ _ => apply ty_many
  | |- ty _ _ _ _ (Go ?q :: _) _ _ => eapply (ty_go _ _ _ _ q _ _ _ ∅ ∅ ∅); [solC| |]
  | |- forall q, q ∈ [] -> _ => apply all_nil
  | |- forall q, q ∈ _ :: _ -> _ => apply all_cons
  end.
Notation FC := ({[TMu C.dirty]} : perms).
Lemma C_user T : ty grdC payN T FC [C.user] T FC.
Proof. unfold C.user, C.Add. repeat stepC. Qed.
Lemma C_Invoke : ty grdC payN ∅ ∅ C.Invoke ∅ ∅.
Proof.
  unfold C.Invoke, C.listen, C.add. cbn [app]. eapply (ty_new _ _ _ _ _ _ _ _ ∅ ∅); [|apply ty_nil]. intros o.
  repeat stepC. apply ty_lock. stepC.
  apply (ty_freeze _ _ _ _ _ _ _ {[TMu C.dirty]}); [set_solver|].
  apply (ty_sub _ _ _ _ _ _ _ {[TObj o]} FC); [set_solver..|].
  repeat (stepC || (eapply ty_piece; [apply C_user|solC..|])).
Qed.
Lemma C_main : exists T F, ty grdC payN ∅ ∅ (C.main false) T F.
Proof.
  exists ∅, ∅. unfold C.main. cbn [app]. repeat stepC. apply C_Invoke.
Qed.
Lemma C_race_free s : mreachable (C.prog false) s -> race_free (m_tr s).
Proof.
  destruct C_main as (T & F & H). intros Hs l i j t a u b _. eapply (typed_race_free grdC payN (C.prog false)); [| |exact H|exact Hs|]; [intros; set_solver..|].
  unfold grdC. repeat case_bool_decide; set_solver.
Qed.
Lemma E_late_get s : mreachable (E.prog true) s -> race_free_on (fun l => l.1 <> "snapshot.accessLog"%string) (m_tr s).
Proof. intros H l i j t a u b Hl. apply (E_race_free_on true s H l i j t a u b). by intros _. Qed.
