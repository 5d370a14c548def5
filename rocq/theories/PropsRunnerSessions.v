(** C87: what a call on the runner means for calls made after it returned. Statements only: every theorem is closed by a lemma proved
    elsewhere. The log has the newest event first: in [pre ++ CvRet j .. :: m1 ++ CvCall j .. :: m2 ++ CvRet i .. :: post] call [j]
    began after call [i] had returned. [EvAnswer], [EvStopReq], [EvKnown], [EvRemoved] are what the loop does: it decides on a StartWorker
    call, accepts a StopWorker call, adds an id, removes it. *)
From stdpp Require Import gmap strings list.
From Coq Require Import ZArith Lia.
From Verif Require Import Err Runner RunnerSpec RunnerExample.
From Verif Require RunnerSessions.

(** C87: StartWorker takes effect between its beginning and its return (or returns ErrDead), *)
Theorem C87_start_effect P s pre i id f e post : reachable P s -> rlog s = pre ++ EvClient (CvRet i (KStart id f) (RErr e)) :: post ->
  e = Some (EConst KRunnerDead) \/ exists p1 p2, post = p1 ++ EvAnswer i id f e :: p2 /\ EvClient (CvCall i (KStart id f)) ∈ p2.
Proof. exact (RunnerSessions.start_effect P s pre i id f e post). Qed.
Print Assumptions C87_start_effect.
(** C87: and StopWorker too, at the moment it returns. *)
Theorem C87_stop_effect P s pre i id post : reachable P s -> rlog s = pre ++ EvClient (CvRet i (KStop id) (RErr None)) :: post ->
  exists p2, post = EvStopReq i id :: p2 /\ EvClient (CvCall i (KStop id)) ∈ p2.
Proof. exact (RunnerSessions.stop_effect P s pre i id post). Qed.
Print Assumptions C87_stop_effect.

(** C87: after a StartWorker that returned nil (when the runner was not stopping), and as long as the id is not removed, another
    StartWorker is refused, *)
Theorem C87_start_start P s pre j f' r m1 m2 i id f p1 p2 : reachable P s ->
  rlog s = pre ++ EvClient (CvRet j (KStart id f') (RErr r)) :: m1 ++ EvClient (CvCall j (KStart id f')) :: m2 ++ EvClient (CvRet i (KStart id f) (RErr None)) :: p1 ++ EvAnswer i id f None :: p2 ->
  ~ stopping_all (m1 ++ m2 ++ p1 ++ p2) -> (forall d, EvRemoved id d ∉ m1 ++ m2 ++ p1) ->
  r = Some (ETyped TAlreadyExists (MsgText id)) \/ r = Some (EConst KRunnerDead).
Proof. exact (RunnerSessions.start_start P s pre j f' r m1 m2 i id f p1 p2). Qed.
Print Assumptions C87_start_start.
(** C87: WorkerNames lists the id, *)
Theorem C87_start_names P s pre ns m i id f p1 p2 : reachable P s ->
  rlog s = pre ++ EvClient (CvNames ns) :: m ++ EvClient (CvRet i (KStart id f) (RErr None)) :: p1 ++ EvAnswer i id f None :: p2 ->
  ~ stopping_all p2 -> (forall d, EvRemoved id d ∉ m ++ p1) -> id ∈ ns.
Proof. exact (RunnerSessions.start_names P s pre ns m i id f p1 p2). Qed.
Print Assumptions C87_start_names.
(** C87: and Worker and StopAndRemoveWorker do not answer NotFound. *)
Theorem C87_start_worker P s pre k j r m1 m2 i id f p1 p2 : reachable P s -> k = KWorker id \/ k = KStopRm id ->
  rlog s = pre ++ EvClient (CvRet j k r) :: m1 ++ EvClient (CvCall j k) :: m2 ++ EvClient (CvRet i (KStart id f) (RErr None)) :: p1 ++ EvAnswer i id f None :: p2 ->
  ~ stopping_all p2 -> (forall d, EvRemoved id d ∉ m1 ++ m2 ++ p1) -> r <> RErr (Some (ETyped TNotFound (MsgText id))).
Proof. exact (RunnerSessions.start_worker P s pre k j r m1 m2 i id f p1 p2). Qed.
Print Assumptions C87_start_worker.

(** C87: after a StopWorker that returned nil nothing is started for the id, until StartWorker is accepted for it. *)
Theorem C87_stop_start P s pre g id f d t m i post : reachable P s ->
  rlog s = pre ++ EvSpawn g id f d t :: m ++ EvClient (CvRet i (KStop id) (RErr None)) :: post -> exists f' d', EvKnown id f' d' ∈ m.
Proof. exact (RunnerSessions.stop_start P s pre g id f d t m i post). Qed.
Print Assumptions C87_stop_start.

(** C87: when StopAndRemoveWorker has returned the worker's error, the id was removed after the call began, and StartWorker succeeds
    (or returns ErrDead), unless another StartWorker was accepted for the id after that removal. *)
Theorem C87_remove_start P s pre j f r m1 m2 i id e post : reachable P s ->
  rlog s = pre ++ EvClient (CvRet j (KStart id f) (RErr r)) :: m1 ++ EvClient (CvCall j (KStart id f)) :: m2 ++ EvClient (CvRet i (KStopRm id) (RRemoved e)) :: post ->
  exists d p1 p2, post = p1 ++ EvRemoved id d :: p2 /\ EvClient (CvCall i (KStopRm id)) ∈ p2 /\
    (r = None \/ r = Some (EConst KRunnerDead) \/ exists f' d', EvKnown id f' d' ∈ m1 ++ m2 ++ p1).
Proof. exact (RunnerSessions.remove_start P s pre j f r m1 m2 i id e post). Qed.
Print Assumptions C87_remove_start.

(** ** Examples *)
(** Worker "a", removing "a" and starting it again, stopping "a" and starting it again. *)
Definition rl_look : list label := rl_back ++ [LCall 5 (KWorker "a"); LLock 5; LCheck 5].
Definition rl_renew : list label := rl_up ++ [LCall 4 (KStopRm "a"); LLock 4; LCheck 4; LStopKill 4] ++ down_ 0 None ++ [LStopWaited 4; LDoneRecv 4] ++ start_ 6 "a" 3.
Definition rl_restop : list label := rl_gone ++ start_ 6 "a" 3.
Definition is_removed (id : string) (ev : event) : bool := match ev with EvRemoved id' _ => bool_decide (id' = id) | _ => false end.
Definition is_stop (ev : event) : bool := match ev with EvStopAll => true | _ => false end.
Lemma cut (k : nat) (l : list event) x : l !! k = Some x -> l = take k l ++ x :: drop (S k) l.
Proof. intros H. symmetry. by apply take_drop_middle. Qed.
Lemma none_removed id l l' : l ⊆ l' -> existsb (is_removed id) l' = false -> forall d, EvRemoved id d ∉ l.
Proof. intros Hs H d Hd. apply Hs in Hd. revert Hd. eapply rx_absent; [exact H|]. cbn. by apply bool_decide_eq_true_2. Qed.
Lemma none_stop l l' : l ⊆ l' -> existsb is_stop l' = false -> ~ stopping_all l.
Proof. intros Hs H Hd. apply Hs in Hd. revert Hd. by eapply rx_absent. Qed.
(** A session in a log without removals of the id, by the positions of its events. *)
Lemma session4 (a b c d : nat) l A B C D id : l !! a = Some A -> drop (S a) l !! b = Some B -> drop (S b) (drop (S a) l) !! c = Some C -> drop (S c) (drop (S b) (drop (S a) l)) !! d = Some D ->
  existsb (is_removed id) l = false -> existsb is_stop l = false ->
  exists pre m1 m2 p1 p2, l = pre ++ A :: m1 ++ B :: m2 ++ C :: p1 ++ D :: p2 /\ ~ stopping_all (m1 ++ m2 ++ p1 ++ p2) /\ forall d, EvRemoved id d ∉ m1 ++ m2 ++ p1.
Proof.
  intros H1 H2 H3 H4 H5 H6. apply cut in H1, H2, H3, H4. rewrite H4 in H3. rewrite H3 in H2. rewrite H2 in H1.
  match type of H1 with _ = ?pre ++ A :: ?m1 ++ B :: ?m2 ++ C :: ?p1 ++ D :: ?p2 => exists pre, m1, m2, p1, p2 end.
  split; [exact H1|]. split; [eapply none_stop; [|exact H6]|eapply none_removed; [|exact H5]]; intros ev Hev; rewrite H1; revert Hev; clear; rewrite !elem_of_app, !elem_of_cons, !elem_of_app, !elem_of_cons, !elem_of_app, !elem_of_cons, ?elem_of_app, ?elem_of_cons; tauto.
Qed.
Lemma session3 (a c d : nat) l A C D id : l !! a = Some A -> drop (S a) l !! c = Some C -> drop (S c) (drop (S a) l) !! d = Some D ->
  existsb (is_removed id) l = false -> existsb is_stop l = false ->
  exists pre m p1 p2, l = pre ++ A :: m ++ C :: p1 ++ D :: p2 /\ ~ stopping_all p2 /\ forall d, EvRemoved id d ∉ m ++ p1.
Proof.
  intros H1 H3 H4 H5 H6. apply cut in H1, H3, H4. rewrite H4 in H3. rewrite H3 in H1.
  match type of H1 with _ = ?pre ++ A :: ?m ++ C :: ?p1 ++ D :: ?p2 => exists pre, m, p1, p2 end.
  split; [exact H1|]. split; [eapply none_stop; [|exact H6]|eapply none_removed; [|exact H5]]; intros ev Hev; rewrite H1; revert Hev; clear; rewrite !elem_of_app, !elem_of_cons, !elem_of_app, !elem_of_cons, ?elem_of_app, ?elem_of_cons; tauto.
Qed.

Example C87_start_start_example : let s := rx_state rx rl_dup in reachable rx s /\ exists pre m1 m2 p1 p2,
  rlog s = pre ++ EvClient (CvRet 2 (KStart "a" 3) (RErr (Some (ETyped TAlreadyExists (MsgText "a"))))) :: m1 ++ EvClient (CvCall 2 (KStart "a" 3)) :: m2 ++
    EvClient (CvRet 0 (KStart "a" 1) (RErr None)) :: p1 ++ EvAnswer 0 "a" 1 None :: p2 /\
  ~ stopping_all (m1 ++ m2 ++ p1 ++ p2) /\ forall d, EvRemoved "a" d ∉ m1 ++ m2 ++ p1.
Proof. intros s. split; [rx_go|]. apply (session4 0 1 11 2); rx_go. Qed.
Example C87_start_worker_example : let s := rx_state rx rl_look in reachable rx s /\ exists pre m1 m2 p1 p2,
  rlog s = pre ++ EvClient (CvRet 5 (KWorker "a") (RWorker 2 12)) :: m1 ++ EvClient (CvCall 5 (KWorker "a")) :: m2 ++
    EvClient (CvRet 0 (KStart "a" 1) (RErr None)) :: p1 ++ EvAnswer 0 "a" 1 None :: p2 /\
  ~ stopping_all (m1 ++ m2 ++ p1 ++ p2) /\ forall d, EvRemoved "a" d ∉ m1 ++ m2 ++ p1.
Proof. intros s. split; [rx_go|]. apply (session4 0 1 22 2); rx_go. Qed.
Definition names_at (k : nat) (s : state) : gset string := match rlog s !! k with Some (EvClient (CvNames ns)) => ns | _ => ∅ end.
Example C87_start_names_example : let s := rx_state rx rl_look in reachable rx s /\ exists pre m p1 p2,
  rlog s = pre ++ EvClient (CvNames (names_at 4 s)) :: m ++ EvClient (CvRet 0 (KStart "a" 1) (RErr None)) :: p1 ++ EvAnswer 0 "a" 1 None :: p2 /\
  ~ stopping_all p2 /\ forall d, EvRemoved "a" d ∉ m ++ p1.
Proof. intros s. split; [rx_go|]. apply (session3 4 20 2); rx_go. Qed.
Example C87_stop_start_example : let s := rx_state rx rl_restop in reachable rx s /\ exists pre m post,
  rlog s = pre ++ EvSpawn 3 "a" 3 0 3 :: m ++ EvClient (CvRet 3 (KStop "a") (RErr None)) :: post.
Proof.
  intros s. split; [rx_go|]. assert (H1 : rlog s !! 1 = Some (EvSpawn 3 "a" 3 0 3)) by rx_go.
  assert (H2 : drop 2 (rlog s) !! 9 = Some (EvClient (CvRet 3 (KStop "a") (RErr None)))) by rx_go. apply cut in H1, H2. rewrite H2 in H1. eexists _, _, _. exact H1.
Qed.
Example C87_remove_start_example : let s := rx_state rx rl_renew in reachable rx s /\ exists pre m1 m2 post,
  rlog s = pre ++ EvClient (CvRet 6 (KStart "a" 3) (RErr None)) :: m1 ++ EvClient (CvCall 6 (KStart "a" 3)) :: m2 ++ EvClient (CvRet 4 (KStopRm "a") (RRemoved None)) :: post.
Proof.
  intros s. split; [rx_go|]. assert (H1 : rlog s !! 0 = Some (EvClient (CvRet 6 (KStart "a" 3) (RErr None)))) by rx_go.
  assert (H2 : drop 1 (rlog s) !! 3 = Some (EvClient (CvCall 6 (KStart "a" 3)))) by rx_go. assert (H3 : drop 4 (drop 1 (rlog s)) !! 0 = Some (EvClient (CvRet 4 (KStopRm "a") (RRemoved None)))) by rx_go.
  apply cut in H1, H2, H3. rewrite H3 in H2. rewrite H2 in H1. eexists _, _, _, _. exact H1.
Qed.
