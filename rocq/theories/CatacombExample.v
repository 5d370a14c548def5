(** Concrete executions of the catacomb model, used by the Examples beside the property theorems. *)
From stdpp Require Import gmap strings list.
From Verif Require Import Err Tomb Catacomb CatacombSpec CatacombProgressSpec CatacombInv CatacombMore.

(** Workers 1 and 2 are Init workers. *)
Definition cx_plan : plan := mkPlan "c" true true [Some (WExt 1); Some (WExt 2)].
(** Invoke, whole *)
Definition cl_up : list label := LInvoke 0 cx_plan :: replicate 7 (LInv 0).
(** a second Invoke, with worker 5 *)
Definition cx_plan2 : plan := mkPlan "c" true true [Some (WExt 5)].
Definition cl_reuse : list label := cl_up ++ [LInvoke 1 cx_plan2; LInv 1; LInv 1; LInv 1; LEnd 5 None; LInv 1; LInv 1].
(** Invoke with a plan that is not valid *)
Definition cx_bad : plan := mkPlan "c" true true [Some (WExt 5); None].
Definition cl_bad : list label := [LInvoke 0 cx_bad; LInv 0; LInv 0; LEnd 5 (Some (EUser 5)); LInv 0; LInv 0; LInv 0].
(** ... whose worker does not finish *)
Definition cl_bad_wait : list label := [LInvoke 0 cx_bad; LInv 0; LInv 0].
(** worker 3 is added *)
Definition cl_add : list label := cl_up ++ [LAdd 0 (WExt 3); LHand 0; LAdded].
(** a client kills the catacomb *)
Definition cl_kill : list label := cl_add ++ [LKill (Some (EUser 9))].
(** Add on a dying catacomb *)
Definition cl_late : list label := cl_kill ++ [LAdd 1 (WExt 4); LAddDying 1; LAddKill 1; LEnd 4 None; LAddWaited 1;
  LAdd 2 (WExt 6); LAddDying 2; LAddKill 2; LEnd 6 (Some (EUser 6)); LAddWaited 2].
(** the bound worker n of binding b is stopped and finishes *)
Definition stop_ (b n : nat) (e : option err) : list label := [LStopDying b; LStopKill b; LEnd n e; LWaitRet b] ++
  (match e with Some _ => [LWaitKill b] | None => [] end) ++ [LWaitClose b; LWaitExit b; LStopWaited b; LStopExit b].
Definition work_ (e : option err) : list label := [LWorkRet (WkReturn e); LWorkKill].
Definition end_ : list label := [LLisDying; LWgWaited; LTombDone; LWait].
(** the shutdown; worker 2 fails on the way *)
Definition cl_dead : list label := cl_kill ++ stop_ 0 1 None ++ stop_ 1 2 (Some (EUser 2)) ++ stop_ 2 3 None ++ work_ (Some (ECatacombDying 0)) ++ end_.
(** all workers have been killed, none has finished *)
Definition cl_killed : list label := cl_kill ++ [LLisDying; LStopDying 0; LStopKill 0; LStopDying 1; LStopKill 1; LStopDying 2; LStopKill 2].
(** killed without an error, and once more when it is dead *)
Definition cl_nil : list label := cl_up ++ [LKill None] ++ stop_ 0 1 None ++ stop_ 1 2 None ++ work_ None ++ end_.
Definition cl_after : list label := cl_nil ++ [LKill (Some (EUser 9)); LWait].
(** worker 1 finishes without an error *)
Definition cl_clean : list label := cl_up ++ [LEnd 1 None].
Definition cl_clean_gone : list label := cl_clean ++ [LWaitRet 0; LWaitClose 0; LWaitExit 0; LStopDone 0; LStopExit 0].
(** ... with an error *)
Definition cl_fail : list label := cl_up ++ [LEnd 1 (Some (EUser 7)); LWaitRet 0; LWaitKill 0; LWaitClose 0; LWaitExit 0; LStopDone 0; LStopExit 0; LStopDying 1; LStopKill 1; LLisDying].
(** Work panics *)
Definition cl_panic : list label := cl_up ++ [LWorkRet (WkPanic 13); LWorkKill] ++ stop_ 0 1 None ++ stop_ 1 2 None ++ end_.
(** Work calls runtime.Goexit *)
Definition cl_goexit : list label := cl_up ++ [LWorkRet WkGoexit; LKill None] ++ stop_ 0 1 None ++ stop_ 1 2 None ++ [LLisDying; LWgWaited].
(** the parent worker is added to its own catacomb *)
Definition cl_self : list label := cl_up ++ [LAdd 0 WSelf; LHand 0; LAdded; LKill None] ++ stop_ 0 1 None ++ stop_ 1 2 None ++ work_ None ++ [LLisDying; LStopDying 2; LStopKill 2].
(** Kill(tomb.ErrStillAlive), by a client and by a worker *)
Definition cl_still : list label := cl_up ++ [LKill (Some ETombStillAlive)].
Definition cl_crash : list label := cl_up ++ [LEnd 1 (Some ETombStillAlive); LWaitRet 0; LWaitKill 0].
(** Add before Invoke *)
Definition cl_early : list label := [LAdd 0 (WExt 3)] ++ cl_up.
(** ErrDying, alive and dying *)
Definition cl_errdying : list label := cl_up ++ [LErrDying; LKill None; LErrDying].

Definition cx (ls : list label) : state := default init (run 0 init ls).
Definition cx_ok (ls : list label) : bool := match run 0 init ls with Some _ => true | None => false end.
Lemma cx_run ls : cx_ok ls = true -> run 0 init ls = Some (cx ls).
Proof. unfold cx_ok, cx. by destruct (run 0 init ls). Qed.
Lemma cx_reach ls : cx_ok ls = true -> reachable 0 (cx ls).
Proof. intros H. exists ls. by apply cx_run. Qed.
Lemma cx_rest ls : cx_ok ls = true -> forallb (fun l => negb (internal l) || match step 0 (cx ls) l with None => true | Some _ => false end) (enabled_labels (cx ls)) = true -> at_rest 0 (cx ls).
Proof.
  intros Hok H l Hi. destruct (step 0 (cx ls) l) eqn:E; [|done]. pose proof (enabled_in 0 (cx ls) l _ (reach_cinv 0 _ (cx_reach ls Hok)) E Hi) as Hin.
  rewrite forallb_forall in H. apply elem_of_list_In in Hin. specialize (H l Hin). cbn beta in H. by rewrite E, Hi in H.
Qed.
Lemma cx_present (k : nat) (log : list event) ev : log !! k = Some ev -> ev ∈ log.
Proof. apply elem_of_list_lookup_2. Qed.
Lemma cx_absent (p : event -> bool) log : existsb p log = false -> forall ev, p ev = true -> ev ∉ log.
Proof.
  induction log as [|x log IH]; simpl; intros H ev Hp; [apply not_elem_of_nil|].
  apply orb_false_iff in H as [H1 H2]. intros [->|Hx]%elem_of_cons; [congruence|]. by eapply IH.
Qed.
Definition later (k : nat) (s : state) : list event := take k (x_log s).
Definition before (k : nat) (s : state) : list event := drop (S k) (x_log s).
Lemma cx_split (k : nat) s ev : x_log s !! k = Some ev -> x_log s = later k s ++ ev :: before k s.
Proof. intros H. symmetry. by apply take_drop_middle. Qed.
Ltac cx_find k := first [apply (cx_present k); vm_compute; reflexivity|let k' := constr:(S k) in cx_find k'].
Ltac cx_go := lazymatch goal with
  | |- reachable _ _ => apply cx_reach; vm_compute; reflexivity
  | |- at_rest _ _ => apply cx_rest; vm_compute; reflexivity
  | |- run _ _ _ = Some (cx _) => apply cx_run; vm_compute; reflexivity
  | |- x_log _ = later _ _ ++ _ => apply cx_split; vm_compute; reflexivity
  | |- _ ∈ _ => cx_find 0
  | |- _ => vm_compute; reflexivity end.
