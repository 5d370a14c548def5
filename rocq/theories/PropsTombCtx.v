(** C68: the contexts made from a tomb. *)
From stdpp Require Import gmap list.
From Verif Require Import TombCtx TombCtxProofs.

(** C68: the context that Context(p) returned is done exactly if the tomb is dying or p is done. *)
Theorem C68_done_iff s p c : c_reachable s -> EvContext p c ∈ c_log s ->
  (c_done s c = true <-> EvKilled ∈ c_log s \/ EvParentDone p ∈ c_log s).
Proof. exact (ctx_done_when s p c). Qed.
Print Assumptions C68_done_iff.

(** C68: as long as neither is, every call with the same parent returns the same context... *)
Theorem C68_same s p c c' : c_reachable s -> EvContext p c ∈ c_log s -> EvContext p c' ∈ c_log s ->
  EvKilled ∉ c_log s -> EvParentDone p ∉ c_log s -> c = c'.
Proof. exact (ctx_same s p c c'). Qed.
Print Assumptions C68_same.

(** ... and calls with different parents always return different ones. *)
Theorem C68_distinct s p c p' c' : c_reachable s -> EvContext p c ∈ c_log s -> EvContext p' c' ∈ c_log s -> p <> p' -> c <> c'.
Proof. exact (ctx_own s p c p' c'). Qed.
Print Assumptions C68_distinct.

(** C68: the context made from the background context (or from nil) ends only with the tomb. *)
Theorem C68_background s parent s' : c_reachable s -> parent = None \/ parent = Some background ->
  c_step s (LContext parent) = Some s' ->
  exists c, head (c_log s') = Some (EvContext background c) /\
    forall ls s'', c_run s' ls = Some s'' -> (c_done s'' c = true <-> EvKilled ∈ c_log s'').
Proof. exact (ctx_background_call s parent s'). Qed.
Print Assumptions C68_background.

(** C68: the tomb remembers a context it made until the parent is done or the tomb dies... *)
Theorem C68_kept s p c : c_reachable s -> EvContext p c ∈ c_log s -> EvKilled ∉ c_log s -> EvParentDone p ∉ c_log s ->
  c_child s !! p = Some c.
Proof. exact (ctx_kept s p c). Qed.
Print Assumptions C68_kept.

(** ... and forgets those whose parent is done when it makes the next one. *)
Theorem C68_pruned s parent s' q c : c_reachable s -> c_child s !! default background parent = None ->
  c_step s (LContext parent) = Some s' -> c_child s' !! q = Some c ->
  EvParentDone q ∉ c_log s' /\ EvKilled ∉ c_log s'.
Proof. exact (ctx_pruned s parent s' q c). Qed.
Print Assumptions C68_pruned.

(** Contexts 0 (of parent 7), 1 (of parent 8) and 2 (of the background) are made; 7 is asked for again, then done; the
    next call forgets context 0; the tomb dies; a late context is done at once. *)
Definition tl1 : list clabel := [LContext (Some 7); LContext (Some 8); LContext None; LContext (Some 7)].
Definition tl2 : list clabel := tl1 ++ [LParentDone 7].
Definition tl3 : list clabel := tl2 ++ [LContext (Some 9)].
Definition tl4 : list clabel := tl3 ++ [LKillTomb; LContext (Some 8)].
Definition tst (ls : list clabel) : cstate := default c_init (c_run c_init ls).
Lemma tst_reach ls : is_Some (c_run c_init ls) -> c_reachable (tst ls).
Proof. intros [s H]. exists ls. unfold tst. by rewrite H. Qed.
Example C68_example :
  (c_reachable (tst tl1) /\ c_log (tst tl1) = [EvContext 7 0; EvContext 0 2; EvContext 8 1; EvContext 7 0]) /\
  (c_done (tst tl2) 0 = true /\ c_done (tst tl2) 1 = false /\ c_child (tst tl2) !! 7 = Some 0) /\
  (c_child (tst tl2) !! 9 = None /\ c_step (tst tl2) (LContext (Some 9)) = Some (tst tl3) /\
    c_child (tst tl3) !! 7 = None /\ c_child (tst tl3) !! 8 = Some 1) /\
  (c_reachable (tst tl4) /\ head (c_log (tst tl4)) = Some (EvContext 8 4) /\ c_done (tst tl4) 4 = true /\
    c_done (tst tl4) 2 = true).
Proof.
  split_and!; first [vm_compute; reflexivity|apply tst_reach; vm_compute; eexists; reflexivity].
Qed.
