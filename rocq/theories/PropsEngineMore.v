(** C23 (killed workers), C66, C67, C70 and C71: the engine's contexts, nested reports, the engine as its own
    worker, and the record of getter calls. *)
From stdpp Require Import gmap strings list.
From Coq Require Import ZArith.
From Verif Require Import Err Tomb Snapshot Engine SelfManifold EngineSpec EngineMoreSpec EngineMore2 EngineLeak EngineExample.

(** C23: the context of an attempt whose worker the engine killed is done. *)
Theorem C23_killed_done E s g n w : reachable E s -> EvKill g n w ∈ s_log s -> ctx_done s g = true.
Proof. exact (killed_ctx_done E s g n w). Qed.
Print Assumptions C23_killed_done.

Example C23_killed_example : let s := ex_state ex_env ls_fail in
  reachable ex_env s /\ EvKill 1 "api" (WExt 11) ∈ s_log s /\ dying s = false /\ ctx_done s 0 = false.
Proof. intros s. split; [apply ex_reach; vm_compute; reflexivity|]. split; [apply (ex_present 0); ex_go|]. split; ex_go. Qed.

(** C66: a report has a nested report for a manifold exactly if the manifold has a worker, other than the engine, that
    is a Reporter; it is what that worker's Report method returned for this report. *)
Theorem C66_nested_report E s pre r post n mr : reachable E s -> s_log s = pre ++ EvReport r :: post ->
  rp_manifolds r !! n = Some mr ->
  forall k, mr_report mr = Some k <->
    exists g w, registered post n = Some (g, WExt w) /\ e_reporter E w = true /\ k = e_wreport E (length post) w.
Proof. exact (nested_report E s pre r post n mr). Qed.
Print Assumptions C66_nested_report.

(** db's worker 12 is a Reporter, api's worker 11 was not, the engine installed in itself is not asked. *)
Definition m_user : manifold := mkManifold ["self"; "db"] 5 None (Some 103).
Definition up_self (g : nat) : list label := [LDelayFire g; LStartRet g (inl WSelf); LExpire g; LStarted g].
Definition ls_self : list label := LInstall "self" (self_manifold 4 40) :: up_self 0 ++ LInstall "db" m_db :: up 1 12 ++ LInstall "api" m_db :: up 2 11.
Definition report_of (k : nat) (s : state) (n : string) : option mreport :=
  match s_log s !! k with Some (EvReport r) => rp_manifolds r !! n | _ => None end.
Example C66_example : let s := ex_state ex_env (ls_self ++ [LReport]) in
  reachable ex_env s /\
  report_of 0 s "db" = Some (mkMReport SStarted [] (Some 1) (Some 0%Z) None (Some 120)) /\
  report_of 0 s "api" = Some (mkMReport SStarted [] (Some 1) (Some 0%Z) None None) /\
  report_of 0 s "self" = Some (mkMReport SStarted [] (Some 1) (Some 0%Z) None None) /\
  registered (s_log s) "self" = Some (0, WSelf).
Proof. intros s. split; [apply ex_reach; vm_compute; reflexivity|]. split_and!; ex_go. Qed.

(** C67: the context of an attempt that is over is done if the attempt was asked to stop or the engine is dying
    (missing: the attempts that ended by themselves). *)
Theorem C67_context_released_partial E s g n raw e t : reachable E s -> EvStopped g n raw e t ∈ s_log s ->
  asked_to_stop (s_log s) g \/ is_dying (s_log s) -> ctx_done s g = true.
Proof. exact (stopped_ctx_done E s g n raw e t). Qed.
Print Assumptions C67_context_released_partial.

(** C67: otherwise it is not, until the engine dies. *)
Theorem C67_context_kept E s g n raw e t : reachable E s -> EvStopped g n raw e t ∈ s_log s ->
  ~ asked_to_stop (s_log s) g -> ~ is_dying (s_log s) -> ctx_done s g = false.
Proof. exact (own_end_ctx E s g n raw e t). Qed.
Print Assumptions C67_context_kept.

(** C67: a live engine can have any number of attempts that are over and whose contexts are not done. *)
Theorem C67_context_released_refuted : exists E, forall N : nat, exists s, reachable E s /\ dying s = false /\
  forall g, g < N -> (exists n raw e t, EvStopped g n raw e t ∈ s_log s) /\ ctx_done s g = false.
Proof. exact ctx_leak. Qed.
Print Assumptions C67_context_released_refuted.

Example C67_example : let s := ex_state ex_env ls_miss in
  reachable ex_env s /\ EvStopped 1 "api" None None 0 ∈ s_log s /\ ctx_done s 1 = true /\
  EvStopped 0 "db" (Some (EUser 1)) (Some (EUser 1)) 0 ∈ s_log s /\ ctx_done s 0 = false /\ dying s = false.
Proof.
  intros s. split; [apply ex_reach; vm_compute; reflexivity|]. split; [apply (ex_present 5); ex_go|]. split; [ex_go|].
  split; [apply (ex_present 10); ex_go|]. split; ex_go.
Qed.

(** C70: if the engine kills a worker that is the engine itself, the engine is dying. *)
Theorem C70_kill_self E s g n : reachable E s -> EvKill g n WSelf ∈ s_log s -> is_dying (s_log s).
Proof. exact (self_kill_dying E s g n). Qed.
Print Assumptions C70_kill_self.

(** C70: an attempt whose Start returned the engine ends only once the engine is dying, with tomb.ErrDying. *)
Theorem C70_self_exit E s pre g n e post : reachable E s -> s_log s = pre ++ EvExit g n e :: post ->
  EvStartRet g n (inl WSelf) ∈ s_log s -> is_dying post /\ e = Some ETombDying.
Proof. exact (self_exit E s pre g n e post). Qed.
Print Assumptions C70_self_exit.

(** C70: the Output func [o] of a SelfManifold is only ever called with the engine, so a Get inside Start that
    reaches it succeeds exactly for a *Installer or a *Reporter. *)
Theorem C70_self_output E s f o pre g k t r w post : reachable E s ->
  self_start (s_log s) f -> goes_with (s_log s) o f -> (forall w t, e_outf E o w t = self_output w t) ->
  s_log s = pre ++ EvGet g k (Some t) r (Some (o, w, t)) :: post ->
  start_called post g -> (forall n' r', EvStartRet g n' r' ∉ post) ->
  w = WSelf /\ (r = None <-> t = out_installer \/ t = out_reporter).
Proof. exact (self_output_ok E s f o pre g k t r w post). Qed.
Print Assumptions C70_self_output.

(** C70: called with anything else, by whomever, that Output func fails. *)
Theorem C70_self_output_func w t : self_output w t = None <-> w = WSelf /\ (t = out_installer \/ t = out_reporter).
Proof. exact (self_output_func w t). Qed.
Print Assumptions C70_self_output_func.

(** C70: the engine, installed in itself, is asked to stop only when it is dying anyway: SelfManifold has no inputs. *)
Theorem C70_self_never_bounced E s pre g n f o post : reachable E s -> s_log s = pre ++ EvCancel g n :: post -> installed post n = Some (self_manifold f o) -> is_dying post.
Proof. exact (self_never_bounced E s pre g n f o post). Qed.
Print Assumptions C70_self_never_bounced.
Example C70_example_never_bounced : let s := ex_state ex_env (ls_self ++ [LKill; LDying]) in reachable ex_env s /\
  exists pre g post, s_log s = pre ++ EvCancel g "self" :: post /\ installed post "self" = Some (self_manifold 4 40).
Proof.
  intros s. split; [apply ex_reach; vm_compute; reflexivity|]. exists (later 1 s), 0, (before 1 s). split; [ex_go|vm_compute; reflexivity].
Qed.

(** db stops, so the manifold that wraps the engine and needs db is asked to stop: the engine kills itself. *)
Definition m_wrap : manifold := mkManifold ["db"] 6 None None.
Definition ls_suicide : list label :=
  LInstall "db" m_db :: up 0 10 ++ LInstall "wrap" m_wrap :: up_self 1 ++ down 0 None.
Definition self_env : env := mkEnv ex_cfg (fun _ => false) (fun _ n => String.length n) (fun _ d r => (d + Z.of_nat r)%Z)
  (fun o w t => if bool_decide (o = 40) then self_output w t else None) Nat.even (fun _ w => w * 10).
Definition ls_self_get : list label := ls_self ++ LInstall "user" m_user :: [LDelayFire 3; LGet 3 "self" (Some 0); LGet 3 "self" (Some 7)].
Example C70_example :
  (let s := ex_state ex_env ls_suicide in reachable ex_env s /\ EvKill 1 "wrap" WSelf ∈ s_log s /\ EvDead ∈ s_log s /\
     registered (s_log s) "wrap" = Some (1, WSelf)) /\
  (let s := ex_state ex_env (ls_suicide ++ [LSelfDying 1]) in reachable ex_env s /\
     s_log s = later 0 s ++ EvExit 1 "wrap" (Some ETombDying) :: before 0 s /\ EvStartRet 1 "wrap" (inl WSelf) ∈ s_log s) /\
  (let s := ex_state self_env ls_self_get in reachable self_env s /\ s_running s = true /\
     s_log s !! 1 = Some (EvGet 3 "self" (Some 0) None (Some (40, WSelf, 0))) /\
     start_called (before 1 s) 3 /\ self_start (s_log s) 4 /\ goes_with (s_log s) 40 4).
Proof.
  split_and!; intros s; (split; [apply ex_reach; vm_compute; reflexivity|]).
  - split; [apply (ex_present 2); ex_go|]. split; [apply (ex_present 0); ex_go|ex_go].
  - split; [ex_go|]. apply (ex_present 9). ex_go.
  - split; [ex_go|]. split; [ex_go|]. split; [exists "user", 5, 0%Z; apply (ex_present 0); ex_go|]. split.
    + intros g n t r Hc Hr. apply (ex_all (fun ev => match ev with EvStartCall g _ f _ => negb (f =? 4) || (g =? 0) | _ => true end)%nat) in Hc; [|ex_go].
      apply (ex_all (fun ev => match ev with EvStartRet g _ r => negb (g =? 0) || match r with inl WSelf => true | _ => false end | _ => true end)%nat) in Hr; [|ex_go].
      simpl in Hc. apply Nat.eqb_eq in Hc as ->. simpl in Hr. by destruct r as [[]|].
    + intros n m Hi. apply (ex_all (fun ev => match ev with EvInstalled _ m => negb (bool_decide (m_output m = Some 40)) || (m_start m =? 4) | _ => true end)%nat) in Hi; [|ex_go].
      simpl in Hi. intros Ho. rewrite bool_decide_eq_true_2 in Hi by done. by apply Nat.eqb_eq in Hi.
Qed.

(** C71: the engine keeps, for every installed manifold, the getter calls of the attempt it heard of last: all those
    made before Start returned, and of the later ones all but some that were answered "expired". *)
Theorem C71_access_log E s n i : reachable E s -> s_current s !! n = Some i ->
  match last_logged (s_log s) n with
  | None => i_rlog i = []
  | Some g =>
    (exists late, accesses (s_log s) g = i_rlog i ++ late /\ forall a, a ∈ late -> a_err a = Some (EMsg MsgExpired)) /\
    (forall pre n' r post, s_log s = pre ++ EvStartRet g n' r :: post -> exists k, i_rlog i = accesses post g ++ k)
  end.
Proof. exact (rlog_true E s n i). Qed.
Print Assumptions C71_access_log.

Example C71_example : let s := ex_state ex_env (ls_up ++ [LGet 1 "db" None]) in
  reachable ex_env s /\ last_logged (s_log s) "api" = Some 1 /\
  i_rlog (info_of s "api") = [mkAccess "db" (Some 7) None] /\
  accesses (s_log s) 1 = [mkAccess "db" (Some 7) None; mkAccess "db" None (Some (EMsg MsgExpired))].
Proof. intros s. split; [apply ex_reach; vm_compute; reflexivity|]. split_and!; ex_go. Qed.
