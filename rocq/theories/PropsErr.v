(** C79: errors are recognised through any number of wrappings. *)
From stdpp Require Import gmap strings list.
From Coq Require Import ZArith.
From Verif Require Import Err ErrSpec ErrProofs.
From Verif Require Import Tomb Snapshot Engine EngineSpec EngineExample.
From Verif Require Catacomb CatacombSpec CatacombExample.

(** C79: what the model uses for [errors.Is] on the constants and types of errors, and for [errors.As], looks through all wrappings. *)
Theorem C79_is e t : err_is e t = true <-> chain e t.
Proof. exact (is_chain e t). Qed.
Print Assumptions C79_is.
Theorem C79_is_const e c : is_const e c = true <-> exists x, e = Some x /\ chain x (EConst c).
Proof. exact (is_const_chain e c). Qed.
Print Assumptions C79_is_const.
Theorem C79_is_type e t : is_type e t = true <-> exists m, chain e (ETyped t m).
Proof. exact (type_chain e t). Qed.
Print Assumptions C79_is_type.
Theorem C79_as e c : as_dying e = Some c <-> chain e (ECatacombDying c).
Proof. exact (as_chain e c). Qed.
Print Assumptions C79_as.

(** C79: the engine's verdict on an error exists, is unique, and wrappings do not change it. *)
Theorem C79_verdict e : exists v, engine_verdict e v /\ forall v', engine_verdict e v' -> v' = v.
Proof. destruct (verdict_exists e) as [v Hv]. exists v. split; [exact Hv|]. intros v' Hv'. exact (verdict_unique e v' v Hv' Hv). Qed.
Print Assumptions C79_verdict.
Theorem C79_verdict_wrapped ms e v : engine_verdict (Some (wrapped ms e)) v <-> engine_verdict (Some e) v.
Proof. exact (verdict_wrapped ms e v). Qed.
Print Assumptions C79_verdict_wrapped.

(** C79: and this verdict is what happens to a manifold that ended by itself while the engine is alive. *)
Theorem C79_engine E s pre g n raw e t post v : reachable E s -> ~ is_dying (s_log s) ->
  s_log s = pre ++ EvStopped g n raw e t :: post -> ~ asked_to_stop post g -> engine_verdict e v ->
  match v with
  | RestartSoon | RestartLater =>
    exists pre' g' sn t', pre = pre' ++ [EvAttempt g' n sn t' (attempt_delay E g'
      (match v with RestartSoon => c_bounceDelay (e_cfg E) | _ => c_errorDelay (e_cfg E) end) (error_count (e_cfg E) (EvStopped g n raw e t :: post) n))]
  | Remove => exists pre', pre = pre' ++ [EvUninstall n]
  | Leave => forall p2 g' sn t' d p1, pre = p2 ++ EvAttempt g' n sn t' d :: p1 -> (forall g0 raw0 e0 t0, EvStopped g0 n raw0 e0 t0 ∉ p1) ->
      (exists q1 ev q2 x, p1 = q1 ++ ev :: q2 /\ came_or_went ev (q2 ++ EvStopped g n raw e t :: post) x /\ depends_on (p1 ++ EvStopped g n raw e t :: post) n x) \/
      (exists m, EvInstalled n m ∈ p1)
  end.
Proof. exact (engine_wrapped E s pre g n raw e t post v). Qed.
Print Assumptions C79_engine.

(** C79: Kill on a catacomb that is dying without an error: its own ErrDying, wrapped or not, changes nothing; that of another
    catacomb, wrapped or not, and tomb.ErrDying are complained about; every other error is kept as it is. *)
Theorem C79_catacomb me s e s' : Catacomb.reachable me s -> CatacombSpec.is_dying (Catacomb.x_log s) -> tomb_err (Catacomb.x_tomb s) = None ->
  e <> ETombStillAlive -> Catacomb.step me s (Catacomb.LKill (Some e)) = Some s' ->
  (chain e (ECatacombDying me) /\ tomb_err (Catacomb.x_tomb s') = None) \/
  (exists c, c <> me /\ chain e (ECatacombDying c) /\ tomb_err (Catacomb.x_tomb s') = Some (EMsg MsgBadKillOther)) \/
  (e = ETombDying /\ tomb_err (Catacomb.x_tomb s') = Some (EMsg MsgBadKillTomb)) \/
  (e <> ETombDying /\ (forall c, ~ chain e (ECatacombDying c)) /\ tomb_err (Catacomb.x_tomb s') = Some e).
Proof. exact (catacomb_wrapped me s e s'). Qed.
Print Assumptions C79_catacomb.

(** db ends with an ErrBounce wrapped twice, and is restarted at once (BounceDelay 1, ErrorDelay 3; the delay grows by one per
    error); then with a wrapped ErrUninstall. api ended with a wrapped ErrMissing and is left alone until db is back. *)
Definition twice (c : const_err) : option err := Some (wrapped [MsgNote 2; MsgTrace] (EConst c)).
Definition ls_bounced : list label := LInstall "db" m_db :: up 0 10 ++ down 0 (twice KBounce).
Definition ls_removed : list label := ls_bounced ++ LTick 9 :: up 1 11 ++ down 1 (twice KUninstall).
Example C79_engine_example :
  (let s := ex_state ex_env ls_bounced in reachable ex_env s /\ ~ is_dying (s_log s) /\
   s_log s = [EvAttempt 1 "db" (snap_at 0 s) 0 2] ++ EvStopped 0 "db" (twice KBounce) (twice KBounce) 0 :: before 1 s /\ ~ asked_to_stop (before 1 s) 0) /\
  (let s := ex_state ex_env ls_removed in reachable ex_env s /\ ~ is_dying (s_log s) /\
   s_log s = [EvUninstall "db"] ++ EvStopped 1 "db" (twice KUninstall) (twice KUninstall) 9 :: before 1 s /\ ~ asked_to_stop (before 1 s) 1) /\
  (let s := ex_state ex_env ls_back in reachable ex_env s /\ ~ is_dying (s_log s) /\
   s_log s = later 5 s ++ EvStopped 3 "api" (Some (EWrap (MsgNote 0) (EConst KMissing))) (Some (EWrap (MsgNote 0) (EConst KMissing))) 2 :: before 5 s /\ ~ asked_to_stop (before 5 s) 3).
Proof.
  split; [|split]; cbv zeta; (split; [apply ex_reach; vm_compute; reflexivity|]); (split; [apply ex_alive; vm_compute; reflexivity|]);
    (split; [ex_go|apply ex_not_asked; vm_compute; reflexivity]).
Qed.
Example C79_verdict_example : engine_verdict (twice KBounce) RestartSoon /\ engine_verdict (twice KUninstall) Remove /\
  engine_verdict (Some (EWrap (MsgNote 0) (EConst KMissing))) Leave /\ engine_verdict (Some (EWrap (MsgNote 0) (EUser 7))) RestartLater /\ engine_verdict None Leave.
Proof.
  split_and!.
  - do 2 right. left. split; [repeat constructor|done].
  - do 3 right. left. split; [repeat constructor|done].
  - left. split; [repeat constructor|done].
  - do 4 right. split; [|done]. intros c _ H. inversion H; subst. match goal with H : chain (EUser _) _ |- _ => inversion H end.
  - done.
Qed.
(** Its own ErrDying, wrapped; another catacomb's, wrapped; a wrapped tomb.ErrDying is an error like any other. *)
Definition kill_of (e : err) : option (option err) :=
  match Catacomb.step 0 (CatacombExample.cx CatacombExample.cl_errdying) (Catacomb.LKill (Some e)) with Some s' => Some (tomb_err (Catacomb.x_tomb s')) | None => None end.
Example C79_catacomb_example : let s := CatacombExample.cx CatacombExample.cl_errdying in
  Catacomb.reachable 0 s /\ CatacombSpec.is_dying (Catacomb.x_log s) /\ tomb_err (Catacomb.x_tomb s) = None /\
  kill_of (wrapped [MsgTrace; MsgNote 1] (ECatacombDying 0)) = Some None /\
  kill_of (EWrap MsgTrace (ECatacombDying 3)) = Some (Some (EMsg MsgBadKillOther)) /\
  kill_of ETombDying = Some (Some (EMsg MsgBadKillTomb)) /\
  kill_of (EWrap MsgTrace ETombDying) = Some (Some (EWrap MsgTrace ETombDying)).
Proof.
  intros s. split; [CatacombExample.cx_go|]. split; [exists Catacomb.FromClient, None; CatacombExample.cx_go|]. split_and!; vm_compute; reflexivity.
Qed.
