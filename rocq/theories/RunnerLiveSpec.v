(** Vocabulary for C74: the steps that the code of the runner takes by itself. *)
From stdpp Require Import gmap strings list.
From Coq Require Import ZArith.
From Verif Require Import Err Runner RunnerSpec.

(** Steps of the run loop, of the runWorker goroutines, of the goroutines of workerInfo, and of callers inside the
    methods of the runner.  Not: new calls, Kill, the passing of time, a context or abort channel that is done, start
    funcs that return, workers that finish. *)
Definition works (l : label) : bool :=
  match l with
  | LCore (KDying | KRecvStarted _ | KRecvDone _ | KAct | KReturn | KBegin _ | KFire _ | KDelayAbort _ | KExit _) => true
  | LRecvStart _ | LStartCtx _ | LCallDead _ | LRecvStop _ | LLock _ | LCheck _ | LWc _ | LWcCheck _ | LSelDying _ | LSelAbort _
  | LStopKill _ | LStopWaited _ | LDoneAbort _ | LDoneRecv _ | LWtCheck _ | LWtAdd _ | LWtWake _ => true
  | _ => false
  end.
(** The runner and its callers have done all they can do for now. *)
Definition at_rest (P : rcfg) (s : state) : Prop := forall l, works l = true -> step P s l = None.

Definition call_returned (log : list event) (i : nat) (k : call) : Prop := exists r, EvClient (CvRet i k r) ∈ log.
(** The program crashed in the tomb: the run loop returned an error that tomb.v2 does not accept. *)
Definition crashed (P : rcfg) (s : state) : Prop :=
  c_loop (s_core s) = LEnded /\ exists e, final_of P (rlog s) = Some e /\ (e = ETombStillAlive \/ e = ETombDying).
(** Goroutine [g] is in its restart delay, and the clock has not reached the end of it. *)
Definition delayed (s : state) (g : nat) : Prop :=
  exists r ready, c_gors (s_core s) !! g = Some r /\ w_pc r = WTimer ready /\ (c_now (s_core s) < ready)%Z.
