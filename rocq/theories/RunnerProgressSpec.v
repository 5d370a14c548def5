(** Vocabulary for C34: which steps the runner and its goroutines take by themselves. *)
From stdpp Require Import gmap strings list.
From Verif Require Import Err Runner RunnerSpec.

(** Steps of the run loop, of the runWorker goroutines, of the goroutines of workerInfo, and returns of user
    functions.  Not: calls by clients, the passing of time, worker.Wait calling runtime.Goexit. *)
Definition internal (l : label) : bool :=
  match l with
  | LCore (KDying | KRecvStarted _ | KRecvDone _ | KAct | KReturn | KBegin _ | KFire _ | KDelayAbort _ | KStartRet _ _
          | KGoexit _ | KEnd _ _ | KExit _) => true
  | LWtCheck _ | LWtAdd _ | LWtWake _ => true
  | _ => false
  end.

(** How many steps of a schedule are internal. *)
Fixpoint internal_steps (ls : list label) : nat :=
  match ls with
  | [] => 0
  | l :: ls' => (if internal l then 1 else 0) + internal_steps ls'
  end.

(** Steps by which a client gives the runner new work: a request is received, a goroutine for a caller of Worker or
    StopAndRemoveWorker is started, an aborted caller broadcasts. *)
Definition request (l : label) : bool :=
  match l with LRecvStart _ | LRecvStop _ | LLock _ | LSelAbort _ => true | _ => false end.

(** Steps that are bound to happen when they are possible: everything internal, except that a worker that the
    runner did not kill need not stop. *)
Definition owed (log : list event) (l : label) : Prop :=
  internal l = true /\
  match l with
  | LCore (KEnd g _) => exists id w, EvKill g id w ∈ log
  | _ => True
  end.

(** A goroutine is in its restart delay, and the clock has not reached the end of it. *)
Definition waits_for_clock (s : state) : Prop :=
  exists g id f x r, c_gors (s_core s) !! g = Some (mkWGor id f x (WTimer r)) /\ (c_now (s_core s) < r)%Z.

(** Goroutine [g] was started for StartWorker call [i] (not as a restart). *)
Definition started_for (log : list event) (g i : nat) : Prop :=
  exists pre id f d t dc post, log = pre ++ EvSpawn g id f d t :: EvKnown id f dc :: EvAnswer i id f None :: post.

(** Steps of the goroutines of runner.go:382-398, and of caller [i] picking up the answer. *)
Definition wakes (i : nat) (l : label) : bool :=
  match l with LWc j | LWcCheck j | LWtWake j => bool_decide (j = i) | LWtCheck _ | LWtAdd _ => true | _ => false end.
