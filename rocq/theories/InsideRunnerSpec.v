(** Vocabulary for C83, the runner: methods called from code of the user that the runner runs. *)
From stdpp Require Import gmap strings list.
From Verif Require Import Err Runner RunnerSpec.

(** The loop is handling the end of a worker (runner.go:456, :507-558), where it calls IsFatal (:524), MoreImportant (:526) and
    ShouldRestart (:540); *)
Definition judging (s : state) : Prop := exists g, c_loop (s_core s) = LDo (ADone g).
(** or it is calling Kill on workers (runner.go:612), with the mutex locked. *)
Definition killing (s : state) : Prop :=
  c_loop (s_core s) = LDo AKillAll \/ (exists id, c_loop (s_core s) = LDo (AKill id)) \/ exists g w, c_loop (s_core s) = LDo (ASet g w).
(** As long as that call has not returned, the loop does not go on; *)
Definition loop_waits (ls : list label) : Prop := LCore KAct ∉ ls.
(** and if it has locked the mutex, nobody else locks it. *)
Definition locks (l : label) : bool := match l with LLock _ | LWtWake _ | LNames | LReport _ => true | _ => false end.
Definition mutex_waits (ls : list label) : Prop := forall l, l ∈ ls -> locks l = false.
(** What the loop is doing, it does with the mutex locked. *)
Definition holds_mutex (P : rcfg) (s : state) : Prop := exists a, c_loop (s_core s) = LDo a /\ act_locks P (s_core s) a = true.
(** Things that only the loop does. *)
Definition by_loop (ev : event) : bool :=
  match ev with
  | EvAnswer _ _ _ _ | EvKnown _ _ _ | EvSpawn _ _ _ _ _ | EvSet _ _ _ | EvKill _ _ _ | EvDone _ _ _ _ | EvRemoved _ _ | EvStopReq _ _ | EvStopAll | EvDead => true
  | _ => false
  end.
