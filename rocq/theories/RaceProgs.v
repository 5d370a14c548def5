(** runner.go, dependency/engine.go, dependency/snapshot.go and catacomb/catacomb.go, as programs of Race.v.

    Every read and write of a field that several goroutines can get at is there. Left out: variables that one goroutine
    never shares (locals, tickets before they are sent, reports before they are returned), what sync, tomb, context and the
    clock synchronise by themselves, and user functions, except that they may call the API. Receives from a closed channel
    that only report dying, and channels with a buffer, would order more events; they are left out too. *)
From stdpp Require Import gmap strings list.
From Verif Require Import Race.

(** Fields of the runner, engine or catacomb that nobody changes after construction: channels, params, config.
    runner.go:34-39, 61, 69; engine.go:158, 183-190. *)
Definition consts : loc := ("consts"%string, 0).
(** The channel of tomb.Dead. engine.go:253, runner.go:268, 281. *)
Definition dead : nat := 0.

(** ** runner.go *)
Module R.
Definition isDying : loc := ("isDying"%string, 0).
Definition finalError : loc := ("finalError"%string, 0).
Definition workers : loc := ("workers"%string, 0).
(* the fields of all workerInfo values, runner.go:73-103 *)
Definition i_worker : loc := ("workerInfo.worker"%string, 0).
(** runner.go:81 *)
Definition i_labels : loc := ("workerInfo.labels"%string, 0).
(** runner.go:86 *)
Definition i_start : loc := ("workerInfo.start"%string, 0).
(** runner.go:90 *)
Definition i_restartDelay : loc := ("workerInfo.restartDelay"%string, 0).
(** runner.go:95 *)
Definition i_stopping : loc := ("workerInfo.stopping"%string, 0).
(** runner.go:99 *)
Definition i_done : loc := ("workerInfo.done"%string, 0).
(** runner.go:102 *)
Definition i_started : loc := ("workerInfo.started"%string, 0).
(** runner.go:57 *)
Definition mu : nat := 0.
(** runner.go:34 *)
Definition startc : nat := 1.
(** runner.go:119 *)
Definition reply : nat := 2.
(** runner.go:35 *)
Definition stopc : nat := 3.
(** runner.go:37 *)
Definition startedc : nat := 4.
(** runner.go:36 *)
Definition donec : nat := 5.

(** runner.go:350-358 [getWorker], when it found an entry or not *)
Definition getWorker : list cmd := [Rd workers; Choose [[]; [Rd i_worker; Rd i_done]]].
(** runner.go:381-397: the goroutine that waits. It starts with the mutex locked by its parent, and unlocks it. *)
Definition waiter : list cmd :=
  [Many ([Unlock mu; Lock mu] (* :390 Cond.Wait *) ++ getWorker); Unlock mu].
(** runner.go:345-425 [workerInfo] *)
Definition workerInfo : list cmd :=
  [Lock mu] ++ getWorker ++
  [Choose [ [Unlock mu; Rd consts];                                    (* :363-373 *)
            [Go waiter; Rd consts] ]].                                 (* :380-424 *)
(** runner.go:254-272 [StartWorker] *)
Definition StartWorker : list cmd := [Rd consts; Choose [[Send startc; Recv reply]; []; [Closed dead]]].
(** runner.go:277-285 [StopWorker] *)
Definition StopWorker : list cmd := [Rd consts; Choose [[Send stopc]; [Closed dead]]].
(** runner.go:334-343 [WorkerNames] *)
Definition WorkerNames : list cmd := [Lock mu; Many [Rd workers]; Unlock mu].
(** runner.go:672-696 [Report], runner.go:105-113 [status] *)
Definition Report : list cmd :=
  [Lock mu; Many [Rd workers; Rd i_worker; Rd i_stopping; Rd i_worker; Rd i_started]; Unlock mu].
(** What clients may do, also from start funcs and workers. Worker (:326) and StopAndRemoveWorker (:291) share workerInfo;
    Kill (:312), Wait (:307). *)
Definition api : list (list cmd) :=
  [StartWorker; StopWorker; workerInfo; WorkerNames; Report; [Rd consts] (* Kill *); [Closed dead] (* Wait *)].
(** As above, any number of times (runner.go:254-343, 672). *)
Definition user : cmd := Many [Choose api].

(** runner.go:620-665 [runWorker] *)
Definition runWorker : list cmd :=
  [Rd consts;
   Choose [ [Send donec];                                              (* :627 *)
            [user;                                                     (* :656 the start func *)
             Choose [ [Send donec];                                    (* :654, :664 *)
                      [Send startedc; user; Send donec] ]] ]].         (* :660, :661 the worker, :664 *)
(** runner.go:603-617 [killWorkerLocked] *)
Definition killWorkerLocked : list cmd :=
  [Rd workers; Choose [[]; [Wr i_stopping; Wr i_start; Rd i_worker; Choose [[]; [Rd consts; Rd i_worker; Wr i_worker]; [Rd consts]]]]].
(** runner.go:584-590 [killAll] *)
Definition killAll : list cmd := [Lock mu; Many (Rd workers :: killWorkerLocked); Unlock mu].
(** runner.go:595-599 [killWorker] *)
Definition killWorker : list cmd := [Lock mu] ++ killWorkerLocked ++ [Unlock mu].
(** runner.go:571-581 [setWorker] *)
Definition setWorker : list cmd :=
  [Lock mu; Rd workers; Wr i_worker; Rd isDying; Rd i_stopping; Choose [[]; killWorkerLocked]; Unlock mu].
(** runner.go:563-568 [removeWorker] *)
Definition removeWorker : list cmd := [Lock mu; Rd workers; Wr workers; Unlock mu].
(** runner.go:464-496 [startWorker] *)
Definition startWorker : list cmd :=
  [Rd isDying;
   Choose [ [];
            [Rd workers];
            [Rd workers; Rd consts; Lock mu;
             Wr i_labels; Wr i_start; Wr i_restartDelay; Wr i_started; Wr i_done; Wr i_worker; Wr i_stopping; Wr workers;  (* :483-489 *)
             Go runWorker; Unlock mu] ]].
(** runner.go:507-558 [workerDone] *)
Definition workerDone : list cmd :=
  [Rd consts; Rd workers; Rd i_stopping;
   Choose [ [Rd i_done] ++ removeWorker;                               (* :514 *)
            [Rd finalError; Choose [[]; [Wr finalError]]; Rd i_done] ++ removeWorker ++  (* :526-529 *)
              [Rd isDying; Choose [[]; Wr isDying :: killAll]];        (* :530-533 *)
            [Rd i_done] ++ removeWorker;                               (* :541 *)
            [Rd i_start; Rd i_done] ++ removeWorker;                   (* :546-552 *)
            [Rd i_start; Rd i_labels; Rd i_restartDelay; Rd i_start; Go runWorker; Wr i_restartDelay] ]].  (* :554-557 *)
(** runner.go:427-460 [run] *)
Definition run : list cmd :=
  [Many [Rd isDying; Choose [[]; [Rd workers]];
         Choose [ Wr isDying :: killAll;                               (* :434-438 *)
                  [Recv startc] ++ startWorker ++ [Send reply];        (* :440-442 *)
                  [Recv stopc] ++ killWorker;                          (* :444-446 *)
                  [Recv startedc] ++ setWorker;                        (* :448-450 *)
                  [Recv donec] ++ workerDone ]];                       (* :454-456 *)
   Rd isDying; Rd workers; Rd finalError; Close dead].                 (* :430-431; the tomb *)
(** runner.go:206-248 [NewRunner], and any number of clients *)
Definition main : list cmd := [Go run; Many [Go [user]]].
(** runner.go:206-248; the fields that NewRunner sets. *)
Definition prog : prog := mkProg [consts; workers; isDying; finalError] main.
End R.

(** ** dependency/engine.go, dependency/snapshot.go *)
Module E.
Definition worstError : loc := ("worstError"%string, 0).
(** engine.go:173 *)
Definition manifolds : loc := ("manifolds"%string, 0).
(** engine.go:176 *)
Definition dependents : loc := ("dependents"%string, 0).
(** engine.go:179 *)
Definition current : loc := ("current"%string, 0).
(* a snapshot: its workers, outputs, expired, ctx and logger; its access log *)
(** snapshot.go:17-39 *)
Definition snap (o : nat) : loc := ("snapshot"%string, o).
(** snapshot.go:35 *)
Definition accessLog (o : nat) : loc := ("snapshot.accessLog"%string, o).
(** engine.go:183 *)
Definition install : nat := 1.
(** engine.go:829 *)
Definition installed : nat := 2.
(** engine.go:186 *)
Definition report : nat := 3.
(** engine.go:851 *)
Definition reported : nat := 4.
(** engine.go:184 *)
Definition started : nat := 5.
(** engine.go:185 *)
Definition stopped : nat := 6.

(* the channel of a snapshot that is closed when its Start func returns *)
(** snapshot.go:25 *)
Definition expired (o : nat) : nat := 10 + o.

(** engine.go:295-319 [manifoldsReport] *)
Definition manifoldsReport : list cmd := [Many [Rd current; Rd manifolds]].
(** engine.go:235-244 [Wait] *)
Definition Wait : list cmd := [Closed dead; Choose [[]; [Rd worstError; Rd consts]]].
(** engine.go:247-268 [Report] *)
Definition Report : list cmd := [Rd consts; Choose [[Send report; Recv reported]; [Closed dead] ++ manifoldsReport ++ Wait]].
(** engine.go:322-331 [Install] *)
Definition Install : list cmd := [Rd consts; Choose [[]; [Send install; Recv installed]]].
(** What clients may do, also from Start funcs and workers. Kill: :230. *)
Definition api : list (list cmd) := [Wait; Report; Install; []].
(** As above, any number of times (engine.go:230-331). *)
Definition user : cmd := Many [Choose api].

(** snapshot.go:42-56 [Get], :64-81 [rawAccess] *)
Definition get (o : nat) : list cmd :=
  [Rd (snap o); Choose [[Closed (expired o)]; [Open (expired o); Rd (snap o); Rd (accessLog o); Wr (accessLog o)]]].
(** What a Start func may do: call the API, and the getter in its own goroutine. [leak]: start goroutines that call the
    getter. *)
Definition start_func (leak : bool) (o : nat) : cmd :=
  Many [Choose ((if leak then [[Go [Many (get o)]]] else []) ++ [get o] ++ api)].
(** engine.go:512-574 [runWorker] *)
Definition runWorker (leak : bool) (o : nat) : list cmd :=
  [Rd consts; Rd (snap o); Choose [[]; [start_func leak o]];           (* :513-530 *)
   Close (expired o);                                                  (* :520, snapshot.go:59-61 [expire] *)
   Choose [ [];                                                        (* :535-540 *)
            [Rd (accessLog o); Choose [[]; [Send started]];            (* :542-556: the ticket is built before the select *)
             user] ];                                                  (* :558-566: the worker runs *)
   Rd (accessLog o); Send stopped].                                    (* :570-574 *)
(** engine.go:379-433 [requestStart], :445-499 [snapshot] *)
Definition requestStart (leak : bool) : list cmd :=
  [Rd manifolds; Rd current;
   Choose [ [];                                                        (* :394 *)
            [Wr current; Many [Rd manifolds; Rd current];
             New (fun o => [Wr (snap o); Wr (accessLog o); Go (runWorker leak o)])] ]].
(** engine.go:727-746 [requestStop] *)
Definition requestStop : list cmd := [Rd current; Choose [[]; [Wr current]]].
(** engine.go:773-782 [bounceDependents] *)
Definition bounceDependents (leak : bool) : list cmd :=
  [Rd consts; Many [Rd dependents; Rd current; Choose [requestStart leak; requestStop]]].
(** engine.go:353-366 [uninstall] *)
Definition uninstall : list cmd := [Many [Rd dependents; Wr dependents]; Wr current; Wr manifolds].
(** engine.go:335-350 [gotInstall], :369-375 [checkAcyclic] *)
Definition gotInstall (leak : bool) : list cmd :=
  [Rd consts; Rd manifolds;
   Choose [ [];
            [Many [Rd manifolds]];
            [Many [Rd manifolds]; Wr manifolds; Many [Rd dependents; Wr dependents]; Wr current] ++ requestStart leak ]].
(** engine.go:578-606 [gotStarted] *)
Definition gotStarted (leak : bool) : list cmd :=
  [Rd current; Choose [[]; [Wr current; Rd consts] ++ bounceDependents leak]].
(** engine.go:615-723 [gotStopped] *)
Definition gotStopped (leak : bool) : list cmd :=
  [Rd current; Rd consts; Rd manifolds; Choose [[]; [Rd worstError; Wr worstError]]; Wr current;
   Choose [ [];                                                        (* :676 *)
            [Choose [[]; requestStart leak; uninstall]] ++ [Choose [[]; bounceDependents leak]] ]].
(** engine.go:271-290 [liveReport] *)
Definition liveReport : list cmd := [Choose [[]; [Rd worstError]]] ++ manifoldsReport.
(** engine.go:201-227 [loop], :761-768 [allOthersStopped] *)
Definition loop (leak : bool) : list cmd :=
  [Many [Choose [ [Many (Rd current :: requestStop)];                  (* :205-209 *)
                  [Recv report] ++ liveReport ++ [Send reported];      (* :210-212 *)
                  [Recv install] ++ gotInstall leak ++ [Send installed];   (* :213-215 *)
                  [Recv started] ++ gotStarted leak;                   (* :216-217 *)
                  [Recv stopped] ++ gotStopped leak ];                 (* :218-219 *)
         Choose [[]; [Many [Rd current]]]];                            (* :221-225 *)
   Close dead].
(** engine.go:132-153 [NewEngine], and any number of clients *)
Definition main (leak : bool) : list cmd := [Go (loop leak); Many [Go [user]]].
(** engine.go:132-153; the fields that NewEngine sets. *)
Definition prog (leak : bool) : prog := mkProg [consts; manifolds; dependents; current; worstError] (main leak).
End E.

(** ** catacomb/catacomb.go *)
Module C.
Definition adds : loc := ("adds"%string, 0).
(* the slice plan.Init of a caller *)
Definition init (o : nat) : loc := ("Init"%string, o).
(* [dirty] (catacomb.go:97) as a mutex that is never unlocked: one CompareAndSwap succeeds *)
Definition dirty : nat := 0.
(** catacomb.go:32 *)
Definition addc : nat := 1.

(** catacomb.go:181-203 [add]: two goroutines that wait for the worker *)
Definition add : list cmd := [Go []; Go []].
(** catacomb.go:163-176 [Add] *)
Definition Add : list cmd := [Choose [[Rd adds]; [Rd adds; Send addc]]].
(** Kill, Wait, Dying, Dead, Err, Context, ErrDying (catacomb.go:206-288) touch nothing but the tomb. *)
Definition user : cmd := Many [Choose [Add; []]].
(** catacomb.go:108-120: the goroutine that listens *)
Definition listen : list cmd := [Many ([Rd adds; Recv addc] ++ add)].
(** catacomb.go:81-138 [Invoke], by a caller that changes its slice before and afterwards. Afterwards, if it succeeded, the
    caller and the goroutines it starts may use the catacomb. *)
Definition Invoke : list cmd :=
  [New (fun o => [Wr (init o);
     Choose [ [Many [Rd (init o)]; Many [Rd (init o)]; Wr (init o)];   (* :90, :83-85: invalid, or used before (:97) *)
              [Many [Rd (init o)]; Lock dirty; Wr adds;                (* :97-100 *)
               Many (Rd (init o) :: add);                              (* :104-106 *)
               Go listen;
               Go [user; Close dead];                                  (* :131-135: Work; dead once it returned and everybody finished *)
               Wr (init o); Many [Go [user]]; user] ]])].
(** Any number of callers of Invoke. [early]: of Add, too, before Invoke has returned. *)
Definition main (early : bool) : list cmd := [Many [Choose ((if early then [[Go [user]]] else []) ++ [[Go Invoke]])]].
(** catacomb.go:29-34: the zero value. *)
Definition prog (early : bool) : prog := mkProg [adds] (main early).
End C.
