# Formal model of juju/worker in Rocq (Coq 8.16.1)

Source modelled: `/repo` (juju/worker v4, Go). Model and proofs: `/verif/rocq/theories`. Properties: `properties.jsonl`;
claims: `MANIFEST.json`; attempts to break the theorems with wrong programs: `seeded/LOG.jsonl`.

## 1. Shape of the model

Every concurrent component (dependency `Engine`, `Runner`, `Catacomb`, the helpers and test workers) is an executable
labelled transition system

    step : env -> state -> label -> option state        (None = label not enabled)
    run  : env -> state -> list label -> option state

* A *schedule* is a list of labels. A label says which goroutine moves, and carries every choice the environment makes
  (the error of a worker, the worker returned by a Start func, clock advance ...). "For every schedule" is
  `reachable e s`, that is `exists ls, run e init ls = Some s`, and is proved by induction with an invariant.
  There is no bound on the number of manifolds, workers, callers, steps, or on time.
* `state` contains the fields of the Go structs plus a program counter for every goroutine the code starts, and a
  ghost `log` of observable events (Start called and returned, worker killed, worker finished, a call returned ...),
  newest first. Events are only added. The specification files (`*Spec.v`) talk about the log, and about nothing else
  whenever the property is about what a user observes: in `log = pre ++ ev :: post`, `post` is what happened before `ev`.
* A rendezvous on an unbuffered channel is one step. In the engine, the loop's handler is part of that step. Between
  two channel operations the handler touches only fields owned by the loop, and the tomb (see 3.2). `isDying()` in a
  handler can race with an external `Kill`: an oracle `e_preempt` decides before every such read whether a Kill lands there.
  In the Runner, where a mutex is involved, receive, critical section, send and broadcast are separate steps.
* Callbacks (`IsFatal`, `WorstError`, `Filter`, `Output`, `ShouldRestart`, `MoreImportant`) are arbitrary pure Gallina
  functions; theorems quantify over all of them. Start funcs and workers are environment: labels.
* Go's map iteration order is an arbitrary ranking (`Order.v` proves that every order is covered).
* Errors: opaque user errors, the packages' constants and messages, `juju/errors` types and wrapping; `errors.Is` and
  `errors.As` are defined structurally (`Err.v`).
* Time is a `Z` number of nanoseconds that only a clock label advances.

"Eventually" is expressed without fairness: a measure decreases with every step that the code takes by itself (so there
are only finitely many), and a state in which no such step is enabled (`at_rest`, `quiet`, ...) satisfies the claim.

## 2. Files

| file | models |
|---|---|
| `Err.v`, `Tomb.v`, `Order.v` | `juju/errors` values, `tomb.v2`, map iteration order |
| `Validate.v` | `dependency/util.go`: `Install`, `Validate` |
| `Snapshot.v` | `dependency/snapshot.go`, the `Manifold` type of `interface.go` |
| `Engine.v` | `dependency/engine.go` |
| `EngineFine.v` | the loop of `dependency/engine.go` in small steps |
| `EngineGoexit.v` | Start funcs and workers of the engine that leave by `runtime.Goexit` (`dependency/engine.go:512-574`); a layer over `Engine.v` |
| `EngineCalls.v` | concurrent callers of `Engine.Install`, `Report` and `Wait` (`dependency/engine.go:235-268`, `:322-333`) |
| `SelfManifold.v` | `SelfManifold` of `dependency/util.go` |
| `TombCtx.v` | the contexts of `tomb.v2` (`Catacomb.Context`, `Engine.scopedContext`, the runner's start contexts) |
| `Backoff.v` | the delay computation of `requestStart` (engine.go:413-430) |
| `Config.v` | `EngineConfig.Validate`, `NewEngine` |
| `Runner.v` | `runner.go` |
| `Catacomb.v` | `catacomb/catacomb.go` |
| `Workers.v` | `worker.go`, `workertest/check.go` |
| `TestWorkers.v` | `workertest/workers.go`, `workertest/fake_watcher.go` |
| `Stub.v` | `dependency/testing/stub.go` |
| `Tree.v` | workers made of workers: any number of engines, runners, catacombs and plain workers that run together; a Kill by one is a Kill of the other, and the error that one sees is what the other's Wait returns |
| `Reports.v` | `Report` of workers made of workers, step by step: the engine's loop (`dependency/engine.go:210`, `:247-319`) and the runner's mutex (`runner.go:672-697`) are busy while the Report methods of the workers run |
| `InsideRunnerSpec.v`, `InsideEngineSpec.v` | vocabulary for calls that callbacks make (C83): executions in which the loop waits for a callback |
| `OutcomeSpec.v` | vocabulary for C85: what is running, what a Start func was given, predictable Start funcs, retired workers |
| `PaceSpec.v` | vocabulary for C86: the number of Start calls in a stretch of history |
| `LeakSpec.v`, `LeakCatacombSpec.v` | vocabulary for C88: counting events of a kind |
| `EngineLifeSpec.v`, `RunnerLifeSpec.v`, `CatacombLifeSpec.v` | vocabulary for C89: the stages of an attempt and the arrows between them |
| `FairSpec.v`, `FairEngineSpec.v`, `FairCatacombSpec.v`, `FairTreeSpec.v` | vocabulary for infinite executions (C80, C81): executions, fairness (`not_starved`), a converged engine; no new model |
| `Race.v` | memory accesses of goroutines, the events of the Go memory model |
| `RaceProgs.v` | the shared variables of `runner.go`, `engine.go`, `snapshot.go`, `catacomb.go`: who reads and writes them, holding what |
| `EngineTablesSpec.v` | vocabulary for C90: counting occurrences, names ever used as inputs |
| `*Spec.v`, `*ProgressSpec.v` | vocabulary for the theorem statements |
| `Props*.v` | the property theorems, each closed by `exact`, `Print Assumptions` beneath, Examples beside |
| `*Example.v` | concrete executions used by the Examples |
| all others | proofs |

## 3. Trusted base

### 3.1 Logic

* Coq's kernel (`coqc` 8.16.1; `coqchk` accepts the development). No axioms of our own, no `Admitted`, no kernel check switched off.
* `Print Assumptions` beneath each theorem says "Closed under the global context", except for
  `PropsBackoff.v` (C22), `PropsPacePlain.v` (C86) and those theorems of `PropsConfig.v` (C56) that mention floats. These use the axioms of the standard
  library's real numbers, through Flocq: `ClassicalDedekindReals.sig_not_dec`, `ClassicalDedekindReals.sig_forall_dec`,
  `FunctionalExtensionality.functional_extensionality_dep`, `Classical_Prop.classic`.
* `coqchk`, which looks at whole libraries, also names `Coq.ssr.ssrunder.Under_rel.*` (through std++) and the constants of
  `Coq.Reals.Rdefinitions` (module-sealed definitions).
* Libraries: std++ (finite maps, sets), coq-record-update (notation), Flocq (binary64).

### 3.2 The model versus the program

* `Tomb.v`, `TombCtx.v` (tomb.v2 at d5d1b5820637) and `Err.v` are written from knowledge of those packages; they are not in the sandbox.
* The grain of the steps: actions between two synchronisation operations of a goroutine are atomic. For the engine the
  whole handler of a loop iteration is one step of `Engine.v` (with the Kill oracle inside). `EngineFine.v` cuts the handlers into small actions,
  between which all other goroutines may step, and C73 proves that this adds nothing; what remains assumed is that the clock
  stands still while a message is handled. There a report is assembled at once; in `Reports.v` (C82) it takes its time, and calls the Report
  methods of the workers, which may be engines and runners, one by one.
* The models interleave steps over one memory. Go promises that much to programs without data races only; C76 proves
  that there are none (`Race.v`), over a description of the shared variables with more executions than the code has.
* The Go memory model, the scheduler, channels, `sync.Mutex`, `sync.Cond`, `sync.WaitGroup` behave as documented.
* `math.Pow`: assumed to be sane (`BackoffSpec.pow_sane`: NaN-free and monotone where used) and, for `C22_value` only, accurate
  up to a relative error that is a parameter; `rand.Float64` in [0,1).

### 3.3 Not modelled

Logging; pprof labels; garbage collection; rendering of times;
panics in user callbacks and Start funcs (they crash the program);
impure callbacks (callbacks that call methods of the component: C83);
a Start func that returns a nil worker and a nil error (`interface.go` forbids it);
reflection details of `stub.go`; the `tests only` hooks (`notifyStarted`).

## 4. Properties

`proved`: the statement of `properties.jsonl` is proved, or proved with the exact exceptions found, which are themselves
proved to occur (`_refuted`). `partial`: the documented statement is false of the code; the `_partial` theorems say what holds
and the `_refuted` theorems exhibit an execution. Notes in `MANIFEST.json`.

| id | property | status | model | proof |
|---|---|---|---|---|
| C01 | Validate accepts exactly the acyclic graphs | proved | `Validate.v`: DFS with a recursion budget that is never used up, every map order | equivalence with "no cycle" (transitive closure) |
| C02 | dependency.Install stops at the first failure | proved | `Validate.v`: loop over any order, any stateful installer | induction on the order |
| C03 | Install accepts a manifold exactly when the name is free and no cycle appears | proved | `Engine.v` `got_install` | C01 + invariant "the installed graph is acyclic" |
| C04 | At most one worker per manifold | proved | `Engine.v` | invariant linking goroutines, infos and log |
| C05 | No stale dependencies and no lost bounce | proved | `Engine.v`, attempts log their snapshot | invariant with a set of names still to be bounced |
| C06 | A dependency is always converted by its own manifold's Output func | proved | as C05 | same invariant for Output funcs |
| C07 | A worker appearing or disappearing bounces all its dependents and nobody else | proved | `Engine.v` handlers | what `bounce_dependents` does to the log, both directions |
| C08 | Restart decision table of the engine | proved | `Engine.v` `got_stopped` | comparison with a decision table in `EngineSpec.v` |
| C09 | No manifold is ever forgotten | proved | `Engine.v` | invariant |
| C10 | The engine never trips its internal consistency checks | proved | `Engine.v` | invariant: the tomb's reason is never an internal complaint |
| C11 | Wait returns the worst fatal error, filtered | proved | `Engine.v` | invariant: worst error = fold over the log |
| C12 | Engine shutdown is complete before Wait returns | proved | `Engine.v` | invariant at the end of the loop |
| C13 | Kill discipline of the engine | proved | `Engine.v` | invariant linking kills with goroutines |
| C14 | Nothing new starts once the engine is dying | proved | `Engine.v` | step property |
| C15 | Engine shutdown always terminates | proved | `EngineProgressSpec.v` | decreasing measure, no stuck state |
| C16 | ErrUninstall removes a manifold completely | proved | `Engine.v` | invariant |
| C17 | Getter.Get contract | proved | `Snapshot.v`, `Engine.v` | case analysis |
| C18 | A Getter is dead after Start returned | partial | `Engine.v` | invariant; counterexample |
| C19 | Start counts, metrics and reports tell the truth | proved | `Engine.v` | counts over the log |
| C20 | Error counting for backoff | proved | `Engine.v` | fold over the history of the manifold |
| C21 | Start is not called before its delay has elapsed | proved | `Engine.v` with clock | invariant over log times |
| C22 | Backoff delay bounds | proved | `Backoff.v`: IEEE binary64 (Flocq), `math.Pow` an oracle with stated hypotheses | real analysis of the rounded operations |
| C23 | Start contexts are cancelled when the attempt is unwanted | proved | `Engine.v` | invariant |
| C24 | The engine settles | proved | `EngineProgressSpec.v` | measure weighted by the depth in the acyclic graph |
| C25 | An unrelated manifold is never disturbed | proved | `Engine.v` | frame property of the handlers |
| C26 | Runner: at most one worker per id | proved | `Runner.v`: loop, runWorker goroutines, callers, mutex and condition variable | invariants over state and log |
| C27 | Runner loop never crashes or blocks on its own bookkeeping | proved | `Runner.v`: loop, runWorker goroutines, callers, mutex and condition variable | invariants over state and log |
| C28 | StartWorker's answer | proved | `Runner.v`: loop, runWorker goroutines, callers, mutex and condition variable | invariants over state and log |
| C29 | Runner restart policy | proved | `Runner.v`: loop, runWorker goroutines, callers, mutex and condition variable | invariants over state and log |
| C30 | A stopped worker does not come back | proved | `Runner.v`: loop, runWorker goroutines, callers, mutex and condition variable | invariants over state and log |
| C31 | Runner.Wait returns the most important fatal error | proved | `Runner.v`: loop, runWorker goroutines, callers, mutex and condition variable | invariants over state and log |
| C32 | Default ranking returns the first fatal error | partial | `Runner.v`: loop, runWorker goroutines, callers, mutex and condition variable | invariants over state and log |
| C33 | Runner shutdown is complete before Wait returns | proved | `Runner.v`: loop, runWorker goroutines, callers, mutex and condition variable | invariants over state and log |
| C34 | Runner shutdown always terminates | proved | `Runner.v` | decreasing measure, no stuck state |
| C35 | A dying runner starts no new worker | partial | `Runner.v`: loop, runWorker goroutines, callers, mutex and condition variable | invariants over state and log |
| C36 | Runner.Worker returns the current worker | partial | `Runner.v`: loop, runWorker goroutines, callers, mutex and condition variable | invariants over state and log |
| C37 | Runner.Worker never misses a wake-up | proved | `Runner.v` | invariant on waiters and the pending broadcast |
| C38 | StopAndRemoveWorker waits for removal | partial | `Runner.v`: loop, runWorker goroutines, callers, mutex and condition variable | invariants over state and log |
| C39 | Runner reports and names | partial | `Runner.v`: loop, runWorker goroutines, callers, mutex and condition variable | invariants over state and log |
| C40 | Runner restart delay is respected | proved | `Runner.v`: loop, runWorker goroutines, callers, mutex and condition variable | invariants over state and log |
| C41 | Calls on a dead runner | proved | `Runner.v`: loop, runWorker goroutines, callers, mutex and condition variable | invariants over state and log |
| C42 | Shutdown kills every runner worker | proved | `Runner.v`: loop, runWorker goroutines, callers, mutex and condition variable | invariants over state and log |
| C43 | Invoke: validity, single use and ownership of Init workers | proved | `Catacomb.v`: all goroutines, tomb and WaitGroup | invariants over state and log |
| C44 | Catacomb.Add always takes ownership | proved | `Catacomb.v`: all goroutines, tomb and WaitGroup | invariants over state and log |
| C45 | A dead catacomb has no live workers | proved | `Catacomb.v`: all goroutines, tomb and WaitGroup | invariants over state and log |
| C46 | Catacomb error is the first real one | partial | `Catacomb.v`: all goroutines, tomb and WaitGroup | invariants over state and log |
| C47 | Kill is always safe | partial | `Catacomb.v`: all goroutines, tomb and WaitGroup | invariants over state and log |
| C48 | Worker errors kill the catacomb, clean exits do not | proved | `Catacomb.v`: all goroutines, tomb and WaitGroup | invariants over state and log |
| C49 | A dying catacomb stops every worker it owns | proved | `Catacomb.v`: all goroutines, tomb and WaitGroup | invariants over state and log |
| C50 | The WaitGroup is used correctly | proved | `Catacomb.v`: all goroutines, tomb and WaitGroup | invariants over state and log |
| C51 | Catacomb shutdown always terminates | proved | `Catacomb.v` | decreasing measure, no stuck state |
| C52 | A finished worker leaves nothing behind | proved | `Catacomb.v`: all goroutines, tomb and WaitGroup | invariants over state and log |
| C53 | A panic in Work is reported, not propagated | proved | `Catacomb.v`: all goroutines, tomb and WaitGroup | invariants over state and log |
| C54 | worker.Stop and worker.Dead | proved | `Workers.v`: any number of concurrent calls on an arbitrary worker | invariant over the log |
| C55 | Test workers honour their contracts | proved | `TestWorkers.v` | invariants |
| C56 | Configuration validation | proved | `Config.v`, `Runner.v`, `Catacomb.v` | case analysis against rule lists in `ConfigSpec.v` |
| C57 | Stub getter contract | proved | `Stub.v`: convertibility is an arbitrary relation | induction on the outputs |
| C58 | Tomb reasons are write-once | proved | `Tomb.v` inside the three systems | invariant over the log |
| C59 | Contexts of runner start funcs | proved | `Runner.v` | invariant |
| C60 | A worker whose Wait does not return blocks the runner for good | proved | `Runner.v` | invariant |
| C61 | A catacomb that owns its own parent worker is never dead | proved | `Catacomb.v`: all goroutines, tomb and WaitGroup | invariants over state and log |
| C62 | runtime.Goexit in Work | proved | `Catacomb.v`: all goroutines, tomb and WaitGroup | invariants over state and log |
| C63 | ErrDying of a catacomb | proved | `Catacomb.v`: all goroutines, tomb and WaitGroup | invariants over state and log |
| C64 | Add before Invoke never hands over | proved | `Catacomb.v`: all goroutines, tomb and WaitGroup | invariants over state and log |
| C65 | Check helpers for tests | proved | `Workers.v`: any number of concurrent calls on an arbitrary worker | invariant over the log |
| C66 | Nested reports of the engine | proved | `e_reporter`, `e_wreport` (which workers are Reporters and what they answer) in `Engine.v` | the report is built from the registered workers, by the engine invariant |
| C67 | The context of an attempt that is over is released | partial | `s_ctx` of `Engine.v` | invariant relating cancelled contexts to stop requests; the leak by induction on the number of attempts (`EngineLeak.v`) |
| C68 | Contexts of a tomb | proved | `TombCtx.v`: `Tomb.Context`, its map of children, parents that finish | invariant over all runs |
| C70 | The engine installed in itself | proved | `SelfManifold.v` (util.go:81-106), workers `WSelf` of `Engine.v` | invariants on kills and exits of `WSelf` |
| C71 | The engine's record of resource accesses | proved | access logs of snapshots, `i_rlog` in `Engine.v` | invariant relating the log's `EvGet` events to `i_rlog` |
| C69 | Goroutines of Runner.Worker | partial | `Runner.v` | invariants on the mutex and the waiters; counterexample schedule with all its continuations |
| C72 | Abort channels | partial | `Runner.v` | induction over the log; invariants on calls; counterexample |
| C73 | Handlers of the engine's loop are atomic | proved | `EngineFine.v` | commutation of actions with steps of other goroutines (reduction), kills moved to polls |
| C74 | The runner keeps up with its work | proved | `Runner.v`, `RunnerLiveSpec.v` | a measure that every step of the runner decreases; case analysis of states without such a step, with the invariants of C26–C39 |
| C75 | Calls on the engine are linearizable | proved | `EngineCalls.v` (calls with a beginning, a moment of effect and a return, over `Engine.v`), `EngineCallsSpec.v` | invariant over the history of the calls; C01, C09, C10, C12, C13 at the moment of effect |
| C76 | No data races | proved | `Race.v`, `RaceProgs.v`; happens-before in `RaceSpec.v` | permission typing of the programs, sound for happens-before (`RaceProofs.v`) |
| C77 | A late Get causes no data race | partial | as C76 | as C76; counterexample execution |
| C78 | Workers made of workers shut down completely | proved | `Tree.v` (forest of engines, runners, catacombs and plain workers, run together), `TreeSpec.v` | invariant of the forest (ended children are dead, killed children were told); induction on the depth with C15, C34 and C51 at each node; can_finish: well-founded measures of each kind of worker, then induction on the depth of the tree; counterexample for cycles |
| C79 | Errors are recognised through wrappings | proved | `Err.v`, `ErrSpec.v` (chains of wrapped errors) | induction on the chain; C08 and C46 read through it |
| C80 | In the end it happens: shutdown and convergence in infinite executions | proved | `FairSpec.v` (infinite executions), `FairEngineSpec.v` (converged), `FairCatacombSpec.v` | well-founded measures of C15, C24, C34 and C51 that never grow and go down with every step that is due; for convergence also: the clock reaches the end of every delay |
| C81 | A killed tree of workers comes to its end | proved | `Tree.v` (C78), `FairSpec.v`, `FairTreeSpec.v` | induction on the height of the tree; in each worker the well-founded measure of C15, C34 or C51, which stays the same only as long as the set of workers it waits for does |
| C82 | Reports of workers made of workers are true and return | proved | `Reports.v`, `ReportsSpec.v` | an invariant about the stacks of all calls over the history of the forest (what a frame says has been so since it was begun); deadlock freedom by induction on the rank, termination by a multiset of ranks |
| C83 | Calls from inside: which of them can never return | proved | `Runner.v`, `EngineCalls.v`, `Catacomb.v`, `InsideRunnerSpec.v`, `InsideEngineSpec.v` | executions in which the loop takes no step: induction over them from an arbitrary reachable state; the rest follows from C33, C45, C12 |
| C84 | Start funcs and workers that leave by runtime.Goexit | proved | `EngineGoexit.v` (a layer over `Engine.v`), `EngineGoexitSpec.v` | a goroutine that takes no part in a step is left alone by it (frame lemmas for all handlers), so it stays where it was lost, for ever; the rest from the invariants of C10-C17 and the measure of C15 |
| C85 | What runs in the end does not depend on order or timing | proved | `Engine.v`, `OutcomeSpec.v` | the newest attempt of a converged manifold either returned the registered worker or an error (from the causes of C08); induction along the acyclic dependency graph (C03); the executions from C80 |
| C86 | Restarts are paced | proved | `Engine.v`, `Runner.v`, `PaceSpec.v` | times in the log grow; between two Start calls of one name there is the attempt (C01, C26) whose delay was waited out (C21, C29); the count by induction over the stretch |
| C87 | What a call on the runner means for later calls | proved | `Runner.v`, `RunnerSpec.v` | invariant: the loop answers only calls that were made; the rest from the answers (C28, C36, C38, C39) and what the log says about the id in between |
| C88 | Goroutines do not leak | proved | `Engine.v`, `Runner.v`, `LeakSpec.v` (counting) | engine: the sets of names in progress and of names installed, counted by induction on the log from C09, C13 and C17, and the first is a subset of the second; runner: both differences are the number of infos, by induction on steps; catacomb: the difference is the number of bindings with a goroutine left, by induction on steps, and the WaitGroup counts the goroutines (C50) |
| C89 | The life of an attempt follows one automaton | proved | `EngineLifeSpec.v`, `RunnerLifeSpec.v`, `CatacombLifeSpec.v`: the stages of an attempt and the arrows between them, read off the log | `EngineLife.v`, `RunnerLife.v`, `CatacombLife.v`: the stage each goroutine position (and, in the engine, the manifold's info; in the runner, the loop's position and the workers' infos) corresponds to is an invariant; `EngineLifeThms.v` and `RunnerLifeThms.v` read the statements off it |
| C90 | What the tables of the engine and the runner hold | proved | `Engine.v` (`record_manifold`, `uninstall`), `EngineTablesSpec.v` (counting, names ever used as inputs) | `EngineTables.v`: induction on elementary updates, with the invariants of C03 and C16; `RunnerTables.v`: from the invariants of C26 to C30 |

Counterexamples (`_refuted` theorems): `C14_start_after_kill_refuted`, `C18_getter_dead_after_return_refuted`, `C22_max_int64_refuted`, `C22_no_max_refuted`, `C22_bounce_divides_refuted`, `C32_default_first_refuted`, `C35_start_while_dying_refuted`, `C35_start_after_kill_refuted`, `C36_stale_worker_refuted`, `C38_second_caller_stuck_refuted`, `C38_restart_not_stopped_refuted`, `C39_stopping_refuted`, `C46_late_kill_refuted`, `C47_kill_safe_refuted`, `C47_no_crash_refuted`, `C55_errdying_refuted`, `C56_nan_accepted_refuted`, `C57_never_panics_refuted`, `C67_context_released_refuted`, `C69_abort_leak_refuted`, `C72_abort_ignored_refuted`, `C77_late_get_refuted`, `C78_cycle_refuted`, `C82_self_refuted`, `C85_retired_refuted`, `C88_engine_self_refuted`.

## 5. Findings about the code

1. Runner: the default `MoreImportant` returns true always, so the *last* fatal error wins; the documentation says the first (C32).
2. Runner: after a fatal error or a Kill, a worker in its restart delay can still be started, and a StartWorker call can still be
   accepted (C35). A fatal error does not cancel the contexts of running start funcs (only Kill does).
3. Runner: `Worker` returns the dead worker while its id is in the restart delay (C36); `StopAndRemoveWorker` then waits for the dead
   worker and the id is restarted (C38), and it may return the error of an earlier incarnation.
4. Runner: of two concurrent `StopAndRemoveWorker` calls for one id, one waits for ever (C38): the done channel carries one value.
5. Runner: the status "stopping" is unreachable, because `killWorkerLocked` forgets the worker (C39); `started` is the time of StartWorker, not
   of the latest start.
6. Runner: StartWorker returns ErrDead if only its context was cancelled, and nil while the runner is dying, without starting anything (C28, C41).
7. Runner: a fatal error that is `tomb.ErrDying` or `tomb.ErrStillAlive` makes the tomb panic when the loop returns, or is dropped (C31).
8. Runner: `runtime.Goexit` in a worker's Wait leaves the runner unable to finish (C60). Restarts do not inherit the context of StartWorker (C59).
9. Catacomb: `Kill(tomb.ErrStillAlive)` panics; a worker error or a Work result with that value crashes the program (C47).
10. Catacomb: `Kill(err)` after death changes the result of Wait if it was nil (C46).
11. Catacomb: `runtime.Goexit` in Work (for instance a failed assertion of a test) leaves it alive for ever (C62); a catacomb that is given its own parent worker never dies (C61);
    Add before Invoke never hands over (C64).
12. Engine: an input listed twice bounces the manifold twice, the second bounce stops the attempt just begun (C13).
13. Engine: a Getter can still be used between the return of Start and the deferred `expire` (C18).
14. Engine: `MaxDelay` of zero, or near MaxInt64, overflows to a negative delay on amd64 (C22); a NaN `BackoffFactor` passes validation (C56) and switches the backoff off;
    a bounce before the first error divides the delay by the factor, because the exponent is recentErrors-1 = -1 (C22).
15. Engine: `IsFatal` is called with nil; `errAborted`, if returned by a user's worker, parks the manifold (C08, C09); Install may return nil while the engine dies, without starting anything (C03).
16. Stub Getter panics for a typed nil pointer, a nil output, and conversions that panic (C57).
17. `NewErrorWorker(tomb.ErrDying)`: Kill panics, and the worker cannot be stopped (C55).
18. Engine: an attempt that ends by itself leaves its context in the engine's tomb until the engine dies, because `requestStart` makes a cancel func that only
    `requestStop` calls (C67): the number of kept contexts grows with the number of restarts.
19. Runner: an aborted `Worker` call closes `stopped` and broadcasts without holding the mutex; if its goroutine is between its look at the channel and
   `Cond.Wait`, it misses the broadcast and stays until the next one (C69).
20. Runner: `StopAndRemoveWorker` ignores its abort channel while it waits for the worker it killed (C72).
21. Engine: `isDying` is read before the action it guards, so a Kill in between is followed by one more launch, registration or uninstall (C14); never by two.
22. Engine: the comment in `runWorker` says that a `Get` after Start "won't cause data races anyway". It can: `Get` by another goroutine that passed the check of `expired` appends to `accessLog` while `runWorker` reads it for the ticket (C77).
23. Catacomb: an `Add` concurrent with `Invoke` races for the field `adds` (C76); `Invoke` has to return first.
24. Two catacombs, each of which was given the worker around the other, never finish once they are told to stop (`C78_cycle_refuted`): the case of C61 with one more step. Nothing in `Invoke` or `Add` can see it.
25. Report of a runner, one of whose workers is (or forwards Report to) the runner itself, deadlocks and keeps the mutex for ever (`C82_self_refuted`). The engine checks for itself (`dependency/engine.go:312`), but only for itself directly; the runner does not check. And a Report method of a worker that does not return keeps the engine or runner that called it, and everything that contains it, from shutting down (`C82_blocks`).
26. Calls from inside (C83): a callback or a worker's Kill that calls `StopWorker` deadlocks the runner, and killing the runner does not help (`C83_stop_inside`), because `StopWorker` waits for the loop or for the dead tomb, not for the dying one (`runner.go:278-281`); so does a `Kill` method that calls `Worker` or `StopAndRemoveWorker`, whatever their abort channel says, because they lock the mutex first (`C83_locked_inside`). A worker that calls `StopAndRemoveWorker` on itself waits for itself even if the abort channel is closed (`C83_remove_self`, `runner.go:296`). In the engine, a `Report` method of a worker, or a filter, that calls `Engine.Report` deadlocks the engine (`C83_engine_deadlock`).
27. Engine: a Start func or a worker's Wait that leaves by `runtime.Goexit` blocks its name and the engine's shutdown for ever, and its dependents go on being started with the dead worker (C84): `runWorker` sends on `stopped` only in its normal flow, not in a deferred call.
