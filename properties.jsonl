{"id": "C01", "title": "Validate accepts exactly the acyclic graphs", "statement": "dependency.Validate returns nil if and only if the graph formed by the manifolds' Inputs has no cycle; it always terminates, and the verdict does not depend on map iteration order. Inputs naming unknown manifolds are never an error.", "quantifier": "every finite Manifolds map, every map iteration order", "why_tests_cant": "Graphs are unbounded and Go randomises map order; tests try a few graphs.", "anchors": ["dependency/util.go:Validate", "dependency/util.go:validator.run", "dependency/util.go:validator.visit"]}
{"id": "C02", "title": "dependency.Install stops at the first failure", "statement": "dependency.Install calls Installer.Install once per manifold in iteration order until one fails; it returns that first failure and makes no further call; it returns nil only if every manifold was installed.", "quantifier": "every Manifolds map, iteration order and Installer behaviour (also stateful)", "why_tests_cant": "Installer behaviour and map order are arbitrary.", "anchors": ["dependency/util.go:Install"]}
{"id": "C03", "title": "Install accepts a manifold exactly when the name is free and no cycle appears", "statement": "A call to Engine.Install handled by the loop succeeds iff no manifold of that name is installed and adding it leaves the dependency graph acyclic; a failing call changes nothing. Hence the installed graph is acyclic in every reachable state.", "quantifier": "every reachable engine state, every name and manifold", "why_tests_cant": "Tests run a handful of interleavings; the claim ranges over every schedule of goroutines, kills, worker exits and clock readings.", "anchors": ["dependency/engine.go:Install", "dependency/engine.go:gotInstall", "dependency/engine.go:checkAcyclic", "dependency/util.go:Validate"]}
{"id": "C04", "title": "At most one worker per manifold", "statement": "For every installed name, two start attempts never overlap: Start is never called for a manifold while an earlier Start call for it is running or the worker it returned has not finished.", "quantifier": "every schedule, every manifold name", "why_tests_cant": "Tests run a handful of interleavings; the claim ranges over every schedule of goroutines, kills, worker exits and clock readings.", "anchors": ["dependency/engine.go:requestStart", "dependency/engine.go:runWorker", "dependency/engine.go:gotStarted", "dependency/engine.go:gotStopped"]}
{"id": "C05", "title": "No stale dependencies and no lost bounce", "statement": "While the engine is not shutting down, every installed manifold that the engine has not asked to stop made its most recent start attempt against exactly the input workers that are registered now. So a running worker never keeps using a replaced or stopped dependency, and a manifold parked on ErrMissing (or completed) is never left behind when its inputs changed.", "quantifier": "every reachable state of every schedule, every manifold and input, any dependency graph", "why_tests_cant": "Tests run a handful of interleavings; the claim ranges over every schedule of goroutines, kills, worker exits and clock readings.", "anchors": ["dependency/engine.go:bounceDependents", "dependency/engine.go:snapshot", "dependency/engine.go:gotStarted", "dependency/engine.go:gotStopped", "dependency/engine.go:requestStop"]}
{"id": "C06", "title": "A dependency is always converted by its own manifold's Output func", "statement": "The Output func paired in a Getter with a running input worker is the Output of the manifold that started that worker, even if inputs were uninstalled and other manifolds installed under the same name.", "quantifier": "every schedule including uninstall and re-install", "why_tests_cant": "Tests run a handful of interleavings; the claim ranges over every schedule of goroutines, kills, worker exits and clock readings.", "anchors": ["dependency/engine.go:snapshot", "dependency/engine.go:uninstall", "dependency/snapshot.go:rawAccess"]}
{"id": "C07", "title": "A worker appearing or disappearing bounces all its dependents and nobody else", "statement": "When the worker of a manifold is registered, or a registered worker stops while the engine is alive, every manifold that lists it in Inputs is either started at once (if stopped) or asked to stop (if starting or running); no manifold that does not list it is started or stopped because of it.", "quantifier": "every reachable state and every started/stopped notification", "why_tests_cant": "Tests run a handful of interleavings; the claim ranges over every schedule of goroutines, kills, worker exits and clock readings.", "anchors": ["dependency/engine.go:bounceDependents", "dependency/engine.go:gotStarted", "dependency/engine.go:gotStopped"]}
{"id": "C08", "title": "Restart decision table of the engine", "statement": "When a worker (or start attempt) ends while the engine is not shutting down: if the engine asked it to stop, it is restarted with BounceDelay whatever the error; otherwise nil and ErrMissing leave it stopped, ErrBounce restarts with BounceDelay, ErrUninstall removes it, any other error restarts with ErrorDelay. The error judged is the one produced by the manifold's Filter, if any.", "quantifier": "every reachable state, every error value (also wrapped), every filter", "why_tests_cant": "Errors, wrappings and filters are unbounded; the interplay with pending stops depends on the schedule.", "anchors": ["dependency/engine.go:gotStopped", "dependency/engine.go:requestStart"]}
{"id": "C09", "title": "No manifold is ever forgotten", "statement": "While the engine is not shutting down, an installed manifold with nothing running for it ended with nil, ErrMissing (after its Filter); every other installed manifold has exactly one start attempt, worker or stop in progress.", "quantifier": "every reachable state of every schedule", "why_tests_cant": "Tests run a handful of interleavings; the claim ranges over every schedule of goroutines, kills, worker exits and clock readings.", "anchors": ["dependency/engine.go:gotStopped", "dependency/engine.go:gotInstall", "dependency/engine.go:requestStart", "dependency/engine.go:runWorker"]}
{"id": "C10", "title": "The engine never trips its internal consistency checks", "statement": "The engine never dies of one of its own 'fatal: unknown manifold / second worker / unexpected start / unexpected stop' errors: Wait never returns one.", "quantifier": "every schedule", "why_tests_cant": "The checks guard states that tests cannot reach; absence needs an invariant over all schedules.", "anchors": ["dependency/engine.go:requestStart", "dependency/engine.go:gotStarted", "dependency/engine.go:gotStopped", "dependency/engine.go:Wait"]}
{"id": "C11", "title": "Wait returns the worst fatal error, filtered", "statement": "After the engine is dead Wait returns Filter(e) (or e without Filter) where e is obtained by combining, with WorstError and in the order they were reported, exactly the errors that satisfied IsFatal, starting from nil; without fatal errors e is nil.", "quantifier": "every schedule, every IsFatal, WorstError and Filter", "why_tests_cant": "Tests run a handful of interleavings; the claim ranges over every schedule of goroutines, kills, worker exits and clock readings.", "anchors": ["dependency/engine.go:gotStopped", "dependency/engine.go:Wait"]}
{"id": "C12", "title": "Engine shutdown is complete before Wait returns", "statement": "When the engine is dead no Start call is running and every worker ever returned by a Start func has finished, the engine itself (installed as SelfManifold) excepted.", "quantifier": "every schedule", "why_tests_cant": "Tests run a handful of interleavings; the claim ranges over every schedule of goroutines, kills, worker exits and clock readings.", "anchors": ["dependency/engine.go:loop", "dependency/engine.go:allOthersStopped", "dependency/engine.go:runWorker"]}
{"id": "C13", "title": "Kill discipline of the engine", "statement": "The engine calls Kill on a worker instance at most once, only if the engine is dying or the manifold was asked to stop because an input changed; and when the loop has nothing left to process, every live worker that the engine wants stopped has been killed.", "quantifier": "every schedule", "why_tests_cant": "Tests run a handful of interleavings; the claim ranges over every schedule of goroutines, kills, worker exits and clock readings.", "anchors": ["dependency/engine.go:requestStop", "dependency/engine.go:gotStarted", "dependency/engine.go:runWorker"]}
{"id": "C14", "title": "Nothing new starts once the engine is dying", "statement": "After the engine began dying no new start attempt is launched and no worker is registered (so none is handed to a dependent), except that the loop, if it had just found the engine alive when the kill arrived, may complete the one launch, registration or uninstall it was about to make; a start attempt already in flight may still call its Start func, and the resulting worker is killed.", "quantifier": "every schedule", "why_tests_cant": "Tests run a handful of interleavings; the claim ranges over every schedule of goroutines, kills, worker exits and clock readings.", "anchors": ["dependency/engine.go:requestStart", "dependency/engine.go:gotStarted", "dependency/engine.go:runWorker", "dependency/engine.go:isDying"]}
{"id": "C15", "title": "Engine shutdown always terminates", "statement": "Once the engine is dying, if every Start call returns and every worker that was killed finishes, then every maximal sequence of internal steps is finite and ends with the engine dead: no deadlock, no lost kill.", "quantifier": "every reachable dying state, every continuation", "why_tests_cant": "Deadlock freedom and termination quantify over all continuations.", "anchors": ["dependency/engine.go:loop", "dependency/engine.go:runWorker", "dependency/engine.go:allOthersStopped", "dependency/engine.go:requestStop"]}
{"id": "C16", "title": "ErrUninstall removes a manifold completely", "statement": "After a manifold ended with ErrUninstall (not asked to stop, engine alive) it is not installed, is in no dependents list, disappears from reports, has no goroutine and is never started again unless it is installed again; manifolds depending on it stay installed, and its name can be reused.", "quantifier": "every schedule", "why_tests_cant": "Tests run a handful of interleavings; the claim ranges over every schedule of goroutines, kills, worker exits and clock readings.", "anchors": ["dependency/engine.go:uninstall", "dependency/engine.go:gotStopped"]}
{"id": "C17", "title": "Getter.Get contract", "statement": "Inside Start, Get fails with ErrMissing for every name not declared in Inputs, for every declared input whose worker was not running when the attempt was launched, and (with a non-nil out) for inputs without Output; with nil out it succeeds iff the input was running; otherwise it returns what Output returns.", "quantifier": "every snapshot, name, out value and Output func", "why_tests_cant": "Names, snapshots and outputs are unbounded.", "anchors": ["dependency/snapshot.go:Get", "dependency/snapshot.go:rawAccess", "dependency/engine.go:snapshot"]}
{"id": "C18", "title": "A Getter is dead after Start returned", "statement": "Once the Start func it was given to has returned (or the attempt was aborted), Get on that getter always fails, never calls an Output func and records no access.", "quantifier": "every schedule, every later Get call", "why_tests_cant": "Tests run a handful of interleavings; the claim ranges over every schedule of goroutines, kills, worker exits and clock readings.", "anchors": ["dependency/snapshot.go:Get", "dependency/snapshot.go:expire", "dependency/engine.go:runWorker"]}
{"id": "C19", "title": "Start counts, metrics and reports tell the truth", "statement": "For every installed manifold the reported start-count equals the number of its workers registered since it was installed, which is also the number of Metrics.RecordStart calls since then; Report lists exactly the installed manifolds with the state of their attempt or worker.", "quantifier": "every reachable state", "why_tests_cant": "Tests run a handful of interleavings; the claim ranges over every schedule of goroutines, kills, worker exits and clock readings.", "anchors": ["dependency/engine.go:gotStarted", "dependency/engine.go:manifoldsReport", "dependency/engine.go:workerInfo.state", "dependency/metrics.go"]}
{"id": "C20", "title": "Error counting for backoff", "statement": "The consecutive-error count used for backoff is: 0 after a nil exit, 1 after ErrMissing or an aborted start, 1 after an unknown error of a worker that ran at least BackoffResetTime, and one more than before otherwise.", "quantifier": "every history of starts, exits and clock readings", "why_tests_cant": "Histories are unbounded.", "anchors": ["dependency/engine.go:gotStopped"]}
{"id": "C21", "title": "Start is not called before its delay has elapsed", "statement": "A restarted manifold's Start is called no earlier than the computed delay after the attempt was launched, the first attempt after Install has no delay, and a bounce or shutdown during the delay may abort the attempt.", "quantifier": "every schedule and clock behaviour", "why_tests_cant": "Tests run a handful of interleavings; the claim ranges over every schedule of goroutines, kills, worker exits and clock readings.", "anchors": ["dependency/engine.go:runWorker", "dependency/engine.go:requestStart"]}
{"id": "C22", "title": "Backoff delay bounds", "statement": "With BackoffFactor and MaxDelay set, the restart delay never exceeds MaxDelay plus 10% (rounded to ms) and is never negative; it grows with the error count until it reaches MaxDelay.", "quantifier": "every delay, factor, error count and random fuzz, in IEEE double arithmetic including overflow to infinity", "why_tests_cant": "Floating-point overflow and rounding at unbounded exponents cannot be enumerated.", "anchors": ["dependency/engine.go:requestStart"]}
{"id": "C23", "title": "Start contexts are cancelled when the attempt is unwanted", "statement": "The context handed to Start is done if the engine is dying or the engine asked this attempt/worker to stop, and is not done in any other case; in particular a start still waiting for its delay is aborted.", "quantifier": "every schedule", "why_tests_cant": "Tests run a handful of interleavings; the claim ranges over every schedule of goroutines, kills, worker exits and clock readings.", "anchors": ["dependency/engine.go:scopedContext", "dependency/engine.go:requestStop", "dependency/engine.go:runWorker"]}
{"id": "C24", "title": "The engine settles", "statement": "If from some point on nothing is installed, no worker exits unless killed, and every Start call returns a worker or ErrMissing, the engine performs only finitely many further steps on every schedule: bounces do not feed back, because the graph is acyclic.", "quantifier": "every reachable state, every acyclic graph, every continuation", "why_tests_cant": "Termination over all continuations and graphs.", "anchors": ["dependency/engine.go:bounceDependents", "dependency/util.go:Validate"]}
{"id": "C25", "title": "An unrelated manifold is never disturbed", "statement": "Processing a notification for one manifold leaves registered workers, pending starts and state of every manifold that neither is it nor depends directly on it unchanged, unless the engine starts to die.", "quantifier": "every reachable state, every notification", "why_tests_cant": "Tests run a handful of interleavings; the claim ranges over every schedule of goroutines, kills, worker exits and clock readings.", "anchors": ["dependency/engine.go:gotStarted", "dependency/engine.go:gotStopped", "dependency/engine.go:gotInstall"]}
{"id": "C26", "title": "Runner: at most one worker per id", "statement": "For every id, the Runner never calls a start func for an id while an earlier start call for that id is running or the worker it returned has not finished.", "quantifier": "every schedule, every id", "why_tests_cant": "Tests run a handful of interleavings; the claim ranges over every schedule of goroutines, kills, worker exits and clock readings.", "anchors": ["runner.go:startWorker", "runner.go:workerDone", "runner.go:runWorker"]}
{"id": "C27", "title": "Runner loop never crashes or blocks on its own bookkeeping", "statement": "The run loop never dereferences a missing worker entry and never blocks sending the removal signal: every started/done notification concerns a known id and every removal signal has buffer space.", "quantifier": "every schedule", "why_tests_cant": "Tests run a handful of interleavings; the claim ranges over every schedule of goroutines, kills, worker exits and clock readings.", "anchors": ["runner.go:workerDone", "runner.go:setWorker", "runner.go:removeWorker"]}
{"id": "C28", "title": "StartWorker's answer", "statement": "A StartWorker call that reaches the run loop fails with AlreadyExists iff the id is known; when the runner is dying it returns nil without starting anything; otherwise the id becomes known before StartWorker returns and its start func is called.", "quantifier": "every reachable state, id and start func", "why_tests_cant": "Tests run a handful of interleavings; the claim ranges over every schedule of goroutines, kills, worker exits and clock readings.", "anchors": ["runner.go:StartWorker", "runner.go:startWorker"]}
{"id": "C29", "title": "Runner restart policy", "statement": "When a worker ends: nil error removes it; a fatal error removes it and stops everything; a non-fatal error for which ShouldRestart is false removes only it; any other error restarts it with the same start func after RestartDelay, unless it was stopped, in which case it is removed.", "quantifier": "every reachable state, every error, every IsFatal and ShouldRestart", "why_tests_cant": "Tests run a handful of interleavings; the claim ranges over every schedule of goroutines, kills, worker exits and clock readings.", "anchors": ["runner.go:workerDone"]}
{"id": "C30", "title": "A stopped worker does not come back", "statement": "After StopWorker(id) is accepted the worker of that id is killed (at once or as soon as it is created), is not restarted when it ends, and is removed; the id is started again only by a later StartWorker.", "quantifier": "every schedule", "why_tests_cant": "Tests run a handful of interleavings; the claim ranges over every schedule of goroutines, kills, worker exits and clock readings.", "anchors": ["runner.go:StopWorker", "runner.go:killWorkerLocked", "runner.go:setWorker", "runner.go:workerDone"]}
{"id": "C31", "title": "Runner.Wait returns the most important fatal error", "statement": "When MoreImportant is a strict weak order, Runner.Wait returns a fatal error that no other reported fatal error outranks; it returns nil if no fatal error was reported; non-fatal errors are never returned.", "quantifier": "every schedule, every set of fatal errors and every ranking", "why_tests_cant": "Tests run a handful of interleavings; the claim ranges over every schedule of goroutines, kills, worker exits and clock readings.", "anchors": ["runner.go:workerDone", "runner.go:run", "runner.go:Wait"]}
{"id": "C32", "title": "Default ranking returns the first fatal error", "statement": "If MoreImportant is nil, the first fatal error reported is returned by Wait (as RunnerParams documents).", "quantifier": "every schedule with MoreImportant nil", "why_tests_cant": "Tests run a handful of interleavings; the claim ranges over every schedule of goroutines, kills, worker exits and clock readings.", "anchors": ["runner.go:NewRunner", "runner.go:workerDone", "runner.go:RunnerParams"]}
{"id": "C33", "title": "Runner shutdown is complete before Wait returns", "statement": "When the runner is dead, every worker ever returned by a start func has finished, no start call is running, no runner goroutine is left and WorkerNames is empty.", "quantifier": "every schedule", "why_tests_cant": "Tests run a handful of interleavings; the claim ranges over every schedule of goroutines, kills, worker exits and clock readings.", "anchors": ["runner.go:run", "runner.go:runWorker"]}
{"id": "C34", "title": "Runner shutdown always terminates", "statement": "Once the runner was killed or saw a fatal error, if start calls return and killed workers finish and pending clock waits fire, every maximal sequence of internal steps is finite and ends with the runner dead, unless the final error is tomb.ErrStillAlive or tomb.ErrDying, which the tomb rejects with a panic.", "quantifier": "every reachable dying state and continuation", "why_tests_cant": "Termination over all continuations.", "anchors": ["runner.go:run", "runner.go:killAll", "runner.go:runWorker"]}
{"id": "C35", "title": "A dying runner starts no new worker", "statement": "When the runner is dying (killed or after a fatal error) no new workers will be started (documented on Runner.isDying).", "quantifier": "every schedule", "why_tests_cant": "Tests run a handful of interleavings; the claim ranges over every schedule of goroutines, kills, worker exits and clock readings.", "anchors": ["runner.go:Runner.isDying", "runner.go:startWorker", "runner.go:runWorker"]}
{"id": "C36", "title": "Runner.Worker returns the current worker", "statement": "Worker(id) returns NotFound iff the id is unknown (ErrDead if the runner is dying), otherwise waits until the id's worker is available and returns the worker currently running for that id.", "quantifier": "every schedule and concurrent caller", "why_tests_cant": "Tests run a handful of interleavings; the claim ranges over every schedule of goroutines, kills, worker exits and clock readings.", "anchors": ["runner.go:Worker", "runner.go:workerInfo"]}
{"id": "C37", "title": "Runner.Worker never misses a wake-up", "statement": "A Worker call blocks only while its id is known and has no worker: whenever the run loop is idle, every blocked caller that has not been woken is waiting for an id that is known and has no worker yet.", "quantifier": "every schedule, any number of callers", "why_tests_cant": "Tests run a handful of interleavings; the claim ranges over every schedule of goroutines, kills, worker exits and clock readings.", "anchors": ["runner.go:workerInfo", "runner.go:run"]}
{"id": "C38", "title": "StopAndRemoveWorker waits for removal", "statement": "StopAndRemoveWorker returns the worker's error only after the id was removed from the runner; every caller with a nil abort channel eventually returns if the worker stops.", "quantifier": "every schedule, any number of concurrent callers", "why_tests_cant": "Tests run a handful of interleavings; the claim ranges over every schedule of goroutines, kills, worker exits and clock readings.", "anchors": ["runner.go:StopAndRemoveWorker", "runner.go:removeWorker"]}
{"id": "C39", "title": "Runner reports and names", "statement": "WorkerNames and Report list exactly the ids started and not yet removed, Report with the nested report of the current worker if that is a Reporter; a worker that is being stopped is reported as stopping.", "quantifier": "every reachable state", "why_tests_cant": "Tests run a handful of interleavings; the claim ranges over every schedule of goroutines, kills, worker exits and clock readings.", "anchors": ["runner.go:WorkerNames", "runner.go:Report", "runner.go:workerInfo.status"]}
{"id": "C40", "title": "Runner restart delay is respected", "statement": "The first start of an id is immediate; every restart calls the start func no earlier than RestartDelay after the previous worker's end was processed.", "quantifier": "every schedule and clock", "why_tests_cant": "Tests run a handful of interleavings; the claim ranges over every schedule of goroutines, kills, worker exits and clock readings.", "anchors": ["runner.go:runWorker", "runner.go:workerDone", "runner.go:startWorker"]}
{"id": "C41", "title": "Calls on a dead runner", "statement": "On a dead runner StartWorker and StopWorker return ErrDead, Worker and StopAndRemoveWorker return ErrDead, and none of them blocks; on a live runner StopWorker never returns ErrDead.", "quantifier": "every schedule", "why_tests_cant": "Tests run a handful of interleavings; the claim ranges over every schedule of goroutines, kills, worker exits and clock readings.", "anchors": ["runner.go:StartWorker", "runner.go:StopWorker", "runner.go:workerInfo"]}
{"id": "C42", "title": "Shutdown kills every runner worker", "statement": "When the runner dies (killed or fatal error) every registered worker is killed and every worker registered later is killed on registration; a fatal error in one worker never leaves another one running.", "quantifier": "every schedule", "why_tests_cant": "Tests run a handful of interleavings; the claim ranges over every schedule of goroutines, kills, worker exits and clock readings.", "anchors": ["runner.go:killAll", "runner.go:setWorker", "runner.go:workerDone"]}
{"id": "C43", "title": "Invoke: validity, single use and ownership of Init workers", "statement": "Invoke fails iff the plan is invalid or the catacomb was used before; at most one Invoke per catacomb ever succeeds, whatever the concurrency; a failing Invoke stops every non-nil Init worker and an invalid plan leaves the catacomb unused.", "quantifier": "every plan, any number of concurrent Invokes", "why_tests_cant": "Tests run a handful of interleavings; the claim ranges over every schedule of goroutines, kills, worker exits and clock readings.", "anchors": ["catacomb/catacomb.go:Invoke", "catacomb/catacomb.go:Plan.Validate", "catacomb/catacomb.go:stopWorkers"]}
{"id": "C44", "title": "Catacomb.Add always takes ownership", "statement": "Add either hands the worker to the running catacomb (returning nil), or, only when the catacomb is dying, stops the worker, waits for it and returns its error or ErrDying.", "quantifier": "every schedule, any number of concurrent Adds", "why_tests_cant": "Tests run a handful of interleavings; the claim ranges over every schedule of goroutines, kills, worker exits and clock readings.", "anchors": ["catacomb/catacomb.go:Add", "catacomb/catacomb.go:add"]}
{"id": "C45", "title": "A dead catacomb has no live workers", "statement": "When Dead is closed (Wait unblocked) the Work func has returned and every Init worker and every worker accepted by Add has finished.", "quantifier": "every schedule", "why_tests_cant": "Tests run a handful of interleavings; the claim ranges over every schedule of goroutines, kills, worker exits and clock readings.", "anchors": ["catacomb/catacomb.go:Invoke", "catacomb/catacomb.go:add", "catacomb/catacomb.go:Wait"]}
{"id": "C46", "title": "Catacomb error is the first real one", "statement": "Wait returns the first non-nil error, other than the catacomb's own ErrDying, passed to Kill (by clients, by failing workers or by the Work func) before death, translated as documented; later and nil kills never overwrite it.", "quantifier": "every schedule and error sequence", "why_tests_cant": "Tests run a handful of interleavings; the claim ranges over every schedule of goroutines, kills, worker exits and clock readings.", "anchors": ["catacomb/catacomb.go:Kill", "catacomb/catacomb.go:Wait"]}
{"id": "C47", "title": "Kill is always safe", "statement": "Catacomb.Kill never panics, whatever error is passed and whenever it is called (documented: it is always safe to call Kill).", "quantifier": "every error value, every state", "why_tests_cant": "Tests run a handful of interleavings; the claim ranges over every schedule of goroutines, kills, worker exits and clock readings.", "anchors": ["catacomb/catacomb.go:Kill", "catacomb/catacomb.go:ErrDying"]}
{"id": "C48", "title": "Worker errors kill the catacomb, clean exits do not", "statement": "A bound worker finishing with a non-nil error makes the catacomb die with that error (if it is the first); a bound worker finishing without error leaves a live catacomb alive and its error unset.", "quantifier": "every schedule", "why_tests_cant": "Tests run a handful of interleavings; the claim ranges over every schedule of goroutines, kills, worker exits and clock readings.", "anchors": ["catacomb/catacomb.go:add"]}
{"id": "C49", "title": "A dying catacomb stops every worker it owns", "statement": "Once the catacomb is dying every bound worker that has not finished is eventually killed, with nobody left over; no bound worker is killed by the catacomb before it is dying.", "quantifier": "every schedule", "why_tests_cant": "Tests run a handful of interleavings; the claim ranges over every schedule of goroutines, kills, worker exits and clock readings.", "anchors": ["catacomb/catacomb.go:add", "catacomb/catacomb.go:Invoke"]}
{"id": "C50", "title": "The WaitGroup is used correctly", "statement": "The internal WaitGroup never goes negative and is never incremented from zero while somebody waits on it (which would panic), whatever races of Add, Kill and worker exits happen.", "quantifier": "every schedule", "why_tests_cant": "Tests run a handful of interleavings; the claim ranges over every schedule of goroutines, kills, worker exits and clock readings.", "anchors": ["catacomb/catacomb.go:add", "catacomb/catacomb.go:Invoke"]}
{"id": "C51", "title": "Catacomb shutdown always terminates", "statement": "Once the catacomb is dying, if the Work func returns and killed workers finish, every maximal sequence of internal steps is finite and ends with the catacomb dead.", "quantifier": "every reachable dying state and continuation", "why_tests_cant": "Termination over all continuations.", "anchors": ["catacomb/catacomb.go:Invoke", "catacomb/catacomb.go:add", "catacomb/catacomb.go:Add"]}
{"id": "C52", "title": "A finished worker leaves nothing behind", "statement": "When a bound worker has finished, both goroutines tracking it can exit without the catacomb dying, so a long-lived catacomb holds resources only for live workers.", "quantifier": "every schedule", "why_tests_cant": "Tests run a handful of interleavings; the claim ranges over every schedule of goroutines, kills, worker exits and clock readings.", "anchors": ["catacomb/catacomb.go:add"]}
{"id": "C53", "title": "A panic in Work is reported, not propagated", "statement": "If the Work func panics, the catacomb dies with an error describing the panic and all its workers are stopped; the panic does not propagate.", "quantifier": "every panic value and schedule", "why_tests_cant": "Tests run a handful of interleavings; the claim ranges over every schedule of goroutines, kills, worker exits and clock readings.", "anchors": ["catacomb/catacomb.go:runSafely", "catacomb/catacomb.go:Invoke"]}
{"id": "C54", "title": "worker.Stop and worker.Dead", "statement": "Stop kills first and returns exactly what Wait returns; the channel returned by Dead is closed only after the worker finished, and is closed eventually once it has.", "quantifier": "every worker behaviour and schedule", "why_tests_cant": "Tests run a handful of interleavings; the claim ranges over every schedule of goroutines, kills, worker exits and clock readings.", "anchors": ["worker.go:Stop", "worker.go:Dead"]}
{"id": "C55", "title": "Test workers honour their contracts", "statement": "NewErrorWorker runs until killed and then always returns its error; NewDeadWorker is always finished with its error; ForeverWorker ignores Kill and finishes with its error only after ReallyKill; a fake watcher delivers exactly preload events up front and one for each Ping, in order; Ping and Close panic exactly when it was closed before, and Close never blocks.", "quantifier": "every schedule of Kill, ReallyKill and Wait", "why_tests_cant": "Interleavings and call counts are unbounded.", "anchors": ["workertest/workers.go", "workertest/fake_watcher.go"]}
{"id": "C56", "title": "Configuration validation", "statement": "EngineConfig.Validate, RunnerParams.Validate and Plan.Validate accept exactly the documented configurations, and report the first violation in field order; NewRunner fills in every default.", "quantifier": "every configuration, including special float values of BackoffFactor", "why_tests_cant": "Configurations, in particular IEEE special values, are not enumerated by tests.", "anchors": ["dependency/engine.go:EngineConfig.Validate", "runner.go:RunnerParams.Validate", "runner.go:NewRunner", "catacomb/catacomb.go:Plan.Validate"]}
{"id": "C57", "title": "Stub getter contract", "statement": "The testing Getter returns the configured error first, succeeds with nil out for configured resources, stores the first convertible output otherwise and fails without touching out if there is none or the name is unknown.", "quantifier": "every stub resource map, name and out pointer", "why_tests_cant": "Inputs unbounded.", "anchors": ["dependency/testing/stub.go"]}
{"id": "C58", "title": "Tomb reasons are write-once", "statement": "For the engine, the runner and the catacomb: dying and dead are permanent, dead implies dying, the recorded reason changes at most from nil to one non-nil error and never afterwards.", "quantifier": "every schedule", "why_tests_cant": "Tests run a handful of interleavings; the claim ranges over every schedule of goroutines, kills, worker exits and clock readings.", "anchors": ["dependency/engine.go:Engine", "runner.go:Runner", "catacomb/catacomb.go:Catacomb"]}
{"id": "C59", "title": "Contexts of runner start funcs", "statement": "The context given to a start func is done while the start func runs exactly when the runner was killed or, for a first start, the context of the StartWorker call is done; a restart is not tied to any caller's context, and a fatal error does not cancel it.", "quantifier": "every schedule, every cancellation", "why_tests_cant": "Tests run a handful of interleavings; the claim ranges over every schedule of goroutines, kills, worker exits and clock readings.", "anchors": ["runner.go:Runner.runWorker", "runner.go:Runner.startWorker", "runner.go:Runner.workerDone"]}
{"id": "C60", "title": "A worker whose Wait does not return blocks the runner for good", "statement": "If Wait of a worker leaves the runner's goroutine without returning (runtime.Goexit), the runner's loop never returns and the runner is never dead.", "quantifier": "every continuation", "why_tests_cant": "Tests run a handful of interleavings; the claim ranges over every schedule of goroutines, kills, worker exits and clock readings.", "anchors": ["runner.go:Runner.runWorker"]}
{"id": "C61", "title": "A catacomb that owns its own parent worker is never dead", "statement": "If the worker built around a catacomb is bound to that catacomb (in Init or by Add), the catacomb is never dead and Wait never returns, whatever happens.", "quantifier": "every continuation", "why_tests_cant": "Tests run a handful of interleavings; the claim ranges over every schedule of goroutines, kills, worker exits and clock readings.", "anchors": ["catacomb/catacomb.go:add", "catacomb/catacomb.go:Invoke", "catacomb/catacomb.go:Add"]}
{"id": "C62", "title": "runtime.Goexit in Work", "statement": "If Work leaves its goroutine by runtime.Goexit (for instance a failed test assertion), the catacomb does not call Kill for it and is never dead.", "quantifier": "every continuation", "why_tests_cant": "Tests run a handful of interleavings; the claim ranges over every schedule of goroutines, kills, worker exits and clock readings.", "anchors": ["catacomb/catacomb.go:runSafely", "catacomb/catacomb.go:Invoke"]}
{"id": "C63", "title": "ErrDying of a catacomb", "statement": "ErrDying returns the catacomb's own error if and only if Kill was called before (a complaint otherwise), and Kill with that error, wrapped or not, leaves a dying catacomb as it is.", "quantifier": "every schedule, every wrapping", "why_tests_cant": "Tests run a handful of interleavings; the claim ranges over every schedule of goroutines, kills, worker exits and clock readings.", "anchors": ["catacomb/catacomb.go:ErrDying", "catacomb/catacomb.go:Kill"]}
{"id": "C64", "title": "Add before Invoke never hands over", "statement": "A call of Add that is made before the catacomb was used selects on a nil channel: it never hands over its worker, even if the catacomb is used later; it can only end by refusing once the catacomb is dying.", "quantifier": "every continuation", "why_tests_cant": "Tests run a handful of interleavings; the claim ranges over every schedule of goroutines, kills, worker exits and clock readings.", "anchors": ["catacomb/catacomb.go:Add", "catacomb/catacomb.go:Invoke"]}
{"id": "C65", "title": "Check helpers for tests", "statement": "CheckAlive fails the test only if the worker finished and otherwise waits aliveDelay; CheckKilled and CheckKill return the worker's error, or fail and return a timeout error after killTimeout; CleanKill passes only if the worker finished without an error; DirtyKill fails only by timeout; CheckNilOrKill passes only for nil; all of them return once their timeout passed.", "quantifier": "every worker behaviour, number of concurrent calls and schedule", "why_tests_cant": "Tests run a handful of interleavings; the claim ranges over every schedule of goroutines, kills, worker exits and clock readings.", "anchors": ["workertest/check.go"]}
{"id": "C66", "title": "Nested reports of the engine", "statement": "A report of the engine contains a nested report for a manifold if and only if that manifold has at that moment a worker other than the engine itself which is a Reporter; the nested report is what that worker's Report returned during this very call.", "quantifier": "every schedule, every assignment of Reporter workers", "why_tests_cant": "Tests run a handful of interleavings; the claim ranges over every schedule of goroutines, kills, worker exits and clock readings.", "anchors": ["dependency/engine.go:Engine.Report", "dependency/engine.go:Engine.manifoldsReport"]}
{"id": "C67", "title": "The context of an attempt that is over is released", "statement": "Once the engine has been told that an attempt is over, the context that was made for its Start func is done, so that the engine's tomb does not keep it.", "quantifier": "every schedule and number of attempts", "why_tests_cant": "Tests run a handful of interleavings; the claim ranges over every schedule of goroutines, kills, worker exits and clock readings.", "anchors": ["dependency/engine.go:Engine.requestStart", "dependency/engine.go:Engine.scopedContext", "dependency/engine.go:Engine.gotStopped", "dependency/engine.go:Engine.requestStop"]}
{"id": "C68", "title": "Contexts of a tomb", "statement": "A context obtained from Catacomb.Context, or from the engine's or runner's tomb, is done exactly when the tomb is dying or the parent context is done; calls with the same live parent share one context, different parents never do; the tomb keeps a context until its parent is done, and drops it at the next call with a new parent.", "quantifier": "every sequence of Context calls, cancellations and kills, every number of parents", "why_tests_cant": "Tests run a handful of interleavings; the claim ranges over every schedule of goroutines, kills, worker exits and clock readings.", "anchors": ["catacomb/catacomb.go:Context", "dependency/engine.go:Engine.scopedContext", "runner.go:Runner.startWorker", "runner.go:Runner.workerDone"]}
{"id": "C70", "title": "The engine installed in itself", "statement": "If the engine stops a manifold whose worker is the engine itself, the engine is dying; such an attempt ends only when the engine is dying, with tomb.ErrDying; the Output func of SelfManifold hands out the engine for *Installer and *Reporter and nothing else.", "quantifier": "every schedule, every set of manifolds", "why_tests_cant": "Tests run a handful of interleavings; the claim ranges over every schedule of goroutines, kills, worker exits and clock readings.", "anchors": ["dependency/util.go:SelfManifold", "dependency/engine.go:Engine.requestStop", "dependency/engine.go:Engine.runWorker"]}
{"id": "C71", "title": "The engine's record of resource accesses", "statement": "For each installed manifold the engine keeps the getter calls (name, kind of target, error) of the attempt it heard of last: all calls made before Start returned, in order, and of later calls all but some that failed because the getter had expired.", "quantifier": "every schedule, every number of getter calls", "why_tests_cant": "Tests run a handful of interleavings; the claim ranges over every schedule of goroutines, kills, worker exits and clock readings.", "anchors": ["dependency/engine.go:Engine.gotStarted", "dependency/engine.go:Engine.gotStopped", "dependency/engine.go:Engine.runWorker", "dependency/snapshot.go:snapshot.Get"]}
{"id": "C69", "title": "Goroutines of Runner.Worker", "statement": "The goroutine that a blocked call of Worker or StopAndRemoveWorker leaves behind exits: at the latest when the runner is dead, and soon after the call returned ErrAborted.", "quantifier": "every schedule, any number of calls", "why_tests_cant": "Tests run a handful of interleavings; the claim ranges over every schedule of goroutines, kills, worker exits and clock readings.", "anchors": ["runner.go:Runner.workerInfo"]}
{"id": "C72", "title": "Abort channels", "statement": "Worker and StopAndRemoveWorker return ErrAborted only if the abort channel of the call is done, no other call returns it, and a call whose abort channel is done is not blocked.", "quantifier": "every schedule, any number of calls", "why_tests_cant": "Tests run a handful of interleavings; the claim ranges over every schedule of goroutines, kills, worker exits and clock readings.", "anchors": ["runner.go:Runner.workerInfo", "runner.go:Runner.StopAndRemoveWorker"]}
{"id": "C73", "title": "Handlers of the engine's loop are atomic", "statement": "Although clients and runWorker goroutines run while the engine's loop handles a message, every execution is equivalent to one in which each handler is a single atomic step: the same states whenever the loop waits for a message, the same events, in the same order for the loop and in the same order for the other goroutines; only the moment of a client's Kill may differ. So one worker per manifold, fresh inputs, complete shutdown, the result of Wait, and kill-once hold for every interleaving.", "quantifier": "every interleaving of the loop's actions with all other goroutines", "why_tests_cant": "Tests run a handful of interleavings; the claim ranges over every schedule of goroutines, kills, worker exits and clock readings.", "anchors": ["dependency/engine.go:loop", "dependency/engine.go:gotInstall", "dependency/engine.go:gotStarted", "dependency/engine.go:gotStopped", "dependency/engine.go:requestStart", "dependency/engine.go:requestStop", "dependency/engine.go:bounceDependents"]}
{"id": "C74", "title": "The runner keeps up with its work", "statement": "Left alone by its environment (no new calls, no workers ending, no start funcs returning, no time passing) a runner does finitely much and then rests. At rest every StartWorker and StopWorker has returned (unless the tomb crashed the program); every known id has a goroutine in charge whose start func is running, whose worker is running, or that waits in its restart delay; every end of a worker and every failure of a start func has been handled; and a Worker or StopAndRemoveWorker call still blocked waits for a known worker that is not running, for a worker it killed, for the removal of an entry the runner keeps, or for a removal signal another call took.", "quantifier": "every reachable state, any number of workers and calls, every order of the steps", "why_tests_cant": "Tests run a handful of interleavings; the claim ranges over every schedule of goroutines, kills, worker exits and clock readings.", "anchors": ["runner.go:Runner.run", "runner.go:Runner.runWorker", "runner.go:Runner.workerInfo", "runner.go:Runner.StopAndRemoveWorker", "runner.go:Runner.StartWorker", "runner.go:Runner.StopWorker"]}
{"id": "C75", "title": "Calls on the engine are linearizable", "statement": "Every call of Install, Report and Wait, from any number of goroutines, takes effect exactly once, at one moment between its beginning and its return, and returns what is right for the engine of that moment; Install and Report are never blocked by the engine, whatever its state, and Wait only while it is not dead. After a Wait has returned, Install is refused, Report says stopped with the error of that Wait, and Wait returns the same error again. Of two successful Installs with one name, the second took effect after the manifold of the first was uninstalled.", "quantifier": "every schedule, any number of concurrent calls", "why_tests_cant": "Tests run a handful of interleavings; the claim ranges over every schedule of goroutines, kills, worker exits and clock readings.", "anchors": ["dependency/engine.go:Engine.Install", "dependency/engine.go:Engine.Report", "dependency/engine.go:Engine.Wait", "dependency/engine.go:Engine.loop", "dependency/engine.go:Engine.gotInstall", "dependency/engine.go:Engine.liveReport"]}
{"id": "C76", "title": "No data races", "statement": "Whatever goroutines call the runner, the engine or a catacomb, any two accesses to one of their variables (fields, maps and their entries, snapshots and access logs, the caller's Init slice), at least one of them a write, are ordered by the happens-before relation of the Go memory model. The engine: if Start funcs call their getter in their own goroutine. A catacomb: if Add is called after Invoke returned, or from Work.", "quantifier": "every execution, any number of goroutines, calls, workers and manifolds", "why_tests_cant": "A race detector sees the interleavings that happen; this is every pair of accesses of every execution.", "anchors": ["runner.go:Runner", "runner.go:Runner.workerInfo", "runner.go:Runner.startWorker", "runner.go:Runner.workerDone", "dependency/engine.go:Engine.loop", "dependency/engine.go:Engine.runWorker", "dependency/engine.go:Engine.Report", "dependency/engine.go:Engine.Wait", "dependency/snapshot.go:snapshot.Get", "catacomb/catacomb.go:Invoke", "catacomb/catacomb.go:Catacomb.Add"]}
{"id": "C77", "title": "A late Get causes no data race", "statement": "A Start func may hand its getter to other goroutines: a Get that is not blocked because it comes before the getter expires causes no data race (the comment in runWorker).", "quantifier": "every execution, any number of goroutines that use a getter", "why_tests_cant": "Needs the interleaving in which a Get overlaps the expiry.", "anchors": ["dependency/engine.go:Engine.runWorker", "dependency/snapshot.go:snapshot.Get", "dependency/snapshot.go:snapshot.expire"]}
{"id": "C78", "title": "Workers made of workers shut down completely", "statement": "Engines, runners and catacombs run workers that may again be engines, runners or catacombs, to any depth. When Wait of one of them returns, every worker below it has finished. Kill on one reaches all the workers below it that have to stop, and the shutdown of the whole tree cannot get stuck: a worker that was told to stop, and below which no step that is bound to happen is possible any more, has finished, together with everything below it; and from every reachable state a worker that was killed can be brought to its end by such steps. (Provided that no worker contains itself, and nobody uses the tomb's internal errors or runtime.Goexit.)", "quantifier": "every tree of workers, of any depth and width, every interleaving of all of them", "why_tests_cant": "Tests run a handful of interleavings; the claim ranges over every schedule of goroutines, kills, worker exits and clock readings.", "anchors": ["dependency/doc.go", "catacomb/doc.go", "worker.go:Worker", "dependency/engine.go:Engine.loop", "dependency/engine.go:Engine.runWorker", "runner.go:Runner.run", "runner.go:Runner.runWorker", "catacomb/catacomb.go:Catacomb.add", "catacomb/catacomb.go:Catacomb.Kill"]}
{"id": "C79", "title": "Errors are recognised through wrappings", "statement": "The errors that mean something to the packages (ErrMissing, ErrBounce, ErrUninstall, errAborted for the engine, a catacomb's ErrDying for that catacomb) are recognised however often they were traced or annotated on the way: the engine does the same with a wrapped error as with the bare one, and Kill on a catacomb ignores its own ErrDying and complains about another's, wrapped or not. Every error has exactly one verdict.", "quantifier": "all errors, all depths of wrapping, all reachable states", "why_tests_cant": "Tests wrap an error once or not at all; a comparison with == in place of errors.Is passes them all in the unwrapped case. The claim ranges over all chains.", "anchors": ["dependency/engine.go:Engine.gotStopped", "dependency/engine.go:Engine.runWorker", "dependency/interface.go:ErrBounce", "dependency/interface.go:ErrUninstall", "dependency/interface.go:ErrMissing", "catacomb/catacomb.go:Catacomb.Kill", "runner.go:Runner.workerInfo"]}
{"id": "C80", "title": "In the end it happens: shutdown and convergence in infinite executions", "statement": "Take any infinite execution in which steps that are bound to happen are not put off for ever. A dying engine is dead some time later; so is a dying catacomb that was used, and a runner that has begun to stop everything, provided they get no new work. And an engine that is left alone (nothing is installed any more, workers exit only when killed, Start calls that fail do so with ErrMissing or what a filter turns into nil, time passes) converges: there is a time from which on every installed manifold either has its worker registered, started with exactly the workers of its inputs that are registered, or has ended with nil or ErrMissing when offered exactly these.", "quantifier": "all infinite executions, all sizes, all interleavings; no fairness assumption beyond the one stated", "why_tests_cant": "Tests run a handful of interleavings; the claim ranges over every schedule of goroutines, kills, worker exits and clock readings. No test can observe 'eventually'.", "anchors": ["dependency/engine.go:Engine.loop", "dependency/engine.go:Engine.gotStopped", "dependency/engine.go:Engine.bounceDependents", "runner.go:Runner.run", "catacomb/catacomb.go:Catacomb.Invoke"]}
{"id": "C81", "title": "A killed tree of workers comes to its end", "statement": "Take any infinite execution of engines, runners, catacombs and plain workers, made of each other to any depth, in which no worker contains itself. If a worker was killed, then some time later its Wait returns, and that of every worker below it: provided that none of them is starved of the steps that are bound to happen in it, the loop of a runner that was killed takes the Dying case of its select in the end, and from then on clients give them no new work (and nobody uses the tomb's internal errors or runtime.Goexit).", "quantifier": "all infinite executions of all trees of workers, of any depth and width", "why_tests_cant": "Tests run a handful of interleavings; the claim ranges over every schedule of goroutines, kills, worker exits and clock readings. No test can observe 'eventually', and the tests of one package use only plain workers.", "anchors": ["dependency/doc.go", "catacomb/doc.go", "worker.go:Worker", "dependency/engine.go:Engine.loop", "dependency/engine.go:Engine.runWorker", "runner.go:Runner.run", "runner.go:Runner.runWorker", "catacomb/catacomb.go:Catacomb.add", "catacomb/catacomb.go:Catacomb.Kill"]}
{"id": "C82", "title": "Reports of workers made of workers are true and return", "statement": "Report of an engine or a runner calls Report on its workers, which may be engines and runners again, while everything else goes on. What such a report says about a worker's own state was so when it was begun, after the call; what it says about the workers in it was so all the time while it was made; every worker with a Report method is in it, with a report of which the same is true. If no worker contains itself, then reports cannot deadlock, however many are made at the same time, and they come to an end. While the Report of an engine or runner waits for that of a worker, the engine or runner does not die. Reports change nothing about what the workers can do.", "quantifier": "all trees of workers, of any depth and width, any number of concurrent Report calls, all interleavings", "why_tests_cant": "Tests run a handful of interleavings; the claim ranges over every schedule of goroutines, kills, worker exits and clock readings. The tests report on plain workers that answer at once.", "anchors": ["dependency/engine.go:Engine.Report", "dependency/engine.go:Engine.liveReport", "dependency/engine.go:Engine.manifoldsReport", "dependency/engine.go:Engine.loop", "runner.go:Runner.Report", "dependency/interface.go:Reporter", "worker.go:Worker"]}
{"id": "C83", "title": "Calls from inside: which of them can never return", "statement": "User code that a component runs may call that component's own methods. As long as a callback called by the runner's loop has not returned (IsFatal, MoreImportant, ShouldRestart, Kill of a worker), the runner does nothing: StartWorker called from it returns only ErrDead, and only once its context is done; StopWorker never returns, even if the runner is killed; StopAndRemoveWorker of a known id and Worker of an id without a worker return only if the runner is dying or the abort channel is closed; and from a worker's Kill, which is called with the mutex locked, Worker and StopAndRemoveWorker never return. StopAndRemoveWorker that killed a worker returns only after that worker ended, so a worker cannot remove itself. As long as user code called by the engine's loop (IsFatal, WorstError, Filter, Kill and Report of a worker) has not returned, Report and Wait of the engine do not return, and Install returns only once the engine is dying, with the error that says so. Wait of an engine, runner or catacomb does not return before the Start funcs, workers and Work have; called from one of them it waits for itself.", "quantifier": "all reachable states in which such a callback is called, all things that happen meanwhile, any number of other callers", "why_tests_cant": "Tests run a handful of interleavings; the claim ranges over every schedule of goroutines, kills, worker exits and clock readings. The tests' callbacks are pure functions; a deadlock is not observed but a test that hangs.", "anchors": ["runner.go:Runner.StartWorker", "runner.go:Runner.StopWorker", "runner.go:Runner.StopAndRemoveWorker", "runner.go:Runner.Worker", "runner.go:Runner.run", "runner.go:Runner.killWorkerLocked", "dependency/engine.go:Engine.loop", "dependency/engine.go:Engine.Install", "dependency/engine.go:Engine.Report", "dependency/engine.go:Engine.Wait", "catacomb/catacomb.go:Catacomb.Wait"]}
{"id": "C84", "title": "Start funcs and workers that leave by runtime.Goexit", "statement": "If a Start func or the Wait of a worker calls runtime.Goexit (as a failed assertion of a test does), the goroutine of that attempt is gone without a message to the engine. The engine stays in states it can be in anyway, and the getter of the attempt says that it is expired. But from then on, whatever happens, the engine never becomes dead and its Wait never returns; the attempt is never recorded as stopped; its name stays installed and is never started, stopped, uninstalled or installed again, and Install of it is refused; manifolds that depend on it are started with the dead worker for ever (or without one, if it was the Start func that left). When the engine is killed, everything else still stops: the engine takes a bounded number of further steps, and then the attempts in progress are the ones that were lost.", "quantifier": "all reachable states of the engine, any number of such goroutines at any time, all later executions", "why_tests_cant": "Tests run a handful of interleavings; the claim ranges over every schedule of goroutines, kills, worker exits and clock readings. A test that does this hangs.", "anchors": ["dependency/engine.go:Engine.runWorker", "dependency/engine.go:Engine.loop", "dependency/engine.go:Engine.gotStopped", "dependency/snapshot.go:snapshot.expire"]}
{"id": "C85", "title": "What runs in the end does not depend on order or timing", "statement": "Once an engine has converged (C80), which manifolds are running is determined by which are installed and by their Start funcs alone, provided that whether a Start call returns a worker depends only on the func and on which of its declared inputs are running, and that no worker has retired (exited of its own accord with an error after which the engine leaves it alone, such as nil). A manifold then runs exactly if its Start func would return a worker given the running inputs; so two engines with the same manifolds installed, in whatever order, and whatever crashed, bounced or was uninstalled before, run the same manifolds. If the Start funcs want all their inputs, what runs is exactly what has all it depends on, directly or not, installed. Any two infinite executions as in C80 that end with the same manifolds installed therefore agree from some time on. If a worker may retire this is false.", "quantifier": "all pairs of reachable converged states and all pairs of infinite executions, all sizes and shapes of the dependency graph, all orders of installation, all interleavings", "why_tests_cant": "Tests run a handful of interleavings; the claim ranges over every schedule of goroutines, kills, worker exits and clock readings. A test installs in one order; that no order makes a difference is a statement about all pairs of executions.", "anchors": ["dependency/doc.go", "dependency/engine.go:Engine.gotInstall", "dependency/engine.go:Engine.gotStarted", "dependency/engine.go:Engine.gotStopped", "dependency/engine.go:Engine.bounceDependents", "dependency/engine.go:Engine.requestStart", "dependency/util.go:Install"]}
{"id": "C86", "title": "Restarts are paced", "statement": "However workers and Start funcs fail, and whatever else happens, Start is not called in a tight loop. Of two Start calls for one name, the later belongs to an attempt made after the earlier call, and comes no sooner than that attempt's delay after it was made (the same holds for a runner's start funcs). So if the delays are positive and at least delta, then while a name is not installed anew, its Start func is called at most 1 + (b - a) / delta times between times a and b; and a runner calls the start func of an id at most 1 + (b - a) / RestartDelay times, while StartWorker is not accepted for it anew.", "quantifier": "all executions, all stretches of them and all intervals of time, any number of failures", "why_tests_cant": "A test counts a few restarts; the claim is that no pattern of failures, bounces, stops and starts beats the delay.", "anchors": ["dependency/engine.go:Engine.requestStart", "dependency/engine.go:Engine.runWorker", "dependency/engine.go:Engine.gotStopped", "dependency/engine.go:Engine.gotInstall", "runner.go:Runner.runWorker", "runner.go:Runner.workerInfo", "runner.go:Runner.run"]}
{"id": "C87", "title": "What a call on the runner means for later calls", "statement": "StartWorker and StopWorker take effect between their beginning and their return. After StartWorker has returned nil (on a runner that was not stopping everything), and as long as the id is not removed, StartWorker for the id is refused with AlreadyExists, WorkerNames lists it, and Worker and StopAndRemoveWorker do not answer NotFound. After StopWorker has returned nil nothing is started for the id until StartWorker is accepted for it again. After StopAndRemoveWorker has returned the worker's error, StartWorker for the id succeeds (or returns ErrDead), unless another one was accepted for it after the removal. (What Worker and StopAndRemoveWorker return otherwise is C36 and C38.)", "quantifier": "all executions, all sequences of calls by any number of goroutines, all ids", "why_tests_cant": "Tests run a handful of interleavings; the claim ranges over every schedule of goroutines, kills, worker exits and clock readings. The tests make one call after the other with the loop idle in between.", "anchors": ["runner.go:Runner.StartWorker", "runner.go:Runner.StopWorker", "runner.go:Runner.StopAndRemoveWorker", "runner.go:Runner.Worker", "runner.go:Runner.WorkerNames", "runner.go:Runner.run"]}
{"id": "C88", "title": "Goroutines do not leak", "statement": "In the engine, the runWorker goroutines created and not yet accounted for by the loop (which handles one end per goroutine) are at any time at most as many as the manifolds installed and not uninstalled; once the engine is dead there are none, unless a Start func returned the engine itself (then the loop ends without waiting for it). In the runner they are at any time exactly as many as the ids accepted and not removed, which is also how many names WorkerNames returns; once the runner is dead there are none. However many restarts there have been. In the catacomb, the goroutines it waits for are one or two for every worker bound and not yet released, plus at most one that listens for Add; once it is dead there are none.", "quantifier": "all executions, any number of installs, restarts and removals", "why_tests_cant": "A leak of one goroutine in some rare interleaving of a stop with a restart does not fail any test; the count is over the whole history.", "anchors": ["dependency/engine.go:Engine.requestStart", "dependency/engine.go:Engine.runWorker", "dependency/engine.go:Engine.gotStopped", "dependency/engine.go:Engine.gotInstall", "dependency/engine.go:Engine.uninstall", "dependency/engine.go:Engine.allOthersStopped", "runner.go:Runner.run", "runner.go:Runner.runWorker", "runner.go:Runner.removeWorker", "runner.go:Runner.WorkerNames", "catacomb/catacomb.go:Catacomb.add"]}
{"id": "C89", "title": "The life of an attempt follows one automaton", "statement": "Whatever happens, the events observed of one attempt to start a worker come in an order accepted by a fixed automaton. In the engine: the attempt is planned, Start is called at most once, returns a worker or an error, the worker is accepted only while the attempt's context is not cancelled, it is killed at most once and never before it was returned, it exits at most once, and the attempt is over exactly once, never while Start runs or a returned worker has not exited; the context is cancelled at most once and never after the end. In the runner: the goroutine is created, the start func is called at most once, its worker is accepted by the loop once and before its end is handled, and the runner calls Kill on it at most once; the only event that can come after the end is the Kill of a worker that is being restarted. In the catacomb: a worker is bound, Kill is called on it at most once by its binding, its error is passed on at most once, and the binding ends once, after the worker finished, with nothing after that. The attempt in progress for a name or id is the only one whose life has begun and not ended; when the engine, the runner or the catacomb is dead every life is over, except, for the engine, that of an attempt whose Start func returned the engine itself.", "quantifier": "all reachable states of the engine, the runner and the catacomb, all attempts and bindings, all schedules, all Start funcs and workers", "why_tests_cant": "A test sees the events of a few attempts in a few schedules; the claim is about the order of all events of every attempt in every execution.", "anchors": ["dependency/engine.go:Engine.gotStarted", "dependency/engine.go:Engine.gotStopped", "dependency/engine.go:Engine.requestStop", "dependency/engine.go:Engine.runWorker", "runner.go:Runner.setWorker", "runner.go:Runner.workerDone", "runner.go:Runner.killWorkerLocked", "runner.go:Runner.runWorker", "catacomb/catacomb.go:Catacomb.add"]}
{"id": "C90", "title": "What the tables of the engine and the runner hold", "statement": "At all times the manifolds table holds exactly the manifolds that are installed, the current table has an entry for exactly these names, and the dependents table lists under a name exactly the installed manifolds that have it among their inputs, each at most as often as the manifold lists the input. The keys of the dependents table are the names that were ever an input of an accepted manifold: uninstalling empties an entry but does not remove it. The runner's table has an entry for exactly the ids that were accepted and not removed since; the entry has the start func it was accepted with until the id is asked to stop, the worker that was registered last, the time of acceptance, the configured delay and a done channel no other id has; it is marked as stopping exactly when the id was asked to stop and the loop has acted on it.", "quantifier": "all configurations, manifolds (with repeated inputs too), interleavings and sequences of installs and uninstalls of any length", "why_tests_cant": "tests look at the tables only through reports, after one or two installs", "anchors": ["dependency/engine.go:Engine.gotInstall", "dependency/engine.go:Engine.uninstall", "dependency/engine.go:Engine.dependents", "runner.go:Runner.workers", "runner.go:Runner.startWorker", "runner.go:Runner.killWorkerLocked"]}
