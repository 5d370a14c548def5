-Q theories Verif
theories/Err.v
theories/Tomb.v
theories/Validate.v
theories/ValidateSpec.v
theories/ValidateProofs.v
theories/Order.v
theories/Sum.v
theories/Snapshot.v
theories/Engine.v
theories/EngineSpec.v
theories/EngineMicro.v
theories/EngineSteps.v
theories/EngineLog.v
theories/EngineSafety.v
theories/EngineFresh.v
theories/EngineKill.v
theories/EngineObs.v
theories/EngineHandlers.v
theories/EngineProgressSpec.v
theories/EngineProgress.v
theories/EngineSettle.v
theories/EngineMore.v
theories/EngineExample.v
theories/Runner.v
theories/RunnerSpec.v
theories/RunnerInv.v
theories/RunnerLog.v
theories/RunnerGor.v
theories/RunnerHist.v
theories/RunnerThms.v
theories/RunnerCalls.v
theories/RunnerUse.v
theories/RunnerProgressSpec.v
theories/RunnerAnswers.v
theories/RunnerProgress.v
theories/RunnerMore.v
theories/RunnerWaiters.v
theories/RunnerExample.v
theories/Catacomb.v
theories/CatacombSpec.v
theories/CatacombInv.v
theories/CatacombTr.v
theories/CatacombLog.v
theories/CatacombHist.v
theories/CatacombProgressSpec.v
theories/CatacombProgress.v
theories/CatacombThms.v
theories/CatacombMore.v
theories/CatacombExample.v
theories/Backoff.v
theories/BackoffSpec.v
theories/BackoffProofs.v
theories/BackoffMore.v
theories/Config.v
theories/ConfigSpec.v
theories/ConfigProofs.v
theories/Stub.v
theories/StubSpec.v
theories/StubProofs.v
theories/Workers.v
theories/WorkersSpec.v
theories/WorkersProofs.v
theories/TestWorkers.v
theories/TestWorkersSpec.v
theories/TestWorkersProofs.v
theories/PropsValidate.v
theories/PropsEngineStart.v
theories/PropsEngineStop.v
theories/PropsEngineWait.v
theories/PropsRunnerStart.v
theories/PropsRunnerWait.v
theories/PropsRunnerCalls.v
theories/PropsRunnerWaiters.v
theories/PropsCatacombCalls.v
theories/PropsCatacombErrors.v
theories/PropsCatacombStop.v
theories/PropsBackoff.v
theories/PropsConfig.v
theories/PropsStub.v
theories/PropsWorkers.v
theories/PropsTestWorkers.v
theories/SelfManifold.v
theories/EngineMoreSpec.v
theories/EngineMore2.v
theories/EngineLeak.v
theories/PropsEngineMore.v
theories/TombCtx.v
theories/TombCtxProofs.v
theories/PropsTombCtx.v
theories/EngineFine.v
theories/EngineFineSpec.v
theories/EngineFineProofs.v
theories/EngineFineMore.v
theories/PropsEngineFine.v
theories/RunnerLiveSpec.v
theories/RunnerLive.v
theories/PropsRunnerLive.v
theories/EngineCalls.v
theories/EngineCallsSpec.v
theories/EngineCallsProofs.v
theories/PropsEngineCalls.v
theories/Race.v
theories/RaceSpec.v
theories/RaceProofs.v
theories/RaceProgs.v
theories/RaceTyped.v
theories/RaceExample.v
theories/PropsRace.v
theories/Tree.v
theories/TreeSpec.v
theories/TreeEngine.v
theories/TreeRunner.v
theories/TreeCatacomb.v
theories/TreeProofs.v
theories/TreeFinish.v
theories/TreeExample.v
theories/PropsTree.v
theories/FairSpec.v
theories/FairEngineSpec.v
theories/FairCatacombSpec.v
theories/FairProofs.v
theories/FairEngine.v
theories/FairCatacomb.v
theories/FairExample.v
theories/PropsFair.v
theories/FairTreeSpec.v
theories/FairTree.v
theories/FairTreeExample.v
theories/PropsFairTree.v
theories/Reports.v
theories/ReportsSpec.v
theories/ReportsProofs.v
theories/ReportsInv.v
theories/ReportsExample.v
theories/ReportsLive.v
theories/PropsReports.v
theories/ErrSpec.v
theories/ErrProofs.v
theories/PropsErr.v
theories/InsideRunnerSpec.v
theories/InsideRunner.v
theories/PropsInsideRunner.v
theories/InsideEngineSpec.v
theories/InsideEngine.v
theories/PropsInsideEngine.v
theories/InsideCatacomb.v
theories/PropsInsideCatacomb.v
theories/EngineGoexit.v
theories/EngineGoexitSpec.v
theories/EngineGoexitProofs.v
theories/PropsEngineGoexit.v
theories/OutcomeSpec.v
theories/OutcomeProofs.v
theories/OutcomeExample.v
theories/PropsOutcome.v
theories/PaceSpec.v
theories/PaceEngine.v
theories/PaceRunner.v
theories/PropsPaceEngine.v
theories/PropsPaceRunner.v
theories/PacePlain.v
theories/PropsPacePlain.v
theories/RunnerSessions.v
theories/PropsRunnerSessions.v
theories/LeakSpec.v
theories/LeakEngine.v
theories/LeakRunner.v
theories/PropsLeakEngine.v
theories/PropsLeakRunner.v
theories/EngineLifeSpec.v
theories/EngineLife.v
theories/EngineLifeThms.v
theories/PropsEngineLife.v
theories/RunnerLifeSpec.v
theories/RunnerLife.v
theories/RunnerLifeThms.v
theories/PropsRunnerLife.v
theories/CatacombLifeSpec.v
theories/CatacombLife.v
theories/PropsCatacombLife.v
theories/EngineTablesSpec.v
theories/EngineTables.v
theories/PropsEngineTables.v
theories/RunnerTables.v
theories/PropsRunnerTables.v
theories/LeakCatacombSpec.v
theories/LeakCatacomb.v
theories/PropsLeakCatacomb.v
theories/BackoffRound.v
theories/PropsBackoffRound.v
