{
 "claims": [
  {
   "property": "C01",
   "status": "proved",
   "theorems": [
    "C01_validate_nil_iff_acyclic",
    "C01_validate_names_cycle"
   ],
   "note": "PropsValidate.v"
  },
  {
   "property": "C02",
   "status": "proved",
   "theorems": [
    "C02_install_first_failure"
   ],
   "note": "PropsValidate.v"
  },
  {
   "property": "C03",
   "status": "proved",
   "theorems": [
    "C03_install_result",
    "C03_install_refused",
    "C03_never_cyclic"
   ],
   "note": "PropsEngineStart.v"
  },
  {
   "property": "C04",
   "status": "proved",
   "theorems": [
    "C04_one_worker_per_manifold"
   ],
   "note": "PropsEngineStart.v"
  },
  {
   "property": "C05",
   "status": "proved",
   "theorems": [
    "C05_no_stale_inputs"
   ],
   "note": "PropsEngineStart.v"
  },
  {
   "property": "C06",
   "status": "proved",
   "theorems": [
    "C06_outputs_paired"
   ],
   "note": "PropsEngineStart.v"
  },
  {
   "property": "C07",
   "status": "proved",
   "theorems": [
    "C07_dependents_bounced",
    "C07_only_dependents_started",
    "C07_only_dependents_stopped"
   ],
   "note": "PropsEngineStop.v"
  },
  {
   "property": "C08",
   "status": "proved",
   "theorems": [
    "C08_stopped_then",
    "C08_stopped_cause",
    "C08_idle_after",
    "C08_table"
   ],
   "note": "PropsEngineStop.v"
  },
  {
   "property": "C09",
   "status": "proved",
   "theorems": [
    "C09_no_manifold_forgotten"
   ],
   "note": "PropsEngineStart.v; errAborted (ErrStartAborted) also leaves a manifold alone, the theorem says so"
  },
  {
   "property": "C10",
   "status": "proved",
   "theorems": [
    "C10_checks_never_fire"
   ],
   "note": "PropsEngineWait.v"
  },
  {
   "property": "C11",
   "status": "proved",
   "theorems": [
    "C11_wait_returns_worst",
    "C11_wait_waits"
   ],
   "note": "PropsEngineWait.v"
  },
  {
   "property": "C12",
   "status": "proved",
   "theorems": [
    "C12_shutdown_complete"
   ],
   "note": "PropsEngineWait.v"
  },
  {
   "property": "C13",
   "status": "proved",
   "theorems": [
    "C13_kill_once",
    "C13_wanted_stop_killed",
    "C13_duplicate_input_spurious_stop"
   ],
   "note": "PropsEngineStop.v; the third theorem is a finding: a name listed twice in Inputs bounces the manifold twice"
  },
  {
   "property": "C14",
   "status": "proved",
   "theorems": [
    "C14_dying_starts_nothing",
    "C14_at_most_one",
    "C14_start_after_kill_refuted"
   ],
   "note": "PropsEngineStart.v: with atomic handlers, a kill taking effect at the loop's next look at the tomb. PropsEngineFine.v: at most one action for any interleaving, and it occurs. That a worker started meanwhile is killed is C13_wanted_stop_killed"
  },
  {
   "property": "C15",
   "status": "proved",
   "theorems": [
    "C15_shutdown_terminates"
   ],
   "note": "PropsEngineWait.v"
  },
  {
   "property": "C16",
   "status": "proved",
   "theorems": [
    "C16_uninstall_cause",
    "C16_uninstalled_quiet",
    "C16_uninstalled_gone"
   ],
   "note": "PropsEngineStop.v"
  },
  {
   "property": "C17",
   "status": "proved",
   "theorems": [
    "C17_get_contract"
   ],
   "note": "PropsEngineWait.v"
  },
  {
   "property": "C18",
   "status": "partial",
   "theorems": [
    "C18_getter_dead_partial",
    "C18_getter_dead_after_return_refuted"
   ],
   "note": "PropsEngineWait.v; false between the return of Start and the deferred expire, true from then on"
  },
  {
   "property": "C19",
   "status": "proved",
   "theorems": [
    "C19_report_true",
    "C19_metrics_true"
   ],
   "note": "PropsEngineWait.v"
  },
  {
   "property": "C20",
   "status": "proved",
   "theorems": [
    "C20_error_count",
    "C20_count_cases"
   ],
   "note": "PropsEngineStop.v"
  },
  {
   "property": "C21",
   "status": "proved",
   "theorems": [
    "C21_delay_elapsed",
    "C21_first_immediate",
    "C23_abort_iff"
   ],
   "note": "PropsEngineStop.v"
  },
  {
   "property": "C23",
   "status": "proved",
   "theorems": [
    "C23_context_done_iff",
    "C23_abort_iff",
    "C23_killed_done"
   ],
   "note": "PropsEngineStop.v, PropsEngineMore.v"
  },
  {
   "property": "C24",
   "status": "proved",
   "theorems": [
    "C24_settles",
    "C80_engine_converges"
   ],
   "note": "PropsEngineWait.v, PropsFair.v (what it settles in)"
  },
  {
   "property": "C25",
   "status": "proved",
   "theorems": [
    "C25_unrelated_untouched"
   ],
   "note": "PropsEngineStop.v"
  },
  {
   "property": "C26",
   "status": "proved",
   "theorems": [
    "C26_one_worker_per_id",
    "C26_start_once",
    "C26_return_once",
    "C26_end_once"
   ],
   "note": "PropsRunnerStart.v"
  },
  {
   "property": "C27",
   "status": "proved",
   "theorems": [
    "C27_never_stuck",
    "C27_handled_known"
   ],
   "note": "PropsRunnerStart.v"
  },
  {
   "property": "C28",
   "status": "proved",
   "theorems": [
    "C28_start_answer",
    "C28_start_called",
    "C28_start_result",
    "C28_start_known"
   ],
   "note": "PropsRunnerStart.v"
  },
  {
   "property": "C29",
   "status": "proved",
   "theorems": [
    "C29_restart_policy",
    "C29_done_origin"
   ],
   "note": "PropsRunnerStart.v"
  },
  {
   "property": "C30",
   "status": "proved",
   "theorems": [
    "C30_no_start_after_stop",
    "C30_killed_on_arrival",
    "C30_idle_stopped",
    "C30_idle_unregistered",
    "C29_restart_policy"
   ],
   "note": "PropsRunnerStart.v"
  },
  {
   "property": "C31",
   "status": "proved",
   "theorems": [
    "C31_wait_result"
   ],
   "note": "PropsRunnerWait.v"
  },
  {
   "property": "C32",
   "status": "partial",
   "theorems": [
    "C32_default_last_partial",
    "C32_default_first_refuted"
   ],
   "note": "False of the code: without MoreImportant the last fatal error is returned. PropsRunnerWait.v"
  },
  {
   "property": "C33",
   "status": "proved",
   "theorems": [
    "C33_dead_complete",
    "C33_dead_quiet"
   ],
   "note": "PropsRunnerWait.v"
  },
  {
   "property": "C34",
   "status": "proved",
   "theorems": [
    "C34_stopping_begins",
    "C34_loop_not_blocked",
    "C34_shutdown_finite",
    "C34_shutdown_settles"
   ],
   "note": "PropsRunnerWait.v"
  },
  {
   "property": "C35",
   "status": "partial",
   "theorems": [
    "C35_no_spawn_partial",
    "C35_late_start_partial",
    "C35_killed_partial",
    "C35_start_while_dying_refuted",
    "C35_start_after_kill_refuted"
   ],
   "note": "False of the code as documented: a worker in its restart delay is started after a fatal error, a StartWorker call may be accepted after Kill. Proved: nothing new is scheduled once the loop stops everything. PropsRunnerStart.v"
  },
  {
   "property": "C36",
   "status": "partial",
   "theorems": [
    "C36_worker_result_partial",
    "C36_lookup",
    "C36_registered_partial",
    "C36_stale_worker_refuted"
   ],
   "note": "False of the code in the restart delay: the worker that ended is returned. PropsRunnerCalls.v"
  },
  {
   "property": "C37",
   "status": "proved",
   "theorems": [
    "C37_waiter_blocked",
    "C37_caller_blocked"
   ],
   "note": "PropsRunnerCalls.v"
  },
  {
   "property": "C38",
   "status": "partial",
   "theorems": [
    "C38_stoprm_result",
    "C38_stoprm_other",
    "C38_sole_returns_partial",
    "C38_stuck_forever",
    "C38_second_caller_stuck_refuted",
    "C38_restart_not_stopped_refuted"
   ],
   "note": "The first half is proved; the second is false: one of two callers waits forever, and a worker in its restart delay is started again. PropsRunnerCalls.v"
  },
  {
   "property": "C39",
   "status": "partial",
   "theorems": [
    "C39_names_result",
    "C39_report_result_partial",
    "C39_stopping_refuted"
   ],
   "note": "The lists and nested reports are proved; stopping is never reported. PropsRunnerCalls.v"
  },
  {
   "property": "C40",
   "status": "proved",
   "theorems": [
    "C40_start_delay",
    "C40_spawn_reason"
   ],
   "note": "PropsRunnerStart.v"
  },
  {
   "property": "C41",
   "status": "proved",
   "theorems": [
    "C41_late_result",
    "C41_late_enabled",
    "C41_stop_result",
    "C41_one_answer"
   ],
   "note": "PropsRunnerCalls.v"
  },
  {
   "property": "C42",
   "status": "proved",
   "theorems": [
    "C42_everything_killed",
    "C42_killed_on_arrival",
    "C42_stop_reason"
   ],
   "note": "PropsRunnerStart.v"
  },
  {
   "property": "C59",
   "status": "proved",
   "theorems": [
    "C59_start_context"
   ],
   "note": "PropsRunnerWait.v"
  },
  {
   "property": "C60",
   "status": "proved",
   "theorems": [
    "C60_lost_never_dead"
   ],
   "note": "PropsRunnerWait.v"
  },
  {
   "property": "C43",
   "status": "proved",
   "theorems": [
    "C43_invoke_answer",
    "C43_one_success",
    "C43_used_once",
    "C43_used_flag",
    "C43_invalid_unused",
    "C43_invoke_ends"
   ],
   "note": "PropsCatacombCalls.v"
  },
  {
   "property": "C44",
   "status": "proved",
   "theorems": [
    "C44_add_answer",
    "C44_bound_seq",
    "C44_add_ends"
   ],
   "note": "PropsCatacombCalls.v"
  },
  {
   "property": "C45",
   "status": "proved",
   "theorems": [
    "C45_dead_finished",
    "C45_dead_tomb"
   ],
   "note": "PropsCatacombCalls.v"
  },
  {
   "property": "C46",
   "status": "partial",
   "theorems": [
    "C46_wait_result_partial",
    "C46_wait_at_death",
    "C46_wait_stable",
    "C46_err_result",
    "C46_late_kill_refuted"
   ],
   "note": "As documented it is false: a Kill after death sets the error if it was nil. True when an error was said before death, or none after it. PropsCatacombErrors.v"
  },
  {
   "property": "C47",
   "status": "partial",
   "theorems": [
    "C47_kill_panics_partial",
    "C47_kill_call",
    "C47_crash_why",
    "C47_kill_safe_refuted",
    "C47_no_crash_refuted"
   ],
   "note": "As documented it is false: Kill(tomb.ErrStillAlive) panics. No other error does. PropsCatacombErrors.v"
  },
  {
   "property": "C48",
   "status": "proved",
   "theorems": [
    "C48_error_kills",
    "C48_clean_does_not",
    "C48_dying_why"
   ],
   "note": "PropsCatacombErrors.v"
  },
  {
   "property": "C49",
   "status": "proved",
   "theorems": [
    "C49_kill_only_dying",
    "C49_all_stopped"
   ],
   "note": "PropsCatacombStop.v"
  },
  {
   "property": "C50",
   "status": "proved",
   "theorems": [
    "C50_waitgroup",
    "C50_counter",
    "C50_grows"
   ],
   "note": "PropsCatacombStop.v"
  },
  {
   "property": "C51",
   "status": "proved",
   "theorems": [
    "C51_finite",
    "C51_settles",
    "C51_rest",
    "C51_dead"
   ],
   "note": "PropsCatacombStop.v"
  },
  {
   "property": "C52",
   "status": "proved",
   "theorems": [
    "C52_can_go",
    "C52_gone",
    "C52_not_before"
   ],
   "note": "PropsCatacombStop.v"
  },
  {
   "property": "C53",
   "status": "proved",
   "theorems": [
    "C53_panic_reported",
    "C53_work_kill",
    "C53_rest_work_said"
   ],
   "note": "PropsCatacombErrors.v"
  },
  {
   "property": "C58",
   "status": "proved",
   "theorems": [
    "C58_engine_tomb",
    "C58_runner_tomb",
    "C58_catacomb_tomb"
   ],
   "note": "PropsEngineWait.v, PropsRunnerWait.v, PropsCatacombErrors.v"
  },
  {
   "property": "C61",
   "status": "proved",
   "theorems": [
    "C61_self_never_dead"
   ],
   "note": "PropsCatacombStop.v"
  },
  {
   "property": "C62",
   "status": "proved",
   "theorems": [
    "C62_goexit_never_dead"
   ],
   "note": "PropsCatacombStop.v"
  },
  {
   "property": "C63",
   "status": "proved",
   "theorems": [
    "C63_errdying_result",
    "C63_errdying_harmless"
   ],
   "note": "PropsCatacombErrors.v"
  },
  {
   "property": "C64",
   "status": "proved",
   "theorems": [
    "C64_early_add"
   ],
   "note": "PropsCatacombCalls.v"
  },
  {
   "property": "C22",
   "status": "proved",
   "theorems": [
    "C22_bounds",
    "C22_bounds_exact",
    "C22_value",
    "C22_grows",
    "C22_capped",
    "C22_no_backoff",
    "C22_engine",
    "C22_round",
    "C22_max_int64_refuted",
    "C22_no_max_refuted",
    "C22_bounce_divides_refuted"
   ],
   "note": "PropsBackoff.v, PropsBackoffRound.v. For MaxDelay up to 8*10^18 ns, any binary64 factor, any error count; math.Pow is assumed sane (BackoffSpec.v). Refuted corners: MaxDelay = MaxInt64, MaxDelay = 0 (both overflow to a negative delay on amd64), and a bounce before any error divides the delay."
  },
  {
   "property": "C54",
   "status": "proved",
   "theorems": [
    "C54_stop_returns",
    "C54_stop_kills",
    "C54_stop_finishes",
    "C54_dead_channel",
    "C54_dead_closed_after",
    "C54_dead_closes",
    "C54_end_once",
    "C54_only_killers"
   ],
   "note": "PropsWorkers.v"
  },
  {
   "property": "C55",
   "status": "proved",
   "theorems": [
    "C55_error_wait",
    "C55_forever_wait",
    "C55_forever_ignores_kill",
    "C55_blocks",
    "C55_ready",
    "C55_dead_ready",
    "C55_dead_wait",
    "C55_panics",
    "C55_errdying_refuted",
    "C55_watcher_new",
    "C55_watcher_events",
    "C55_watcher_ping",
    "C55_watcher_panics",
    "C55_watcher_close",
    "C55_watcher_hand",
    "C55_watcher_worker"
   ],
   "note": "PropsTestWorkers.v. Except for the errors tomb.ErrDying and tomb.ErrStillAlive, for which Kill panics (C55_errdying_refuted)."
  },
  {
   "property": "C56",
   "status": "proved",
   "theorems": [
    "C56_engine",
    "C56_new_engine",
    "C56_plan",
    "C56_runner",
    "C56_new_runner",
    "C56_accepts",
    "C56_rejects",
    "C56_nan_accepted_refuted"
   ],
   "note": "PropsConfig.v. A NaN BackoffFactor is accepted (C56_nan_accepted_refuted)."
  },
  {
   "property": "C57",
   "status": "proved",
   "theorems": [
    "C57_unknown",
    "C57_error",
    "C57_nil_out",
    "C57_not_pointer",
    "C57_stores",
    "C57_atomic",
    "C57_panics",
    "C57_resources",
    "C57_never_panics_refuted"
   ],
   "note": "PropsStub.v. Get panics in exactly the cases of C57_panics."
  },
  {
   "property": "C65",
   "status": "proved",
   "theorems": [
    "C65_promise",
    "C65_times_out",
    "C65_finishes",
    "C65_check_alive",
    "C65_check_killed",
    "C65_check_kill",
    "C65_clean_kill",
    "C65_dirty_kill",
    "C65_check_nil"
   ],
   "note": "PropsWorkers.v"
  },
  {
   "property": "C66",
   "status": "proved",
   "theorems": [
    "C66_nested_report"
   ],
   "note": "PropsEngineMore.v"
  },
  {
   "property": "C67",
   "status": "partial",
   "theorems": [
    "C67_context_released_partial",
    "C67_context_kept",
    "C67_context_released_refuted"
   ],
   "note": "False as stated: the context of an attempt that ended by itself is kept in the engine's tomb until the engine dies, because the cancel func made in requestStart is dropped when the attempt is over. PropsEngineMore.v"
  },
  {
   "property": "C68",
   "status": "proved",
   "theorems": [
    "C68_done_iff",
    "C68_same",
    "C68_distinct",
    "C68_background",
    "C68_kept",
    "C68_pruned"
   ],
   "note": "PropsTombCtx.v. The tomb's own code is part of the trusted base (TombCtx.v)."
  },
  {
   "property": "C70",
   "status": "proved",
   "theorems": [
    "C70_kill_self",
    "C70_self_exit",
    "C70_self_output",
    "C70_self_output_func",
    "C70_self_never_bounced"
   ],
   "note": "PropsEngineMore.v"
  },
  {
   "property": "C71",
   "status": "proved",
   "theorems": [
    "C71_access_log"
   ],
   "note": "PropsEngineMore.v"
  },
  {
   "property": "C69",
   "status": "partial",
   "theorems": [
    "C69_dead_gone",
    "C69_waiter_runs",
    "C69_abort_wakes",
    "C69_stopped_exits",
    "C69_bcast_wakes",
    "C69_abort_leak_refuted"
   ],
   "note": "Proved for a dead runner; after an abort it is false: the broadcast can be missed. PropsRunnerWaiters.v"
  },
  {
   "property": "C72",
   "status": "partial",
   "theorems": [
    "C72_aborted_only",
    "C72_abort_enabled_partial",
    "C72_abort_ignored_refuted"
   ],
   "note": "The last clause is false while StopAndRemoveWorker waits for the worker it killed. PropsRunnerWaiters.v"
  },
  {
   "property": "C73",
   "status": "proved",
   "theorems": [
    "C73_atomic_handlers",
    "C73_handlers_end",
    "C73_one_worker",
    "C73_no_stale_inputs",
    "C73_checks_never_fire",
    "C73_wait_returns_worst",
    "C73_shutdown_complete",
    "C73_kill_once"
   ],
   "note": "PropsEngineFine.v. The clock does not advance while a message is handled, and a report is assembled at once."
  },
  {
   "property": "C74",
   "status": "proved",
   "theorems": [
    "C74_finite",
    "C74_settles",
    "C74_loop",
    "C74_start_returned",
    "C74_stop_returned",
    "C74_worker_returned",
    "C74_stoprm_returned",
    "C74_known_ids",
    "C74_started",
    "C74_recorded",
    "C74_end_handled",
    "C74_failure_handled"
   ],
   "note": "PropsRunnerLive.v. The last five assume that no worker ended its goroutine with runtime.Goexit (finding 8)."
  },
  {
   "property": "C75",
   "status": "proved",
   "theorems": [
    "C75_linearizable",
    "C75_moments_differ",
    "C75_effect_once",
    "C75_return_once",
    "C75_real_time",
    "C75_never_blocked",
    "C75_wait_blocked",
    "C75_returns",
    "C75_after_wait",
    "C75_install_exclusive"
   ],
   "note": "PropsEngineCalls.v. \"Never blocked\": in every state some step serves the call; that a step of the loop happens is the scheduler's part."
  },
  {
   "property": "C76",
   "status": "proved",
   "theorems": [
    "C76_runner",
    "C76_engine",
    "C76_catacomb",
    "C76_early_add_races"
   ],
   "note": "PropsRace.v. The last theorem shows that the condition on Add is needed. What tomb, sync, context and the clock do is trusted to be free of races."
  },
  {
   "property": "C77",
   "status": "partial",
   "theorems": [
    "C77_late_get_partial",
    "C77_late_get_refuted"
   ],
   "note": "False as stated: such a Get appends to the access log while runWorker reads it. Proved: it races for nothing else. PropsRace.v"
  },
  {
   "property": "C78",
   "status": "proved",
   "theorems": [
    "C78_nothing_left",
    "C78_workers",
    "C78_kill",
    "C78_kill_passed",
    "C78_stops",
    "C78_can_finish",
    "C78_cycle_refuted"
   ],
   "note": "PropsTree.v. C78_stops is freedom from deadlock: in no state is the shutdown stuck; C78_can_finish: from every reachable state a killed worker can be brought to its end (by steps that are bound to happen, with harmless results of user code); that the steps are bounded is C15, C34 and C51, worker by worker. C78_cycle_refuted: two catacombs that own each other are stuck, so the proviso is needed."
  },
  {
   "property": "C79",
   "status": "proved",
   "theorems": [
    "C79_is",
    "C79_is_const",
    "C79_is_type",
    "C79_as",
    "C79_verdict",
    "C79_verdict_wrapped",
    "C79_engine",
    "C79_catacomb"
   ],
   "note": "PropsErr.v. The first four also tie the functions that stand for errors.Is and errors.As, which other statements use, to an inductive definition."
  },
  {
   "property": "C80",
   "status": "proved",
   "theorems": [
    "C80_engine_dies",
    "C80_engine_converges",
    "C80_runner_dies",
    "C80_catacomb_dies"
   ],
   "note": "PropsFair.v. Fairness is a hypothesis about the execution (FairSpec.not_starved): again and again one of the steps that are bound to happen does happen, or none is possible. For the runner the time starts when the loop has taken the Dying case of its select."
  },
  {
   "property": "C81",
   "status": "proved",
   "theorems": [
    "C81_tree_dies"
   ],
   "note": "PropsFairTree.v. Fairness is a hypothesis per worker (FairTreeSpec.bound_in with FairSpec.not_starved), and that a killed runner's select takes its Dying case is another (heeds): Go's select chooses at random, so a loop that for ever finds another case ready might never take it."
  },
  {
   "property": "C82",
   "status": "proved",
   "theorems": [
    "C82_true",
    "C82_projection",
    "C82_no_deadlock",
    "C82_finite",
    "C82_returns",
    "C82_blocks",
    "C82_self_refuted"
   ],
   "note": "PropsReports.v. C82_self_refuted: without the hypothesis that no worker contains itself it is false (finding 25). The Report method of a worker that is neither an engine nor a runner may ask any of its workers, and then returns."
  },
  {
   "property": "C83",
   "status": "proved",
   "theorems": [
    "C83_runner_stands_still",
    "C83_start_inside",
    "C83_stop_inside",
    "C83_wait_inside",
    "C83_locked_inside",
    "C83_remove_self",
    "C83_runner_wait",
    "C83_engine_stands_still",
    "C83_engine_deadlock",
    "C83_install_inside",
    "C83_engine_wait",
    "C83_catacomb_wait"
   ],
   "note": "PropsInsideRunner.v, PropsInsideEngine.v, PropsInsideCatacomb.v. A callback that has not returned is an execution in which the loop takes no step; in the engine the loop stands between two iterations."
  },
  {
   "property": "C84",
   "status": "proved",
   "theorems": [
    "C84_safe",
    "C84_getters",
    "C84_never_ends",
    "C84_name_dead",
    "C84_install_refused",
    "C84_dead_worker_shared",
    "C84_no_worker_shared",
    "C84_rest_bounded",
    "C84_rest_stops"
   ],
   "note": "PropsEngineGoexit.v. The same for the runner is C60, for the catacomb C62."
  },
  {
   "property": "C85",
   "status": "proved",
   "theorems": [
    "C85_running_iff",
    "C85_same_outcome",
    "C85_all_installed",
    "C85_same_end",
    "C85_retired_refuted"
   ],
   "note": "PropsOutcome.v. C85_retired_refuted shows that the hypothesis that no worker retires is needed."
  },
  {
   "property": "C86",
   "status": "proved",
   "theorems": [
    "C86_engine_spacing",
    "C86_engine_rate",
    "C86_runner_spacing",
    "C86_runner_rate",
    "C86_engine_plain"
   ],
   "note": "PropsPaceEngine.v, PropsPaceRunner.v, PropsPacePlain.v. In C86_engine_rate the lower bound delta on the engine's computed delays is a hypothesis; C86_engine_plain discharges it for an engine without BackoffFactor, from C22 (with the standard library's axioms of the reals)."
  },
  {
   "property": "C87",
   "status": "proved",
   "theorems": [
    "C87_start_effect",
    "C87_stop_effect",
    "C87_start_start",
    "C87_start_names",
    "C87_start_worker",
    "C87_stop_start",
    "C87_remove_start"
   ],
   "note": "PropsRunnerSessions.v. That the decision on a StartWorker call is right for the moment at which it is made is C28_start_answer."
  },
  {
   "property": "C88",
   "status": "proved",
   "theorems": [
    "C88_engine",
    "C88_engine_dead",
    "C88_engine_self_refuted",
    "C88_runner",
    "C88_runner_dead",
    "C88_runner_names",
    "C88_catacomb",
    "C88_catacomb_dead"
   ],
   "note": "PropsLeakEngine.v, PropsLeakRunner.v, PropsLeakCatacomb.v. C88_engine_self_refuted shows that the exception for a Start func that returns the engine itself is needed."
  },
  {
   "property": "C89",
   "status": "proved",
   "theorems": [
    "C89_engine",
    "C89_engine_progress",
    "C89_engine_cancelled",
    "C89_engine_dead",
    "C89_runner",
    "C89_runner_known",
    "C89_runner_one",
    "C89_runner_registered",
    "C89_runner_dead",
    "C89_catacomb",
    "C89_catacomb_bound",
    "C89_catacomb_released",
    "C89_catacomb_dead"
   ],
   "note": "The automata are in EngineLifeSpec.v, RunnerLifeSpec.v and CatacombLifeSpec.v (functions of one attempt's events only). The runner's automaton has an arrow for Kill on a worker whose end was already handled: workerDone leaves the old worker in the info until the restart (runner.go:554-557); C89_runner_example_stale shows it happens."
  },
  {
   "property": "C90",
   "status": "proved",
   "theorems": [
    "C90_tables",
    "C90_dependents",
    "C90_count",
    "C90_keys",
    "C90_runner_ids",
    "C90_runner_info",
    "C90_runner_stopping",
    "C90_runner_done"
   ],
   "note": "PropsEngineTables.v, PropsRunnerTables.v. The comment at engine.go:354-357 announces that keys stay; C90_keys makes it exact: the dependents table grows with every new input name and never shrinks."
  }
 ]
}