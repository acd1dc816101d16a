{"claims": [
{"property": "C01", "status": "proved", "theorems": ["C01_inmemory_is_lists", "C01_inmemory_is_lists_adaptive"], "note": ""},
{"property": "C02", "status": "proved", "theorems": ["C02_storage_last_write"], "note": ""},
{"property": "C03", "status": "proved", "theorems": ["C03_move_keeps_items"], "note": ""},
{"property": "C04", "status": "partial", "theorems": ["C04_redis_refuted", "C04_redis_move_refuted", "C04_redis_partial", "C04_work_queue_same_on_redis", "C04_lrange", "C04_lrange_from_end"], "note": "false for queue_get with count 0 and for moves of several items within one list; equal on all other calls, hence for the work queue"},
{"property": "C05", "status": "proved", "theorems": ["C05_keys_distinct", "C05_keys_not_storage"], "note": ""},
{"property": "C06", "status": "proved", "theorems": ["C06_new_job_queued_once"], "note": ""},
{"property": "C07", "status": "proved", "theorems": ["C07_one_pending_execution"], "note": ""},
{"property": "C08", "status": "proved", "theorems": ["C08_done_job_requeued", "C08_exactly_one_pending", "C08_skip_if_finished"], "note": ""},
{"property": "C09", "status": "partial", "theorems": ["C09_no_overlap_partial", "C09_stale_update_refuted"], "note": "proved for orderly histories; false with stale update_job snapshots"},
{"property": "C10", "status": "proved", "theorems": ["C10_limit", "C10_tick_at_limit"], "note": ""},
{"property": "C100", "status": "proved", "theorems": ["C100_ranges", "C100_redis"], "note": "Intermediate results inside chrono (the product of a duration and a power of two) are not covered; payload data is the user's."},
{"property": "C101", "status": "proved", "theorems": ["C101_step", "C101_tasks", "C101_quiet"], "note": "On the in-memory backend with failing calls."},
{"property": "C102", "status": "proved", "theorems": ["C102_commute", "C102_tasks"], "note": "In memory, the clock standing still between the two; ticks are not among the operations (they look at all jobs)."},
{"property": "C103", "status": "proved", "theorems": ["C103_answered", "C103_executed", "C103_just_run"], "note": "Fairness, survival and bounded arrivals are hypotheses about the execution, as in C69; the second part on the in-memory backend."},
{"property": "C104", "status": "proved", "theorems": ["C104_output"], "note": "In memory, for orderly histories (as C09); what is lost when backend calls fail is in C85."},
{"property": "C105", "status": "proved", "theorems": ["C105_rest", "C105_come_due", "C105_executions"], "note": "Fairness and survival are hypotheses about the execution, as in C69; on the in-memory backend."},
{"property": "C106", "status": "partial", "theorems": ["C106_again_partial", "C106_debug_bound", "C106_debug_refuted"], "note": "Holds for processes that stay alive; false in builds with overflow checks, where the 2^31-th repetition overflows the counter and kills the queue (refuted and the bound proved). Longer waiting lists can starve a job (C15)."},
{"property": "C107", "status": "proved", "theorems": ["C107_fleet_progress", "C107_slots_free_again", "C107_tasks_end"], "note": "Whole steps of the processes take turns, as in C88 and C89; fairness and survival are hypotheses about the execution."},
{"property": "C108", "status": "proved", "theorems": ["C108_same_view", "C108_progress", "C108_rest", "C108_again"], "note": "Redis commands are modelled one by one and do not fail here (failures: C98)."},
{"property": "C109", "status": "proved", "theorems": ["C109_progress", "C109_slots", "C109_after_outage", "C109_restart"], "note": "In-memory backend. The limit must exceed the number of lost entries of the picked list: those are never freed (see the orphan properties)."},
{"property": "C11", "status": "partial", "theorems": ["C11_not_early_partial", "C11_not_early_refuted"], "note": "proved up to the storage cut to whole microseconds; false within the last microsecond"},
{"property": "C110", "status": "proved", "theorems": ["C110_prefix", "C110_start", "C110_waiting_kept", "C110_limbo", "C110_failure_first"], "note": "In-memory backend, one process; calls do not fail here (failing calls: C85, C67, C68)."},
{"property": "C111", "status": "proved", "theorems": ["C111_way_back", "C111_waiting", "C111_no_way", "C111_exactly"], "note": "In-memory backend; calls do not fail after the given state. The new job is due by all clock readings (a job of type Normal is)."},
{"property": "C112", "status": "proved", "theorems": ["C112_adrift", "C112_power_cut", "C112_failing_read_refuted", "C112_busy_refuted"], "note": "In-memory backend; with Redis the races are the same (C81_on_redis). The two refuted theorems show that the two conditions, on failing reads of submissions and on steps in progress, are needed."},
{"property": "C113", "status": "proved", "theorems": ["C113_frame", "C113_blind", "C113_any", "C113_progress", "C113_way_back", "C113_no_way", "C113_exactly"], "note": "Redis backend, one process; calls fail only with values of the wrong type here. The hash of records is common to all queues and is an own key."},
{"property": "C114", "status": "proved", "theorems": ["C114_kept", "C114_refused", "C114_jammed"], "note": "Redis backend, one process. Tasks that exist when the key is damaged may still run; the theorem starts when none is left."},
{"property": "C115", "status": "proved", "theorems": ["C115_noise"], "note": "Redis backend, one process. Changes between the commands inside one call are not modelled here; every call of the queue is one command, except the connection (Wire.v) and a move of more than one entry, which the queue never makes."},
{"property": "C116", "status": "proved", "theorems": ["C116_alone", "C116_others"], "note": "Redis backend, one process of the queue. C45 has several queues of this library interleaved; here the other programs are arbitrary. Queues with common ids do disturb each other (C46)."},
{"property": "C117", "status": "proved", "theorems": ["C117_fleet_short", "C117_again"], "note": "The processes share one cron parser. With overflow checks a process dies after 2^31 repetitions (C106), so that the hypotheses then fail."},
{"property": "C118", "status": "proved", "theorems": ["C118_rest", "C118_come_due", "C118_executions"], "note": "User code does not set times of further tries by a retry_at of its own; the bound on the work (2^31) is for the i32 counter of pick_jobs_to_process."},
{"property": "C119", "status": "proved", "theorems": ["C119_same_view", "C119_no_overlap", "C119_limit", "C119_status", "C119_progress", "C119_rest", "C119_again"], "note": "Whole steps of the processes take turns (single commands interleaved: C81). The in-memory results C107, C117 and C118 carried over by a simulation of histories."},
{"property": "C12", "status": "proved", "theorems": ["C12_work_conserving", "C12_one_batch", "C12_long_list_refuted"], "note": "C12_work_conserving is for fewer than 2^31 waiting ids. C12_one_batch and C12_long_list_refuted: with 2^31 + 20 to 2^32 ids the loop stops after one batch, so the bound is needed."},
{"property": "C120", "status": "proved", "theorems": ["C120_callers", "C120_timers", "C120_executed", "C120_response_time"], "note": "A simulation of whole histories; every Redis command succeeds (failing ones: C98). One process; several: C119."},
{"property": "C121", "status": "proved", "theorems": ["C121_same_view", "C121_before_run", "C121_own_message", "C121_messages", "C121_never_after_run", "C121_messages_of_queue", "C121_first_plugin_calls", "C121_who_waits", "C121_others_go", "C121_answered"], "note": "A simulation of whole histories; every Redis command succeeds. One queue with its centre; other queues are messages to the centre."},
{"property": "C122", "status": "proved", "theorems": ["C122_same_view", "C122_history", "C122_answers", "C122_real_time", "C122_aj_dies_only", "C122_no_deadlock"], "note": "A simulation, command by command; every command succeeds. What is false of C94 (another type's race kills AJ for all) is false here too: C122_case_dies."},
{"property": "C123", "status": "proved", "theorems": ["C123_no_overlap", "C123_tasks", "C123_waiting", "C123_limit", "C123_redis", "C123_redis_limit", "C123_cancel_points", "C123_rerun_duplicates", "C123_cancel_refuted", "C123_submission_refuted"], "note": "Whole steps take turns (for overlapping steps see C60, C90); submitted jobs are new or carry the stored status; death inside the commands of one Redis call (queue_move) is not covered. The refuted theorems show that deaths in a cancellation or a submission have to be left out."},
{"property": "C13", "status": "proved", "theorems": ["C13_picking_terminates", "C13_any_length", "C13_panics", "C13_no_panic_refuted"], "note": "C13_any_length has no bound on the length: never an endless loop; a panic only in a debug build with 2^31 waiting ids or more, and there it does happen (C13_panics, C13_no_panic_refuted)."},
{"property": "C14", "status": "partial", "theorems": ["C14_fifo_partial", "C14_fifo_refuted"], "note": "proved for waiting lists of at most 20 ids; false for longer ones (unpicked ids of the first batch return behind the rest)"},
{"property": "C15", "status": "partial", "theorems": ["C15_no_starvation_partial", "C15_short_lists", "C15_starvation_refuted"], "note": "proved with the number of free ticks at least waiting ids plus arrivals, and with any number of arrivals as long as no tick finds more than 20 waiting ids (C15_short_lists); false with unbounded arrivals and more waiting ids"},
{"property": "C16", "status": "proved", "theorems": ["C16_legal_status_changes"], "note": ""},
{"property": "C17", "status": "proved", "theorems": ["C17_run_count"], "note": ""},
{"property": "C18", "status": "proved", "theorems": ["C18_canceled_job_does_not_run"], "note": ""},
{"property": "C19", "status": "partial", "theorems": ["C19_cancel_partial", "C19_cancel_refuted"], "note": "Ok is also returned for running and unknown jobs; what cancel does is characterised in every state"},
{"property": "C20", "status": "proved", "theorems": ["C20_update_queued"], "note": ""},
{"property": "C21", "status": "partial", "theorems": ["C21_C22_C23_update_partial", "C21_update_running_refuted"], "note": "false while the job is running; otherwise the data is stored"},
{"property": "C22", "status": "partial", "theorems": ["C21_C22_C23_update_partial", "C22_update_done_refuted"], "note": "false for done jobs; otherwise no list changes"},
{"property": "C23", "status": "partial", "theorems": ["C21_C22_C23_update_partial", "C23_update_context_refuted"], "note": "false if the context names another id; true if it names the same id"},
{"property": "C24", "status": "proved", "theorems": ["C24_retry_done", "C24_retry_not_done", "C24_retry_pending_once"], "note": ""},
{"property": "C25", "status": "partial", "theorems": ["C25_manual_retry_partial", "C25_manual_retry_refuted"], "note": "false: retried_times is not reset; the exact number of executions after a manual retry is proved"},
{"property": "C26", "status": "proved", "theorems": ["C26_retry_bound"], "note": ""},
{"property": "C27", "status": "proved", "theorems": ["C27_interval"], "note": ""},
{"property": "C28", "status": "partial", "theorems": ["C28_backoff_partial", "C28_backoff_refuted"], "note": "false: the k-th delay is d*2^k, twice the documented one; proved for k up to 30"},
{"property": "C29", "status": "partial", "theorems": ["C29_backoff_safe_partial", "C29_debug_dies", "C29_release_no_delay", "C29_backoff_safe_refuted"], "note": "false from the 31st retry on; safe before"},
{"property": "C30", "status": "proved", "theorems": ["C30_max_repeat"], "note": ""},
{"property": "C31", "status": "partial", "theorems": ["C31_slots_partial", "C31_slots_refuted"], "note": "false for schedules that end and for clocks set back; proved otherwise"},
{"property": "C32", "status": "partial", "theorems": ["C32_end_at_partial", "C32_end_at_refuted"], "note": "proved without retry policy; false for retries of a failed cron execution"},
{"property": "C33", "status": "partial", "theorems": ["C33_expired_stays", "C33_expired_refuted"], "note": "false: an expired cron job waits for ever, in every continuation"},
{"property": "C34", "status": "partial", "theorems": ["C34_schedule_lost", "C34_schedule_refuted"], "note": "false: after a retried failure the job is never a cron job again"},
{"property": "C35", "status": "proved", "theorems": ["C35_round_trip", "C35_round_trip_exact"], "note": ""},
{"property": "C36", "status": "proved", "theorems": ["C36_acknowledged_not_lost"], "note": "for all histories, crash points inside handlers and backend faults"},
{"property": "C37", "status": "partial", "theorems": ["C37_interrupted_stays", "C37_interrupted_refuted"], "note": "false: an interrupted job stays Running for ever, proved for every interrupted job and every continuation"},
{"property": "C38", "status": "partial", "theorems": ["C38_slots_never_freed", "C38_restart_frees_slots_refuted"], "note": "false: slots of interrupted jobs are never freed"},
{"property": "C39", "status": "partial", "theorems": ["C39_crash_points", "C39_repeat_duplicates", "C39_repeat_refuted"], "note": "safe outside two crash points inside the submission, which are characterised; false there: double concurrent execution"},
{"property": "C40", "status": "partial", "theorems": ["C40_picked_have_tasks_partial", "C40_orphan_stays", "C40_picked_executed_refuted"], "note": "proved without failing calls; false with a failing move: the job picked before is never executed"},
{"property": "C41", "status": "partial", "theorems": ["C41_errors_swallowed", "C41_run_ignores_errors", "C41_read_errors_refuted"], "note": "false in every state with a failing read"},
{"property": "C42", "status": "partial", "theorems": ["C42_panic_stops_queue", "C42_panic_refuted"], "note": "false in every state"},
{"property": "C43", "status": "partial", "theorems": ["C43_before_run", "C43_own_message", "C43_messages", "C43_after_run_refuted", "C43_exactly_once_refuted"], "note": "false: after_run is never called in any history and before_run twice per execution; the calls before user code, for all plugins in order, are proved"},
{"property": "C44", "status": "partial", "theorems": ["C44_notify_after_write", "C44_notes_are_status_path", "C44_first_plugin", "C44_first_plugin_calls", "C44_first_plugin_order", "C44_messages_of_queue", "C44_every_change_notified_refuted", "C44_order_refuted"], "note": "false for new_skip_if_finished and for the order seen by plugins other than the first; proved otherwise"},
{"property": "C45", "status": "proved", "theorems": ["C45_non_interference", "C45_same_as_alone", "C45_on_redis"], "note": "Any number of queues, any schedule of atomic backend calls; clock readings per thread are arbitrary. Every finite prefix and the final state."},
{"property": "C46", "status": "partial", "theorems": ["C46_refuted", "C46_overwritten_refuted", "C46_lost_refuted"], "note": "False: the storage hash is shared by all job types (storage_name is unused), so a job of another type with the same id is overwritten and never runs."},
{"property": "C47", "status": "partial", "theorems": ["C47_one_queue", "C47_orderly_partial", "C47_race_refuted", "C47_dead_for_ever", "C47_first_use_refuted", "C47_waits_for_message", "C47_calls_end", "C47_end_is_final"], "note": "False in general: two callers that both find no queue make AJ panic; at most one queue per type and name always; proved for orderly callers."},
{"property": "C48", "status": "partial", "theorems": ["C48_returned_started", "C48_first_alone_partial", "C48_two_starts_refuted", "C48_reader_refuted", "C48_start_refuted", "C48_writer_refuted", "C48_calls_end", "C48_lock", "C48_quiet_start_partial"], "note": "False for concurrent starts and for one start with a concurrent reader; proved when the first start runs alone, and for any start made while no other call is under way."},
{"property": "C49", "status": "partial", "theorems": ["C49_lists_agree_partial", "C49_lists_sound_partial", "C49_queued_but_not_waiting_refuted", "C49_finished_list_refuted"], "note": "false after new_skip_if_finished over a done job, and for the Finished list after a re-run; the rest proved"},
{"property": "C50", "status": "proved", "theorems": ["C50_config", "C50_next_ticks"], "note": ""},
{"property": "C51", "status": "partial", "theorems": ["C51_unserializable_refuted", "C51_never_runs", "C06_new_job_queued_once"], "note": "False for payloads that do not serialize or are not read back: run() answers Ok and the job is never executed, in any history, with any faults; C06 gives the positive case."},
{"property": "C52", "status": "partial", "theorems": ["C52_ms_partial", "C52_ms_refuted"], "note": "Exact range where it holds; for every value outside it is false (panic or wrong time)."},
{"property": "C53", "status": "partial", "theorems": ["C53_faithful_partial", "C53_exactly_supported", "C53_refuted", "C53_queue_name_refuted"], "note": "Proved for all supported functions, which are exactly those with a valid expansion; false for the others. Two functions of one name share a queue name."},
{"property": "C54", "status": "proved", "theorems": ["C54_get_is_pure", "C54_unknown_id"], "note": ""},
{"property": "C55", "status": "proved", "theorems": ["C55_tick_order"], "note": "For readiness that does not change during the tick (otherwise C12)."},
{"property": "C56", "status": "proved", "theorems": ["C56_payload"], "note": "With arbitrary backend faults, crash points and restarts."},
{"property": "C57", "status": "proved", "theorems": ["C57_origin"], "note": "For payloads with the default retry_at, as stated; the payload need not survive serialization."},
{"property": "C58", "status": "proved", "theorems": ["C58_retry_limit", "C58_due"], "note": "Retry limit for payloads with the default retry_at and submissions within their limit."},
{"property": "C59", "status": "proved", "theorems": ["C59_stamps"], "note": "Submitted jobs must themselves be consistent at submission (as Job::new makes them)."},
{"property": "C60", "status": "partial", "theorems": ["C60_no_overlap_partial", "C60_status_partial", "C60_run_count_partial", "C60_executed_twice_refuted", "C60_lost_refuted"], "note": "Proved for any number of processes when their steps (one event of one process) do not overlap in time. False when they do: a job is executed twice, another is lost and blocks the queue. C90 shows what of this holds when only ticks take turns."},
{"property": "C61", "status": "partial", "theorems": ["C61_limit_partial", "C61_refuted"], "note": "Proved when steps do not overlap in time; false otherwise. C90_limit: it is enough that ticks take turns."},
{"property": "C62", "status": "proved", "theorems": ["C62_history", "C62_no_other_steps", "C62_answers", "C62_real_time", "C62_no_deadlock", "C62_aj_dies_only"], "note": "Any backend, with crashes; one job type, first-in first-out mailboxes."},
{"property": "C63", "status": "partial", "theorems": ["C63_refused", "C63_idle_until_submission", "C63_first_submission", "C63_first_just_run", "C63_resumes_refuted"], "note": "False: nothing is executed until something of this job type is submitted. Proved: exactly that, the refusal of other calls, and that the first submission starts the queue."},
{"property": "C64", "status": "partial", "theorems": ["C64_update_atomic_partial", "C64_update_atomic_refuted"], "note": "Proved when the job is stored as it was read; false otherwise (a finished job is executed again and run_count is lost)."},
{"property": "C65", "status": "partial", "theorems": ["C65_submission_partial", "C65_error_not_executed_refuted"], "note": "Exact outcome for every combination of failing calls; false when the reply of a write that took effect is lost."},
{"property": "C66", "status": "partial", "theorems": ["C66_tick_bound_partial", "C66_limit_refuted"], "note": "One tick spawns at most the limit, for any backend; the limit itself is false: an error of the count counts as zero."},
{"property": "C67", "status": "partial", "theorems": ["C67_C68_end_partial", "C67_C68_completion_partial", "C85_every_end", "C67_success_is_finished_refuted"], "note": "Exact outcome for every combination of failing calls, for the last execution of any job; false when the write of the result fails or its reply is lost."},
{"property": "C68", "status": "partial", "theorems": ["C67_C68_end_partial", "C67_C68_completion_partial", "C68_slots_lost", "C68_slot_freed_refuted"], "note": "Exact condition for the slot to be freed; false when the removal fails, and then the slot is lost until a restart with free slots or a higher limit."},
{"property": "C69", "status": "proved", "theorems": ["C69_fair_progress", "C69_short_lists", "C69_slots_free_again", "C69_tasks_end"], "note": "With bounded arrivals, as stated; with unbounded arrivals proved as long as no tick finds more than 20 waiting ids (C69_short_lists), otherwise false (C15)."},
{"property": "C70", "status": "proved", "theorems": ["C70_builder", "C70_builder_context"], "note": ""},
{"property": "C71", "status": "partial", "theorems": ["C71_builder_panics_partial", "C71_builder_panics_refuted"], "note": "False: invalid cron expressions and delays beyond the range of DateTime panic; proved that nothing else does."},
{"property": "C72", "status": "proved", "theorems": ["C72_first_execution"], "note": "For orderly histories (as C09), all continuations."},
{"property": "C73", "status": "partial", "theorems": ["C73_delay_partial", "C73_delay_refuted"], "note": "Proved up to the storage cut to whole microseconds; false within the last microsecond."},
{"property": "C74", "status": "partial", "theorems": ["C74_first_slot_partial", "C74_no_event_due_at_once", "C74_first_slot_refuted"], "note": "Proved for schedules with a next event; false without: the job is due at once, for every such schedule."},
{"property": "C75", "status": "proved", "theorems": ["C75_one_timer"], "note": ""},
{"property": "C76", "status": "proved", "theorems": ["C76_ticks_spaced"], "note": ""},
{"property": "C77", "status": "proved", "theorems": ["C77_tick_in_window", "C77_starts_within_period"], "note": "For orderly histories (as C09) while the queue lives and the job is not cancelled or submitted again."},
{"property": "C78", "status": "proved", "theorems": ["C78_response_time"], "note": "As C77."},
{"property": "C79", "status": "partial", "theorems": ["C79_no_tick_before_partial", "C79_new_period_at_once_refuted"], "note": "False: the pending timer keeps its deadline; proved that it does, whatever happens to a living queue."},
{"property": "C80", "status": "partial", "theorems": ["C80_text_round_trip", "C80_text_backend_partial", "C80_text_backend_limited", "C80_any_backend", "C80_deep_never_runs", "C80_deep_refuted", "C80_one_line", "C80_plain_text", "C80_writes_json", "C80_reads_json"], "note": "Proved for payloads nested at most 126 levels; false for deeper ones: they are acknowledged and never run. The behaviour with deeper payloads is given exactly (their serialization fails)."},
{"property": "C81", "status": "proved", "theorems": ["C81_payload", "C81_never_runs", "C81_origin", "C81_on_redis", "C81_one_process", "C81_only_one_process", "C81_taking_turns"], "note": "C81_origin for user code that does not override retry_at, as C58. C81_on_redis carries the facts about interleavings (C81 to C92) over to Redis: same tasks, executions, answers, lists and records."},
{"property": "C82", "status": "proved", "theorems": ["C82_retry_limit", "C82_due", "C82_stamps"], "note": "As C81."},
{"property": "C83", "status": "proved", "theorems": ["C83_submission_kept"], "note": ""},
{"property": "C84", "status": "partial", "theorems": ["C84_tick_ends_partial", "C84_steps_end_partial", "C84_turns_end", "C84_turns_steps_end", "C84_bound_immaterial", "C84_tick_ends_refuted"], "note": "False: if a second worker takes the counted ids, the loop reads the empty list for ever. Proved when no other process takes ids from the waiting list, and when ticks take turns (C84_turns_end, C84_turns_steps_end)."},
{"property": "C85", "status": "partial", "theorems": ["C85_again_partial", "C85_every_end", "C85_stray_never_runs", "C85_again_refuted"], "note": "Exact outcome for every combination of failing calls and for every job: every execution is the last one or one of those (counters and times in range); false when the last push fails (its error is only logged), and then neither submitting nor retrying nor a restart ever runs the job again."},
{"property": "C86", "status": "proved", "theorems": ["C86_payload_count", "C86_methods"], "note": "For any user code given as a relation, and for code given by its methods (Exec.v)."},
{"property": "C87", "status": "partial", "theorems": ["C87_cancel_partial", "C87_not_waiting", "C87_cancel_overlap_refuted"], "note": "False if another process is in the middle of a tick: the cancelled job runs, and another job is moved to the processing list in its place and never runs. Proved when no process is in the middle of a step; C87_not_waiting is the general reason and holds for any continuation."},
{"property": "C88", "status": "partial", "theorems": ["C88_keys", "C88_entries", "C88_records_stay", "C88_bounded_by_ids_refuted"], "note": "The last part is false: the lists of finished, failed and cancelled jobs are never cleared, and one id submitted again and again leaves one entry each time. The other parts are proved."},
{"property": "C89", "status": "partial", "theorems": ["C89_taken_partial", "C89_slots_lost_refuted"], "note": "The first part is proved for bounded arrivals, as for C15, and steps that take turns. The second part is false: once the ids left behind by dead processes are as many as the largest limit, no process starts a job any more."},
{"property": "C90", "status": "proved", "theorems": ["C90_no_overlap", "C90_listed_once", "C90_limit", "C90_cancel_in_tick_refuted"], "note": "C90_cancel_in_tick_refuted shows that the condition on cancel_job is needed."},
{"property": "C91", "status": "proved", "theorems": ["C91_processing_has_task", "C91_at_rest", "C91_not_lost"], "note": "Same conditions as C90, without failing calls and deaths; with those jobs are lost (C37, C40, C89_slots_lost_refuted)."},
{"property": "C92", "status": "partial", "theorems": ["C92_waiting_partial", "C92_taken_partial", "C92_starvation_refuted"], "note": "The last part is false, even if at most three ids are waiting: a job that arrives before a tick has turned the list gets ahead of an older one. The rest is proved."},
{"property": "C93", "status": "proved", "theorems": ["C93_step", "C93_history", "C93_on_redis", "C93_determined", "C93_processing"], "note": "For orderly histories (as C09); nothing is said about ticks with 2^31 or more waiting ids (C13 does) and little about counters that overflow. C93_determined shows that the scheduler leaves no choice but the readings of the clock."},
{"property": "C94", "status": "partial", "theorems": ["C94_as_alone_partial", "C94_aj_dies_only", "C94_history", "C94_no_other_steps", "C94_answers", "C94_real_time", "C94_no_deadlock", "C94_other_type_refuted", "C94_same_name_refuted"], "note": "False in one respect: AJ is shared, so a race of two first submissions of one type kills it and first submissions of other types fail. Everything else is proved; types with one queue name cannot be used together."},
{"property": "C95", "status": "partial", "theorems": ["C95_why_partial", "C95_over_partial", "C95_running_partial", "C95_over_refuted"], "note": "Proved for orderly histories; false when the second message of an update_job comes late: a job that waits for its next try can then be reported as Finished."},
{"property": "C96", "status": "proved", "theorems": ["C96_who_waits", "C96_others_go", "C96_no_deadlock", "C96_no_livelock", "C96_answered"], "note": "On the in-memory backend; hooks are supposed to return or panic."},
{"property": "C97", "status": "proved", "theorems": ["C97_reads", "C97_context", "C97_more"], "note": "Integer fields are unbounded in the model; the payload is read by its own deserializer."},
{"property": "C98", "status": "proved", "theorems": ["C98_failing_commands", "C98_move"], "note": "The model of the connection: opening it can fail, each command can fail before it takes effect or lose its reply."},
{"property": "C99", "status": "proved", "theorems": ["C99_tick", "C99_tick_bounds", "C99_start", "C99_others", "C99_submit", "C99_cancel", "C99_retry", "C99_end", "C99_redis"], "note": "Counts calls of the Backend trait, not the time they take; ticks on the in-memory backend and on Redis without failures."}
]}
