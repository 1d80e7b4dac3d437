{
 "claims": [
  {
   "property": "C01",
   "status": "proved",
   "theorems": [
    "C01_memory_store_is_a_map"
   ],
   "note": ""
  },
  {
   "property": "C02",
   "status": "proved",
   "theorems": [
    "C02_memory_store_due_exact"
   ],
   "note": ""
  },
  {
   "property": "C03",
   "status": "proved",
   "theorems": [
    "C03_sqlalchemy_store_is_a_map",
    "C03_mongodb_store_is_a_map",
    "C03_redis_store_is_a_map",
    "C03_file_store_is_a_map",
    "C03_redis_before_1970_refuted",
    "C03_file_failed_update_refuted",
    "C03_file_failed_add_refuted",
    "C03_memory_update_absent_refuted"
   ],
   "note": "The four conditions on Redis and files are necessary (C03_*_refuted): Redis never finds run times before 1970 due; FileStore.update_task with an unserialisable task destroys the stored one, and add_task leaves an empty file that blocks the id; the memory store tolerates updating an absent id."
  },
  {
   "property": "C04",
   "status": "proved",
   "theorems": [
    "C04_interval_first_fire",
    "C04_interval_next_fire",
    "C04_fractional_interval_refuted",
    "C04_interval_on_grid_partial",
    "C04_interval_units",
    "C04_default_start"
   ],
   "note": "Whole-second intervals within 71 years of the start are exact (binary64 division modelled bit-exactly); C04_fractional_interval_refuted shows that 0.3 s intervals skip a grid point; C04_interval_on_grid_partial is what remains true for fractional intervals."
  },
  {
   "property": "C05",
   "status": "proved",
   "theorems": [
    "C05_date_fires_once"
   ],
   "note": ""
  },
  {
   "property": "C06",
   "status": "proved",
   "theorems": [
    "C06_jitter_bounds"
   ],
   "note": ""
  },
  {
   "property": "C07",
   "status": "proved",
   "theorems": [
    "C07_and_children_agree",
    "C07_and_none"
   ],
   "note": ""
  },
  {
   "property": "C08",
   "status": "proved",
   "theorems": [
    "C08_or_is_minimum",
    "C08_or_order_irrelevant"
   ],
   "note": ""
  },
  {
   "property": "C09",
   "status": "proved",
   "theorems": [
    "C09_cron_least_match"
   ],
   "note": ""
  },
  {
   "property": "C10",
   "status": "proved",
   "theorems": [
    "C10_expression_next_is_least",
    "C10_field_next_is_least"
   ],
   "note": ""
  },
  {
   "property": "C11",
   "status": "proved",
   "theorems": [
    "C11_cron_terminates"
   ],
   "note": ""
  },
  {
   "property": "C12",
   "status": "proved",
   "theorems": [
    "C12_defaults",
    "C12_one_text",
    "C12_from_crontab"
   ],
   "note": "The text of every field is determined by text_of (CronParseSpec); the trigger is built from exactly those texts. Observation: weekday 0 is Monday, not the Sunday of the crontab format that from_crontab refers to."
  },
  {
   "property": "C13",
   "status": "proved",
   "theorems": [
    "C13_run_times_are_fire_times",
    "C13_no_loss_no_repeat",
    "C13_increasing",
    "C13_terminates"
   ],
   "note": ""
  },
  {
   "property": "C14",
   "status": "proved",
   "theorems": [
    "C14_coalesce"
   ],
   "note": ""
  },
  {
   "property": "C15",
   "status": "proved",
   "theorems": [
    "C15_nothing_left_due",
    "C15_jittered_advances",
    "C15_fails_only_with_a_trigger",
    "C15_jitter_refuted",
    "C15_empty_id_refuted"
   ],
   "note": "Un-jittered triggers and non-empty ids; C15_jitter_refuted and C15_empty_id_refuted show both restrictions are necessary."
  },
  {
   "property": "C16",
   "status": "proved",
   "theorems": [
    "C16_wakes_up_in_time"
   ],
   "note": "Delays in exact microseconds; needs 0 <= retry interval <= TIMEOUT_MAX for the upper bound."
  },
  {
   "property": "C17",
   "status": "proved",
   "theorems": [
    "C17_paused_scheduler",
    "C17_only_due_tasks_submitted"
   ],
   "note": ""
  },
  {
   "property": "C18",
   "status": "proved",
   "theorems": [
    "C18_never_more_than_max_instances",
    "C18_one_submission"
   ],
   "note": ""
  },
  {
   "property": "C19",
   "status": "proved",
   "theorems": [
    "C19_limit_never_exceeded",
    "C19_counter_exact_at_rest",
    "C19_decides_on_true_count",
    "C19_two_executors_refuted"
   ],
   "note": "One executor, any number of threads, any interleaving, any limits up to M. C19_two_executors_refuted: with two executors the shared dictionary and the per-executor locks lose updates and the limit is exceeded."
  },
  {
   "property": "C20",
   "status": "proved",
   "theorems": [
    "C20_one_outcome_per_run_time",
    "C20_events_unless_a_call_escapes",
    "C20_no_grace_never_missed",
    "C20_events_are_announced",
    "C20_escaping_call_refuted"
   ],
   "note": "C20_events_unless_a_call_escapes characterises when events appear; C20_escaping_call_refuted shows that SystemExit or CancelledError loses the events of earlier run times too."
  },
  {
   "property": "C21",
   "status": "proved",
   "theorems": [
    "C21_every_due_task_handled"
   ],
   "note": "A trigger that raises does abort the pass (C15_fails_only_with_a_trigger); the three failures named by the property do not."
  },
  {
   "property": "C22",
   "status": "proved",
   "theorems": [
    "C22_unreadable_stores_do_not_matter"
   ],
   "note": ""
  },
  {
   "property": "C23",
   "status": "proved",
   "theorems": [
    "C23_update_atomic",
    "C23_refused_only_if_invalid"
   ],
   "note": ""
  },
  {
   "property": "C24",
   "status": "proved",
   "theorems": [
    "C24_accepted_exactly_when",
    "C24_accepted_call_binds",
    "C24_refused_call_fails_or",
    "C24_refused_although_it_binds"
   ],
   "note": "The statement is exact. Its exception is a finding: def f(x=1, /, **kw) with kwargs {x: 2} is refused although the call is legal (C24_refused_although_it_binds)."
  },
  {
   "property": "C25",
   "status": "partial",
   "theorems": [
    "C25_same_function",
    "C25_round_trip_partial",
    "C25_interval_before_start_partial",
    "C25_interval_refuted",
    "C25_shutdown_refuted",
    "C25_record_format",
    "C25_unregistered_shape_refuted",
    "C25_refused"
   ],
   "note": "Every setting, the call and the due run times survive, for every task without a shutdown trigger whose Shape is registered. REFUTED in three ways: a restored interval trigger raises AttributeError when asked for its first time at or after its start (so resume_task fails; interval_size is not saved), tasks with a shutdown trigger are saved but cannot be loaded, and so are those saved under a Shape whose name is not registered. Fractional grace times are refused on save (C25_refused)."
  },
  {
   "property": "C26",
   "status": "proved",
   "theorems": [
    "C26_add_task",
    "C26_only_once"
   ],
   "note": ""
  },
  {
   "property": "C27",
   "status": "proved",
   "theorems": [
    "C27_added_while_stopped",
    "C27_installed_at_start",
    "C27_all_present",
    "C27_last_replacement_wins",
    "C27_otherwise_the_first_wins",
    "C27_start_fails"
   ],
   "note": ""
  },
  {
   "property": "C28",
   "status": "proved",
   "theorems": [
    "C28_what_start_does",
    "C28_what_shutdown_does",
    "C28_other_calls",
    "C28_reference_counted",
    "C28_inner_calls_only_count",
    "C28_extra_shutdown_counts",
    "C28_failed_start_counts"
   ],
   "note": "Exact for every sequence. Findings: a call that raises still counts, so after one shutdown too many the second of two starts raises (C28_extra_shutdown_counts), and after a failed start the next one returns False with the scheduler stopped (C28_failed_start_counts)."
  },
  {
   "property": "C29",
   "status": "proved",
   "theorems": [
    "C29_shutdown",
    "C29_when",
    "C29_stopped"
   ],
   "note": ""
  },
  {
   "property": "C30",
   "status": "proved",
   "theorems": [
    "C30_pause_and_resume",
    "C30_stopped"
   ],
   "note": ""
  },
  {
   "property": "C31",
   "status": "proved",
   "theorems": [
    "C31_resume_task",
    "C31_reschedule_task",
    "C31_pending_refuted"
   ],
   "note": "Scoped to a started scheduler; C31_pending_refuted shows that on a stopped one resume_task may modify a different pending task."
  },
  {
   "property": "C32",
   "status": "proved",
   "theorems": [
    "C32_run_task",
    "C32_stopped"
   ],
   "note": ""
  },
  {
   "property": "C33",
   "status": "proved",
   "theorems": [
    "C33_delete",
    "C33_delete_pending",
    "C33_empty_id_refuted",
    "C33_remove_all"
   ],
   "note": "Non-empty ids; C33_empty_id_refuted shows that a stored task with the empty id cannot be deleted."
  },
  {
   "property": "C34",
   "status": "proved",
   "theorems": [
    "C34_preview",
    "C34_increasing",
    "C34_truthful"
   ],
   "note": ""
  },
  {
   "property": "C35",
   "status": "proved",
   "theorems": [
    "C35_complete_and_filtered",
    "C35_sorted",
    "C35_stable",
    "C35_snapshot_describes_the_task",
    "C35_invalid_queries",
    "C35_counts_add_up"
   ],
   "note": "ASCII text for lower/strip; str(trigger) is an arbitrary function; times, uptime and settings of get_scheduler_info not modelled."
  },
  {
   "property": "C36",
   "status": "proved",
   "theorems": [
    "C36_delivery",
    "C36_returns",
    "C36_remove_listener",
    "C36_add_listener",
    "C36_masks",
    "C36_string_mask_observation"
   ],
   "note": "Listeners may do anything when called (add, remove, nested dispatch, raise). Scope: integer masks; C36_string_mask_observation proves that a string mask, allowed by the annotation, makes dispatch raise TypeError and silences later listeners. Logging not modelled."
  },
  {
   "property": "C37",
   "status": "proved",
   "theorems": [
    "C37_add_executor",
    "C37_add_store",
    "C37_remove_executor",
    "C37_remove_store",
    "C37_started_once",
    "C37_failed_start_refuted"
   ],
   "note": "C37_failed_start_refuted: a start that raises leaves executors and stores started on a stopped scheduler."
  },
  {
   "property": "C38",
   "status": "proved",
   "theorems": [
    "C38_one_timer",
    "C38_timer_of_latest_processing",
    "C38_none_after_shutdown",
    "C38_queued_wakeup_after_shutdown"
   ],
   "note": "Proved for all sequences. The last condition is necessary: add_task between shutdown() and its callback leaves a wake-up behind it, and the stopped scheduler then submits a run and arms a timer (C38_queued_wakeup_after_shutdown)."
  },
  {
   "property": "C39",
   "status": "proved",
   "theorems": [
    "C39_round_trip",
    "C39_no_key_verbatim",
    "C39_altered_is_rejected",
    "C39_other_key_rejected",
    "C39_rejected_before_unpickling"
   ],
   "note": "AES-CCM enters through two stated laws (decryption inverts encryption; only encryptions are accepted); forgeries are excluded by an explicit premise. Observation: setting a key later makes all earlier records unreadable, and unreadable records are removed by the stores."
  },
  {
   "property": "C40",
   "status": "partial",
   "theorems": [
    "C40_actions_are_the_operation",
    "C40_other_tasks_intact_partial",
    "C40_written_task_old_new_or_lost_partial",
    "C40_update_crash_loses_the_task_refuted"
   ],
   "note": "The full property is false: C40_update_crash_loses_the_task_refuted holds for every update. Proved: all other tasks and files are intact at every crash point, and the written task is found old, new or not at all."
  },
  {
   "property": "C41",
   "status": "partial",
   "theorems": [
    "C41_idle_tasks_safe_partial",
    "C41_reader_deletes_task_being_updated_refuted",
    "C41_lookup_deletes_task_being_added_refuted",
    "C41_updates_mix_refuted",
    "C41_locks_exclude",
    "C41_flushed_updates_safe_partial"
   ],
   "note": "The full property is false (three refutations: a reader between unlock and close; a lookup racing with add_task; two updates mixing). Proved, in any interleaving of any number of processes: tasks nobody is writing are never destroyed (C41_idle_tasks_safe_partial); the locks exclude readers and other writers while one writes (C41_locks_exclude); were the state flushed before the lock is released, updates and lookups would be safe (C41_flushed_updates_safe_partial: its hypothesis that nothing is left to write at close is not met by the present code, whose buffered writer always leaves the tail)."
  },
  {
   "property": "C42",
   "status": "proved",
   "theorems": [
    "C42_accepted_names_stay_inside",
    "C42_distinct_ids_distinct_files",
    "C42_only_its_own_files_change"
   ],
   "note": "For any suffix without '/' that is not empty, '.' or '..'. POSIX file names."
  },
  {
   "property": "C43",
   "status": "partial",
   "theorems": [
    "C43_threads_exclusive",
    "C43_threads_released_partial",
    "C43_exception_keeps_lock_forever_refuted",
    "C43_same_thread_not_excluded_refuted",
    "C43_files_exclusive_partial",
    "C43_files_exclusive_per_file_partial",
    "C43_files_released",
    "C43_files_death",
    "C43_shutdown_breaks_exclusion_refuted"
   ],
   "note": "Thread locks (locks.py 25-46) for any number of threads and file locks (49-77) for any number of processes, exits by exception and crashes included. Exclusion proved for thread locks, and for file locks while no shutdown removes the file; file lock released on every exit. Refuted: an exception leaves the thread lock held forever; the processing lock is re-entrant; shutdown of a store removes the lock file under a holder. A file lock of a process that died is free again (C43_files_death)."
  },
  {
   "property": "C44",
   "status": "proved",
   "theorems": [
    "C44_logs",
    "C44_events",
    "C44_audit",
    "C44_queries_change_nothing",
    "C44_audit_queries_change_nothing"
   ],
   "note": "Observation: a limit of 0 returns one entry (limit_zero_gives_one), so limits start at 1. Identifiers of audit records (uuid4) are assumed distinct."
  },
  {
   "property": "C45",
   "status": "partial",
   "theorems": [
    "C45_one_record_per_run_partial",
    "C45_submission_splits_partial",
    "C45_one_event_partial",
    "C45_separator_collides_refuted",
    "C45_racing_submission_partial",
    "C45_racing_submission_refuted"
   ],
   "note": "Proved for every event sequence whose identifiers do not contain the \"|\" separator (stores unnamed or named by non-empty text), every capacity, every digest without collisions. Missing because false of the code: identifiers containing \"|\" make run ids collide (overwritten records, KeyError), and the record is assigned outside the lock, so one interleaving of a submission with the execution of the same run loses the final status; both are proved as _refuted theorems."
  },
  {
   "property": "C46",
   "status": "proved",
   "theorems": [
    "C46_page",
    "C46_pages_partition",
    "C46_parameters"
   ],
   "note": ""
  },
  {
   "property": "C47",
   "status": "partial",
   "theorems": [
    "C47_distinct_partial",
    "C47_comma_text_partial",
    "C47_json_text_partial",
    "C47_list_partial",
    "C47_bytes_partial",
    "C47_empty_and_space_refuted"
   ],
   "note": "Proved: ids are distinct for every payload; comma text, JSON text, plain list and bytes payloads give the listed ids in order of first occurrence. False of the code (C47_empty_and_space_refuted): empty strings inside a JSON list are kept as ids, and comma pieces inside members of a list keep their surrounding space."
  },
  {
   "property": "C48",
   "status": "proved",
   "theorems": [
    "C48_registry_history",
    "C48_resolution",
    "C48_never_silently_replaces",
    "C48_builtin_shapes"
   ],
   "note": ""
  },
  {
   "property": "C49",
   "status": "proved",
   "theorems": [
    "C49_executors",
    "C49_stores",
    "C49_duration",
    "C49_trigger",
    "C49_watch"
   ],
   "note": "Text is ASCII. A repeated alias silently overwrites the earlier one (stated). A deleted watched file asks for a reload at every look (stated: missing)."
  },
  {
   "property": "C50",
   "status": "proved",
   "theorems": [
    "C50_rejected",
    "C50_client"
   ],
   "note": ""
  },
  {
   "property": "C51",
   "status": "proved",
   "theorems": [
    "C51_text",
    "C51_fraction_refuted",
    "C51_ceil"
   ],
   "note": "Proved as stated. C51_fraction_refuted is a finding kept beside it: the fraction digits are a count of microseconds, so \".5\" is five microseconds, not half a second."
  },
  {
   "property": "C52",
   "status": "proved",
   "theorems": [
    "C52_first_fire_time",
    "C52_and_returns"
   ],
   "note": ""
  },
  {
   "property": "C53",
   "status": "proved",
   "theorems": [
    "C53_cron_next_fire_time",
    "C53_or_interval_loses_fires",
    "C53_next_fire_time",
    "C53_or_date_lost"
   ],
   "note": "Exact (iff). Findings: C53_or_interval_loses_fires (the grids restart at each other's fire times), C53_or_date_lost."
  },
  {
   "property": "C54",
   "status": "proved",
   "theorems": [
    "C54_and_hangs",
    "C54_and_two_three_hangs",
    "C54_and_date_hangs",
    "C54_otherwise_never_returns",
    "C54_and_returns_iff"
   ],
   "note": "Exact: C54_and_returns_iff, C54_otherwise_never_returns. This is a defect of the code: the loop asks with the same previous fire time again and again (C54_and_hangs, C54_and_two_three_hangs, C54_and_date_hangs)."
  },
  {
   "property": "C55",
   "status": "proved",
   "theorems": [
    "C55_fire_times_increase",
    "C55_now_irrelevant"
   ],
   "note": ""
  },
  {
   "property": "C56",
   "status": "proved",
   "theorems": [
    "C56_update",
    "C56_update_pending",
    "C56_pause_task"
   ],
   "note": ""
  },
  {
   "property": "C57",
   "status": "proved",
   "theorems": [
    "C57_never_oversleeps",
    "C57_caught_up_at_the_next_processing",
    "C57_forced_run_is_overslept"
   ],
   "note": "Proved for every sequence of calls and callbacks. The exception is real: run_task(force=True) stores a next run time without waking the scheduler (base.py 855-863), so a forced task can be overslept without bound (C57_forced_run_is_overslept)."
  },
  {
   "property": "C58",
   "status": "proved",
   "theorems": [
    "C58_documented_forms_accepted",
    "C58_only_documented_forms_with_tail",
    "C58_tails_are_accepted",
    "C58_comma_lists",
    "C58_accepted_exactly",
    "C58_refused_with_ValueError"
   ],
   "note": "Proved exactly (C58_accepted_exactly). Findings: the regular expressions for names, positions and \"last\" have no end anchor, so trailing junk is ignored (\"jan-5\" is January), and \"0-0/5\" is accepted (C58_tails_are_accepted, C58_only_documented_forms_with_tail)."
  },
  {
   "property": "C59",
   "status": "proved",
   "theorems": [
    "C59_interval",
    "C59_interval_length",
    "C59_cron",
    "C59_date",
    "C59_other"
   ],
   "note": ""
  },
  {
   "property": "C60",
   "status": "proved",
   "theorems": [
    "C60_dump_keeps_data",
    "C60_dump_is_plain",
    "C60_exclude_none",
    "C60_plain_unchanged"
   ],
   "note": ""
  },
  {
   "property": "C61",
   "status": "proved",
   "theorems": [
    "C61_same_as_local",
    "C61_unreachable_ids",
    "C61_slash_misroutes",
    "C61_incomplete_errors"
   ],
   "note": "Exact for both kinds of id; optional names must not be empty texts. Findings: ids with \"/\" are misrouted, even to another task (C61_slash_misroutes), and preview_task_runs(now=...) ignores the time. Results are compared as JSON dumps; model_validate, the socket and the JSON text are not modelled."
  },
  {
   "property": "C62",
   "status": "proved",
   "theorems": [
    "C62_add",
    "C62_explicit_none_is_lost"
   ],
   "note": "Exact. Finding: an explicit None is lost, so a task added paused (next_run_time=None) is added active, and one without a grace time gets the scheduler's (C62_explicit_none_is_lost)."
  },
  {
   "property": "C63",
   "status": "proved",
   "theorems": [
    "C63_catch_up_count",
    "C63_all_due_none_missing",
    "C63_negative_interval_never_ends"
   ],
   "note": "Proved for every positive interval, with the count; C13_terminates covers the other forward triggers. Finding: negative intervals are accepted and never end (C63_negative_interval_never_ends, for all of them; the model has no earliest date, Python would stop in the year 1)."
  },
  {
   "property": "C64",
   "status": "partial",
   "theorems": [
    "C64_nothing_can_be_loaded_refuted",
    "C64_empty_partial"
   ],
   "note": "Refuted outright: the loaders call Task(func=...), which has no such argument; every non-empty list raises and adds nothing (C64_nothing_can_be_loaded_refuted, for all lists and states). Proved part: the empty list."
  },
  {
   "property": "C65",
   "status": "partial",
   "theorems": [
    "C65_cron_clock_changes_partial",
    "C65_skipped_hour_refuted",
    "C65_repeated_hour_skipped_refuted",
    "C65_answer_in_the_past_refuted"
   ],
   "note": "Partial. Proved (unbounded, all ordinary zones): asked at an instant outside a repeated hour, the answer is a first showing, after what was asked, within end_at, no matching first showing is missed; the answer matches unless it falls in the hour after a clock put forward. Missing because false of the code: C65_skipped_hour_refuted (2:30 fires at a non-matching 3:30), C65_repeated_hour_skipped_refuted (second pass skipped), C65_answer_in_the_past_refuted."
  },
  {
   "property": "C66",
   "status": "proved",
   "theorems": [
    "C66_next_on_the_clock",
    "C66_next_exact",
    "C66_next_later",
    "C66_first_on_the_clock",
    "C66_hour_apart_is_false",
    "C66_after_end_at_is_possible",
    "C66_first_in_the_past_is_possible",
    "C66_instants_are_kept"
   ],
   "note": "The plain claims are false across a change: an hourly task pauses two hours in autumn (C66_hour_apart_is_false), can fire half an hour after end_at in spring (C66_after_end_at_is_possible) and, asked in the second pass of a repeated hour, can first fire in the past (C66_first_in_the_past_is_possible)."
  },
  {
   "property": "C67",
   "status": "proved",
   "theorems": [
    "C67_woken",
    "C67_wait_exact",
    "C67_never_late_when_put_back",
    "C67_late_by_the_change",
    "C67_an_hour_late_in_spring"
   ],
   "note": "Finding: across the spring change the scheduler wakes an hour late (C67_an_hour_late_in_spring); the hoped-for 'never late' is false there."
  },
  {
   "property": "C68",
   "status": "proved",
   "theorems": [
    "C68_given_dates",
    "C68_one_zone_in_force",
    "C68_default_start_own_zone",
    "C68_default_start_late",
    "C68_default_start"
   ],
   "note": "Proved for all combinations of given arguments (whole-second intervals for the first run, as in C04). Finding: the shift, e.g. a five-minute trigger object on a Berlin machine with a UTC scheduler first runs after two hours and five minutes (C68_default_start_late). Constant offsets here; changing ones in C65-C67."
  },
  {
   "property": "C69",
   "status": "proved",
   "theorems": [
    "C69_added_as_described",
    "C69_refused_only_if",
    "C69_none_grace_default_is_one_second"
   ],
   "note": "Exact. Finding: task_defaults with mistrigger_grace_time=None is dropped (exclude_none), so tasks get 1 second instead of no limit (C69_none_grace_default_is_one_second). Refusals are characterised by C69_refused_only_if."
  },
  {
   "property": "C70",
   "status": "proved",
   "theorems": [
    "C70_decorating_is_adding",
    "C70_definition_changes_nothing",
    "C70_without_scheduler_raises",
    "C70_paused_definition_runs"
   ],
   "note": "Exact, for every state and definition. Findings: a definition made paused is scheduled (C70_paused_definition_runs); Task(...) objects without a scheduler cannot decorate (C70_without_scheduler_raises)."
  },
  {
   "property": "C71",
   "status": "proved",
   "theorems": [
    "C71_dotted_keys",
    "C71_order_does_not_matter",
    "C71_clash_depends_on_order",
    "C71_only_when_stopped"
   ],
   "note": "Proved. Outside the condition the order matters (C71_clash_depends_on_order): one order silently drops the longer key, the other raises."
  },
  {
   "property": "C72",
   "status": "proved",
   "theorems": [
    "C72_configured_as_described",
    "C72_accepted_iff",
    "C72_bad_executor_keeps_stores",
    "C72_by_plugin_alias",
    "C72_wrong_plugin_accepted_later"
   ],
   "note": "Proved. Finding: add_executor/add_store with a plugin pointing to a class of the wrong kind raises TypeError the first time and registers it from the second time on, because the class is remembered before it is checked (C72_wrong_plugin_accepted_later, for all such plugins)."
  },
  {
   "property": "C73",
   "status": "proved",
   "theorems": [
    "C73_nothing_unless_applied",
    "C73_shown_as_asked",
    "C73_applied_as_shown",
    "C73_refused_only_if",
    "C73_equal_counts_as_no_change"
   ],
   "note": "Proved, for every == on values. Finding: values that are equal in Python but different, such as true for 1, count as no change and are not applied (C73_equal_counts_as_no_change)."
  },
  {
   "property": "C74",
   "status": "proved",
   "theorems": [
    "C74_same_scheduler",
    "C74_what_the_path_gives",
    "C74_retries"
   ],
   "note": "Full statement, for every history."
  },
  {
   "property": "C75",
   "status": "partial",
   "theorems": [
    "C75_refused_iff",
    "C75_same_call_partial",
    "C75_by_reference_partial",
    "C75_inherited_class_method_refuted",
    "C75_callable_object_refuted",
    "C75_hidden_class_refuted",
    "C75_attribute_fn_refuted"
   ],
   "note": "Refusal is characterised exactly. The call is proved the same for functions, classes, static methods, class methods of the defining class and methods of objects whose names lead to them. Refuted beyond that: an inherited class method comes back bound to the defining class, a callable object as its class, a method of an object that hides its class gets the object twice, a function with an attribute fn comes back as that attribute."
  },
  {
   "property": "C76",
   "status": "partial",
   "theorems": [
    "C76_who_passes",
    "C76_others_are_sent_to_login",
    "C76_pages_need_login_partial",
    "C76_open_prefix_refuted",
    "C76_login_history",
    "C76_every_history_has_its_user",
    "C76_where_login_leads",
    "C76_open_redirect_refuted"
   ],
   "note": "Proved: who passes and who is sent where, login histories, pages under a prefix apart from the open paths. False of the code, with machine-checked refutations: a dashboard mounted at or below an open path (/static, /assets, /login) is open to everybody (C76_open_prefix_refuted); the form field next is used as it is, so a login can lead to another site (C76_open_redirect_refuted). Lilya's routing and cookie signing are not modelled; User's extra data must not use the keys id, name, is_admin."
  },
  {
   "property": "C77",
   "status": "partial",
   "theorems": [
    "C77_written_prefixes_partial",
    "C77_every_text_but_slashes",
    "C77_slashes_refuted",
    "C77_links_carry_the_prefix",
    "C77_strangers_change_nothing",
    "C77_trusted_prefix_in_front",
    "C77_no_prefix_no_change",
    "C77_last_header",
    "C77_mount_point",
    "C77_root_mount_refuted",
    "C77_security_headers",
    "C77_default_headers"
   ],
   "note": "False of the code: \"//\" is normalized to the empty text (C77_slashes_refuted), and a dashboard cannot be mounted at / (AssertionError, C77_root_mount_refuted). Everything else proved. C77_links_carry_the_prefix assumes that no space is left inside the prefixes at their ends after the slashes are dropped (strip e = e). ipaddress network membership is a parameter."
  },
  {
   "property": "C78",
   "status": "proved",
   "theorems": [
    "C78_one_call",
    "C78_unambiguous",
    "C78_unknown_action"
   ],
   "note": "Not followed: an array where add/update want a dictionary (a list of pairs is one to dict()) and a trigger_pickle that is not text; unpickling itself always succeeds in the model. Exceptions of the read calls escape (500 without JSON), which the statement says."
  },
  {
   "property": "C79",
   "status": "partial",
   "theorems": [
    "C79_nothing_unless_recorded",
    "C79_unknown_task",
    "C79_refused",
    "C79_shown_as_asked",
    "C79_applied_as_shown",
    "C79_escapes_only_if",
    "C79_round_trip",
    "C79_bound_method_refuted",
    "C79_equal_but_different_refuted",
    "C79_applied_but_escapes_refuted"
   ],
   "note": "Refuted: a bound-method task cannot be posted back unchanged (C79_bound_method_refuted); a change of 1 to true counts as none (C79_equal_but_different_refuted); arguments JSON cannot write make the page fail, even after the change was applied (C79_applied_but_escapes_refuted). json.loads/dumps, float() and == are parameters; the round trip states what it needs of them. HTML and message texts are not modelled."
  },
  {
   "property": "C80",
   "status": "partial",
   "theorems": [
    "C80_press_partial",
    "C80_bulk_partial",
    "C80_bulk_stops_refuted",
    "C80_bulk_remove",
    "C80_bulk_pause"
   ],
   "note": "Refuted: an unexpected exception in one press ends a bulk action, with nothing recorded for that task or the ones after it (C80_bulk_stops_refuted). Not covered: the scheduler in state STOPPED, and the id \"\" (which bulk forms can contain, C47). The bulk theorems need each id to be held by one store only."
  },
  {
   "property": "C81",
   "status": "partial",
   "theorems": [
    "C81_created_as_asked_partial",
    "C81_otherwise_nothing",
    "C81_why_not",
    "C81_recorded_but_not_created_refuted",
    "C81_bad_json_not_recorded_refuted"
   ],
   "note": "Refuted: a path that names None or another false object is recorded as created although nothing is (C81_recorded_but_not_created_refuted); malformed JSON is an error page and not recorded (C81_bad_json_not_recorded_refuted). Not modelled: paths naming Task objects, intervals too large for a timedelta; json.loads, fromisoformat and the import are parameters."
  },
  {
   "property": "C82",
   "status": "partial",
   "theorems": [
    "C82_what_is_not_due_is_left_alone",
    "C82_looking_is_a_pass_over_the_due",
    "C82_nothing_begins",
    "C82_looking_loses_a_due_one_shot",
    "C82_looking_refuted"
   ],
   "note": "Refuted as stated (C82_looking_refuted, and in general for every due one-shot task: C82_looking_loses_a_due_one_shot): looking at a store deletes due one-shot tasks, which never run. Proved: exactly which tasks are affected and how. Not modelled: functions that are not coroutines (they go to a thread); memory stores given with --store (they are empty)."
  },
  {
   "property": "C83",
   "status": "partial",
   "theorems": [
    "C83_other_tasks_left_alone",
    "C83_pause",
    "C83_remove",
    "C83_resume",
    "C83_run",
    "C83_add",
    "C83_run_refuted",
    "C83_shut_down"
   ],
   "note": "Refuted: run makes the coroutine begin but cancels it at its first wait, and a one-shot task is deleted nevertheless (C83_run_refuted, C83_run); add without --store loses the task (C83_add, second case); resume and add keep the run time only if it is later than the end of the process. With several stores holding the same id, which one is changed is left open. A change whose call raised never shuts its scheduler down (C83_shut_down)."
  },
  {
   "property": "C84",
   "status": "partial",
   "theorems": [
    "C84_what_is_captured",
    "C84_task_logger_partial",
    "C84_installing",
    "C84_notset",
    "C84_positive_level",
    "C84_mounting",
    "C84_outside_the_namespace",
    "C84_unformattable_messages_vanish",
    "C84_shared_extra_refuted",
    "C84_lower_level_refuted"
   ],
   "note": "Refuted: the adapter writes its task id into the caller's extra dictionary, so two tasks sharing one dictionary have the second task's messages filed under the first (C84_shared_extra_refuted); messages of get_task_logger(id, name) with a name outside 'asyncz' and messages whose arguments do not fit are dropped silently (C84_outside_the_namespace, C84_unformattable_messages_vanish); installing the handler again at a lower level does not capture it (C84_lower_level_refuted). Proved: exactly which calls are captured, and as what, in every state (C84_what_is_captured); every ordinary call is (C84_task_logger_partial)."
  },
  {
   "property": "C85",
   "status": "proved",
   "theorems": [
    "C85_logs_page",
    "C85_looking_changes_nothing"
   ],
   "note": ""
  },
  {
   "property": "C86",
   "status": "proved",
   "theorems": [
    "C86_logs_of_a_run"
   ],
   "note": ""
  },
  {
   "property": "C87",
   "status": "proved",
   "theorems": [
    "C87_resolution",
    "C87_environment_beats_arguments"
   ],
   "note": "Proved exactly. Finding: the order is surprising - the unprefixed environment variable beats the explicit argument, e.g. DEBUG=1 beats Settings(debug=False) (C87_environment_beats_arguments)."
  },
  {
   "property": "C88",
   "status": "proved",
   "theorems": [
    "C88_dict",
    "C88_properties",
    "C88_asyncz_settings",
    "C88_internals_are_dumped"
   ],
   "note": "Proved exactly. Finding: the internals __type_hints__ and __truthy__, annotated on BaseSettings, are dumped as if they were settings (C88_internals_are_dumped)."
  },
  {
   "property": "C89",
   "status": "partial",
   "theorems": [
    "C89_nothing_lost",
    "C89_repeats_are_interruptions",
    "C89_exactly_once",
    "C89_catches_up",
    "C89_never_again",
    "C89_at_most_once_refuted",
    "C89_handed_over_is_run_refuted"
   ],
   "note": "Refuted as stated, twice: a process that dies between handing over and storing hands the run over again (C89_at_most_once_refuted), and one that dies with the run in its executor loses it (C89_handed_over_is_run_refuted). Proved for every history: no run time is skipped (C89_nothing_lost), repeats are bounded by the number of interruptions (C89_repeats_are_interruptions), exactly once and in order without interruptions (C89_exactly_once), a complete pass catches up (C89_catches_up), what is left behind never comes back (C89_never_again)."
  },
  {
   "property": "C90",
   "status": "proved",
   "theorems": [
    "C90_kept",
    "C90_replaced"
   ],
   "note": "Both halves for every state a process can die in (C90_kept, C90_replaced), with a concrete case (C90_case)."
  },
  {
   "property": "C91",
   "status": "proved",
   "theorems": [
    "C91_timeline",
    "C91_nothing_missed",
    "C91_next_run",
    "C91_bounds",
    "C91_fails",
    "C91_same_id_refuted"
   ],
   "note": "Rows exactly (C91_timeline), nothing missed (C91_nothing_missed), first row (C91_next_run), bounds (C91_bounds), failures (C91_fails). C91_same_id_refuted shows that the hypothesis of unique ids is needed: the preview looks a task up by id only."
  },
  {
   "property": "C92",
   "status": "proved",
   "theorems": [
    "C92_started_at",
    "C92_doctor",
    "C92_checks",
    "C92_ready_after_start",
    "C92_runtime",
    "C92_counts_are_labels_refuted"
   ],
   "note": "C92_started_at, C92_doctor, C92_ready_after_start, C92_runtime. The counts are by the alias a task carries, which update_task can set to another store than the one that holds it (C92_counts_are_labels_refuted refutes the stronger reading that they are the stores' contents)."
  },
  {
   "property": "C93",
   "status": "partial",
   "theorems": [
    "C93_in_order",
    "C93_never_stuck",
    "C93_finitely_many",
    "C93_one_sender",
    "C93_receiver_gone",
    "C93_long_messages_refuted"
   ],
   "note": "True while every message fits into PIPE_BUF (C93_in_order, C93_never_stuck, C93_finitely_many) or only one process sends (C93_one_sender). Refuted for longer messages of two processes: send takes no lock, both messages can be lost and the receiving thread dies (C93_long_messages_refuted). A call that cannot be unpickled or that makes the logger raise ends the thread; from then on nothing is logged and workers hang once the pipe is full (C93_receiver_gone)."
  },
  {
   "property": "C94",
   "status": "proved",
   "theorems": [
    "C94_construct",
    "C94_construct_ordinary",
    "C94_instances",
    "C94_others",
    "C94_round_trip",
    "C94_dump_fails",
    "C94_fields",
    "C94_required_but_refused_refuted",
    "C94_attrs_private_refuted"
   ],
   "note": "C94_construct, C94_round_trip and C94_dump_fails are exact. Findings: an attrs class with a private field does not take its own dump back (C94_attrs_private_refuted); a field outside __init__ is listed as required although it cannot be given (C94_required_but_refused_refuted); AttrsShape.dump lets a bare AttributeError escape (C94_dump_fails). PydanticShape and MsgspecShape are not modelled."
  },
  {
   "property": "C95",
   "status": "proved",
   "theorems": [
    "C95_preview_exact",
    "C95_snapshot",
    "C95_worker_snapshot",
    "C95_preview_agrees",
    "C95_worker_may_refuse_refuted",
    "C95_reference_moves_refuted",
    "C95_refused_edit_is_half_done"
   ],
   "note": "C95_preview_exact, C95_preview_agrees, C95_snapshot. Findings: the preview can promise what the worker refuses, because it cannot look at the callable (C95_worker_may_refuse_refuted); editing only the arguments of a task named by another path changes the reference at the worker unseen (C95_reference_moves_refuted); a refused edit leaves the stand-in half changed (C95_refused_edit_is_half_done; the pages edit a copy)."
  },
  {
   "property": "C96",
   "status": "partial",
   "theorems": [
    "C96_reloads_when_changed",
    "C96_at_most_one_and_one_leaving",
    "C96_order",
    "C96_running_partial",
    "C96_lives",
    "C96_interrupted",
    "C96_one_shot",
    "C96_never_two_refuted",
    "C96_nothing_left_refuted",
    "C96_one_stop_each_refuted"
   ],
   "note": "Proved: C96_reloads_when_changed, C96_lives, C96_interrupted, C96_one_shot, C96_at_most_one_and_one_leaving, C96_order, C96_running_partial (none left at the end unless an on_start hook or the last on_stop hook failed). False in the code: a failing on_start hook (first start or reload) or last on_stop hook leaves a scheduler running (C96_nothing_left_refuted); the old and the new scheduler overlap, since shutdown is deferred to the event loop (C96_never_two_refuted); a failing reload calls on_stop twice for one start (C96_one_stop_each_refuted). Scoped: interrupts that reach the coroutine."
  },
  {
   "property": "C97",
   "status": "partial",
   "theorems": [
    "C97_load",
    "C97_same_scheduler",
    "C97_one_more_user_partial",
    "C97_stop_hook_calls",
    "C97_others_keep_it_refuted"
   ],
   "note": "C97_load, C97_same_scheduler, C97_one_more_user_partial (scoped to runs in which no module reload fails), C97_stop_hook_calls. False in the code: a failing reload releases the scheduler twice, stopping it under its other users (C97_others_keep_it_refuted). --watch is announced as ignored but on_stop is called at every change (C97_stop_hook_calls)."
  },
  {
   "property": "C98",
   "status": "partial",
   "theorems": [
    "C98_history_query",
    "C98_latest_run",
    "C98_counts",
    "C98_history_page",
    "C98_audit_page",
    "C98_events_page",
    "C98_last_report",
    "C98_history_detail",
    "C98_overview",
    "C98_other_tasks_run_refuted"
   ],
   "note": "Proved for all histories: C98_history_query, C98_latest_run, C98_counts, C98_history_page, C98_audit_page, C98_events_page, C98_last_report, C98_history_detail, C98_overview. False in the code: for a task with id \"\" any task's last run is shown, and tasks with the same id in two stores share runs (C98_other_tasks_run_refuted)."
  },
  {
   "property": "C99",
   "status": "partial",
   "theorems": [
    "C99_events_recorded_partial",
    "C99_of_interest",
    "C99_record",
    "C99_category_partial",
    "C99_category_refuted",
    "C99_runs_recorded_partial",
    "C99_remount_gap_refuted",
    "C99_string_mask_refuted",
    "C99_second_mount_refuted"
   ],
   "note": "Proved for all histories with atomic mounts and numeric masks: C99_events_recorded_partial, C99_runs_recorded_partial (run keys without \"|\" and an injective digest, as in C45), C99_of_interest, C99_record, C99_category_partial. False in the code: an event dispatched while a scheduler is mounted again is recorded nowhere (C99_remount_gap_refuted); a listener added earlier with a string for a mask silences the dashboard (C99_string_mask_refuted); with two storages every page shows the one mounted last (C99_second_mount_refuted); the removal of all tasks, named task.all_removed, is filed under \"scheduler\" (C99_category_refuted)."
  },
  {
   "property": "C100",
   "status": "partial",
   "theorems": [
    "C100_one_loop",
    "C100_calls_answer",
    "C100_timer_wakes",
    "C100_shutdown_completes",
    "C100_sessions",
    "C100_start_during_shutdown_refuted",
    "C100_shutdown_too_many_refuted",
    "C100_native_threads_refuted",
    "C100_native_calls_answer",
    "C100_native_shutdown_waits",
    "C100_closed_loops",
    "C100_native_shutdown_hangs_refuted"
   ],
   "note": "Proved for all paired histories of AsyncIOScheduler in which no start falls into the middle of a shutdown: C100_one_loop, C100_calls_answer, C100_shutdown_completes, C100_closed_loops, C100_sessions; for NativeAsyncIOScheduler the answers of start and shutdown (C100_native_calls_answer) and exactly when its shutdown returns (C100_native_shutdown_waits). False in the code: a start in the middle of a shutdown leaves a running scheduler without a loop (C100_start_during_shutdown_refuted); a shutdown too many corrupts the count or raises AttributeError (C100_shutdown_too_many_refuted); NativeAsyncIOScheduler with an isolated loop leaves a running thread behind for every user but the last (C100_native_threads_refuted), and its shutdown waits for ever if its loop is asleep (C100_native_shutdown_hangs_refuted)."
  },
  {
   "property": "C101",
   "status": "partial",
   "theorems": [
    "C101_details",
    "C101_edit",
    "C101_buttons",
    "C101_logs",
    "C101_history",
    "C101_simple_ids",
    "C101_run_links",
    "C101_controls",
    "C101_turns",
    "C101_other_task_refuted",
    "C101_root_refuted"
   ],
   "note": "Exactly which ids work is proved for each kind of link: C101_details, C101_edit, C101_buttons, C101_logs, C101_history (each an equivalence over all ids), with C101_simple_ids for ids of letters, digits and - _ . ~ (ids asyncz makes are such) and C101_run_links. For other ids the claim is false in the code, which writes ids into references unescaped: the Remove button beside \"x/../b\" removes \"b\", the Run button beside \"b/remove?\" removes \"b\" (C101_other_task_refuted); with the dashboard at the root of its host every prefixed link leaves it (C101_root_refuted). Whether the details of a task called \"create\" can be opened depends on the router (goes_on)."
  },
  {
   "property": "C102",
   "status": "partial",
   "theorems": [
    "C102_shown_by_the_answer",
    "C102_at_most_once",
    "C102_lost_refuted",
    "C102_press_says",
    "C102_run_says",
    "C102_banner_text_partial",
    "C102_banner_markup",
    "C102_page_text",
    "C102_markup_refuted",
    "C102_banner_look"
   ],
   "note": "Proved: C102_shown_by_the_answer, C102_at_most_once, C102_press_says, C102_run_says, C102_page_text (whole pages: every text, thanks to the engine's escaping). In front of the task table exactly the texts without the beginning of a tag are shown as they are (C102_banner_text_partial, an equivalence for texts without an ampersand; C102_banner_markup). False in the code: the banner is built without escaping, so an id such as <img src=x> becomes markup (C102_markup_refuted); a message whose request ended in an exception is swallowed by a refresh of the history or log table (C102_lost_refuted). C102_banner_look: every message gets a numbered box in the colour of its level, with its icon and a button naming the box."
  },
  {
   "property": "C103",
   "status": "partial",
   "theorems": [
    "C103_filters_kept",
    "C103_create_forgets_refuted",
    "C103_next_shows_all",
    "C103_previous_leads_back",
    "C103_last_pages_refuted",
    "C103_list_shows_matches",
    "C103_blanks_do_not_matter"
   ],
   "note": "Proved: C103_filters_kept (refresh, turns, bulk and row buttons), C103_next_shows_all (lists of up to ten thousand pages), C103_previous_leads_back, C103_list_shows_matches (with the failure for states and orders it does not know). False in the code: the create form carries no suffix, so its answer shows the unfiltered list (C103_create_forgets_refuted); page numbers are cut at 10000, so on longer lists Next leads to the same page again and the rest is never shown (C103_last_pages_refuted)."
  },
  {
   "property": "C104",
   "status": "partial",
   "theorems": [
    "C104_objects_are_values",
    "C104_answered_object_is_current",
    "C104_holder_and_store_share",
    "C104_same_object",
    "C104_ids_stay",
    "C104_handle_acts_on_itself",
    "C104_added_once",
    "C104_handle_schedules_itself",
    "C104_durable_handle_stale_refuted",
    "C104_replaced_handle_refuted",
    "C104_renamed_store_refuted"
   ],
   "note": "Proved for all programs of calls (Handles.v: every Task object has an identity): C104_objects_are_values (each call does to the attributes what the same call of Scheduler.v does to values, so the properties proved there hold with shared objects), C104_answered_object_is_current, C104_holder_and_store_share, C104_same_object, C104_ids_stay, C104_handle_acts_on_itself (memory stores). False in the code: with a durable store every look-up builds a new Task, so the caller's own stays as it was, even after its own pause() (C104_durable_handle_stale_refuted); a Task that was replaced still acts on the task that took its place (C104_replaced_handle_refuted); update(store_alias=...) renames the store on the Task without moving it, and from then on its pause() and delete() raise TaskLookupError (C104_renamed_store_refuted). Left out: a start that fails half-way (it leaves next run times on pending objects that stay pending), Tasks of other schedulers, a caller assigning to attributes directly; executors read fn and arguments from the object when they run it, so an update between submission and run affects that run. C104_added_once: adding an object uses it up, after any further calls. C104_handle_schedules_itself: resume() and reschedule() of the Task held."
  },
  {
   "property": "C105",
   "status": "proved",
   "theorems": [
    "C105_options",
    "C105_last_setup_decides",
    "C105_identity_kept",
    "C105_refused_setup",
    "C105_defaults_reach_tasks",
    "C105_created",
    "C105_usual_options"
   ],
   "note": "Proved for all dictionaries, values and histories of setups: C105_options (accepted exactly when, and what each option is then), C105_last_setup_decides (only identity and shape can be left of earlier setups), C105_identity_kept (also over refused setups), C105_refused_setup (options before the offending one as configured, the others untouched; the exception says what was wrong with it), C105_defaults_reach_tasks (with C69), C105_created and C105_usual_options (what the constructor makes). Worth knowing: a refused setup has already changed the scheduler, and a setup without time zone, lock path or task defaults goes back to the usual ones rather than keeping the earlier. Left out: loggers_class, task_defaults that a custom Shape changes, what executors and stores are configured (C72)."
  }
 ]
}