{
 "claims": [
  {
   "property": "C01",
   "status": "proved",
   "theorems": [
    "handed_out_only_after_dependencies"
   ],
   "note": ""
  },
  {
   "property": "C02",
   "status": "proved",
   "theorems": [
    "dependents_of_failed_never_run",
    "dependents_of_failed_never_logged"
   ],
   "note": ""
  },
  {
   "property": "C03",
   "status": "proved",
   "theorems": [
    "handed_out_at_most_once"
   ],
   "note": ""
  },
  {
   "property": "C04",
   "status": "proved",
   "theorems": [
    "handed_out_with_matching_affinity",
    "unknown_runner_type_refused",
    "runner_type_checked_at_once"
   ],
   "note": ""
  },
  {
   "property": "C05",
   "status": "proved",
   "theorems": [
    "highest_priority_first",
    "priority_is_longest_path"
   ],
   "note": ""
  },
  {
   "property": "C06",
   "status": "proved",
   "theorems": [
    "normal_end_means_all_done",
    "ends_when_all_done",
    "soft_end_only_after_soft_shutdown",
    "other_ends_only_on_request"
   ],
   "note": ""
  },
  {
   "property": "C07",
   "status": "proved",
   "theorems": [
    "never_stuck",
    "stuck_means_ended",
    "bounded_work",
    "execute_ends",
    "cancelled_execute_ends",
    "left_loop_ends",
    "soft_shutdown_ends_refuted",
    "unserved_task_ends_refuted",
    "lost_task_ends_refuted"
   ],
   "note": "Progress invariant plus a potential function. The refutations show that each excluded case really hangs: a soft shutdown requested when no task is handed out, a task whose mask nobody serves, a runner that disappears with a task."
  },
  {
   "property": "C08",
   "status": "proved",
   "theorems": [
    "tracker_never_panics"
   ],
   "note": ""
  },
  {
   "property": "C09",
   "status": "proved",
   "theorems": [
    "num_ready_exact",
    "num_inflight_exact",
    "num_unready_exact",
    "num_ready_never_wraps",
    "num_ready_after_reset",
    "num_ready_zero_after_reset",
    "num_ready_exact_after_soft_shutdown_refuted",
    "num_ready_zero_after_failures_refuted"
   ],
   "note": "Exact while no shutdown happened. After a requested soft shutdown or the end of the loop the counter of ready tasks is 0 less the hand-outs since, modulo 2^32; it can wrap, and it is not reset when too many tasks fail, see the refutations."
  },
  {
   "property": "C10",
   "status": "proved",
   "theorems": [
    "execute_result_truthful",
    "execute_result_in_dependency_order",
    "finish_reports_come_from_the_runner"
   ],
   "note": ""
  },
  {
   "property": "C11",
   "status": "proved",
   "theorems": [
    "soft_shutdown_iff_limit_reached",
    "soft_shutdown_not_before_limit",
    "soft_shutdown_at_once",
    "nothing_ready_after_soft_shutdown"
   ],
   "note": ""
  },
  {
   "property": "C12",
   "status": "proved",
   "theorems": [
    "writes_succeed_iff_attempts",
    "memory_agrees_with_records",
    "status_in_functional",
    "log_stays_well_formed",
    "records_follow_attempts"
   ],
   "note": ""
  },
  {
   "property": "C13",
   "status": "proved",
   "theorems": [
    "no_open_task_after_execute"
   ],
   "note": ""
  },
  {
   "property": "C14",
   "status": "proved",
   "theorems": [
    "started_after_dependencies_in_log"
   ],
   "note": ""
  },
  {
   "property": "C15",
   "status": "proved",
   "theorems": [
    "reopen_reproduces_state",
    "reopened_file_gives_memory"
   ],
   "note": ""
  },
  {
   "property": "C16",
   "status": "proved",
   "theorems": [
    "record_is_one_line",
    "record_round_trip",
    "record_text_unambiguous",
    "record_text_is_utf8",
    "file_reads_back",
    "reopened_file_gives_memory"
   ],
   "note": "Printer and parser are a model of serde_json 1.0.107 and the derived instances, byte by byte."
  },
  {
   "property": "C17",
   "status": "proved",
   "theorems": [
    "torn_log_never_lies",
    "torn_log_no_new_complaint",
    "cut_at_record_end",
    "cut_inside_record",
    "torn_snapshot_never_lies",
    "torn_log_always_opens_refuted",
    "lost_newline_detected_refuted"
   ],
   "note": "The refutations: a torn last line makes the log unopenable; a lost last newline makes it unopenable one session later."
  },
  {
   "property": "C18",
   "status": "proved",
   "theorems": [
    "open_accepts_iff",
    "open_refusal_reason",
    "workflow_key_stable",
    "one_workflow_key",
    "log_only_grows",
    "reopening_never_fails"
   ],
   "note": ""
  },
  {
   "property": "C19",
   "status": "proved",
   "theorems": [
    "add_task_exact",
    "run_counts_increase",
    "run_counts_increase_refuted"
   ],
   "note": "The refutation shows why the restriction to one execute() per session is needed: after an interrupted execute() a second one reuses the run count. Run counts are unbounded in the model; the code wraps at 2^32."
  },
  {
   "property": "C20",
   "status": "proved",
   "theorems": [
    "success_is_final",
    "backref_once_per_session",
    "execute_runs_exactly"
   ],
   "note": ""
  },
  {
   "property": "C21",
   "status": "proved",
   "theorems": [
    "execute_runs_exactly",
    "failures_not_rerun"
   ],
   "note": ""
  },
  {
   "property": "C22",
   "status": "proved",
   "theorems": [
    "execute_runs_exactly",
    "unknown_target_runs_nothing",
    "executions_are_scheduler_runs",
    "petgraph_order_ok"
   ],
   "note": ""
  },
  {
   "property": "C23",
   "status": "proved",
   "theorems": [
    "add_task_exact",
    "graph_always_ok",
    "tasks_never_change"
   ],
   "note": ""
  },
  {
   "property": "C24",
   "status": "proved",
   "theorems": [
    "transitive_closure_exact",
    "toposort_terminates",
    "toposort_correct",
    "petgraph_toposort_keeps_contract",
    "graph_functions_with_petgraph"
   ],
   "note": ""
  },
  {
   "property": "C25",
   "status": "proved",
   "theorems": [
    "tlevel_is_longest_path",
    "blevel_is_longest_path",
    "increasing_graph_has_topological_order",
    "graph_functions_with_petgraph"
   ],
   "note": ""
  },
  {
   "property": "C26",
   "status": "proved",
   "theorems": [
    "descendants_at_distance_exact"
   ],
   "note": ""
  },
  {
   "property": "C27",
   "status": "proved",
   "theorems": [
    "snapshot_succeeds_iff",
    "snapshot_exact",
    "snapshot_loses_nothing",
    "snapshot_never_fails",
    "current_holds_reused_attempt",
    "current_holds_last_session",
    "snapshot_of_accepted_log_can_panic_refuted",
    "current_holds_reused_attempt_refuted"
   ],
   "note": "The refutations concern logs from elsewhere and sessions with several execute() calls."
  },
  {
   "property": "C28",
   "status": "proved",
   "theorems": [
    "outdated_never_shares_key"
   ],
   "note": ""
  },
  {
   "property": "C29",
   "status": "proved",
   "theorems": [
    "timer_fires_exactly",
    "timer_fires_once",
    "timer_ids_distinct",
    "timer_due",
    "stale_id_refuted",
    "due_boundaries_refuted"
   ],
   "note": "stale_id_refuted: the id of a fired entry, kept for a whole turn of the wheel, can cancel another entry. due_boundaries_refuted: durations of less than one slot and of the whole wheel fire after 256 ticks."
  },
  {
   "property": "C30",
   "status": "proved",
   "theorems": [
    "silent_runner_detected",
    "pinging_runner_kept",
    "silent_runner_always_detected_refuted"
   ],
   "note": "For schedules in which the wheel does not turn while a handler is between setting a timer and opening the transaction, or between removing it and cancelling its timer, and in which drawn transaction ids are not in use. The refutation shows that the first condition cannot be dropped."
  },
  {
   "property": "C31",
   "status": "proved",
   "theorems": [
    "finished_at_most_once",
    "finished_exactly_once",
    "repeated_end_refused",
    "forged_end_refused",
    "end_reports_own_task",
    "disconnection_reports_given_task",
    "every_task_reported_other_job_refuted",
    "every_task_reported_same_id_refuted",
    "reaper_never_panics_refuted"
   ],
   "note": "The refutations show how a task can be lost, and the reaper killed."
  },
  {
   "property": "C32",
   "status": "proved",
   "theorems": [
    "wrong_token_changes_nothing",
    "wrong_tokens_invisible"
   ],
   "note": ""
  },
  {
   "property": "C33",
   "status": "proved",
   "theorems": [
    "mark_reply_exact",
    "cancelled_job_gets_no_start",
    "busy_job_not_marked",
    "marked_job_gets_no_task_refuted",
    "marked_job_gets_no_task_after_end_refuted"
   ],
   "note": "The refutations: a marked job can still be handed a task by a /start that was waiting, or in the reply to its /end."
  },
  {
   "property": "C34",
   "status": "proved",
   "theorems": [
    "unlocked_tasks_are_queued_before_flag"
   ],
   "note": ""
  },
  {
   "property": "C35",
   "status": "proved",
   "theorems": [
    "launch_rate_window",
    "launch_rate_start",
    "no_launch_at_start",
    "launch_rate_after_reset",
    "no_limit_admits_all",
    "limit_is_requested_one",
    "launch_rate_after_overlap",
    "launch_rate_after_busy_reset",
    "no_launch_at_start_refuted",
    "no_burst_after_change_refuted",
    "one_request_wins_refuted"
   ],
   "note": "no_launch_at_start_refuted, no_burst_after_change_refuted: there is a burst at the start for limits whose square exceeds 10^9, and between the two stores of a change of the limit. one_request_wins_refuted: requests that overlap can leave the rate of one with the time of another."
  },
  {
   "property": "C36",
   "status": "proved",
   "theorems": [
    "waiting_time_exact",
    "reported_limit",
    "attempt_repeated_only_after_launch",
    "reported_limit_refuted",
    "waiting_time_first_second_refuted"
   ],
   "note": "reported_limit_refuted, waiting_time_first_second_refuted: outside the stated range."
  },
  {
   "property": "C37",
   "status": "proved",
   "theorems": [
    "cancels_combine",
    "cancels_commute",
    "soft_waiter_released",
    "hard_waiter_released",
    "cancels_combine_refuted",
    "earliest_time_refuted"
   ],
   "note": "For calls that do not overlap. The refutations show that overlapping calls can undo a hard cancellation or keep the later time."
  },
  {
   "property": "C38",
   "status": "proved",
   "theorems": [
    "flag_wait_never_missed",
    "flag_wait_sound",
    "counter_wait_never_missed",
    "counter_wait_sound"
   ],
   "note": ""
  },
  {
   "property": "C39",
   "status": "proved",
   "theorems": [
    "status_not_too_early",
    "status_answered_in_time",
    "status_etag_true",
    "status_etags_grow"
   ],
   "note": ""
  },
  {
   "property": "C40",
   "status": "proved",
   "theorems": [
    "average_run_time"
   ],
   "note": ""
  },
  {
   "property": "C41",
   "status": "proved",
   "theorems": [
    "display_explicit",
    "display_exact",
    "display_has_no_tab_or_escape",
    "display_unchanged"
   ],
   "note": ""
  },
  {
   "property": "C42",
   "status": "proved",
   "theorems": [
    "logged_status_exact",
    "every_ending_reported",
    "statuses_reach_the_log",
    "statuses_distinct_refuted"
   ],
   "note": "statuses_distinct_refuted: different kinds of failure can get the same number."
  },
  {
   "property": "C43",
   "status": "proved",
   "theorems": [
    "fd3_values_exact",
    "fd3_values_not_utf8",
    "quoted_value_comes_back"
   ],
   "note": ""
  },
  {
   "property": "C44",
   "status": "proved",
   "theorems": [
    "local_loop_reports",
    "local_loop_ended",
    "local_loop_is_a_client",
    "local_loop_always_reports_refuted"
   ],
   "note": "The refutation: a process that does not read its whole input makes the runner panic, and the task is never reported."
  },
  {
   "property": "C45",
   "status": "proved",
   "theorems": [
    "message_survives",
    "cut_message_refused",
    "messages_distinct",
    "request_survives",
    "response_survives",
    "sending_succeeds",
    "cut_packet_refused",
    "unlabelled_packet_refused",
    "every_request_survives_refuted"
   ],
   "note": "LZ4 is an arbitrary pair of functions with decompress (compress b) = b that refuses cut blocks. The refutation: a request whose body exceeds the 2 MiB limit of the server is lost."
  },
  {
   "property": "C46",
   "status": "proved",
   "theorems": [
    "one_session",
    "second_opening_refused",
    "no_second_session",
    "opening_leaves_log",
    "log_only_grows",
    "session_reads_all",
    "stale_lock_harmless",
    "one_session_refuted",
    "session_reads_all_refuted"
   ],
   "note": "Under the restriction in the statement; the refutations show that it is needed."
  },
  {
   "property": "C47",
   "status": "proved",
   "theorems": [
    "location_exact",
    "attempts_are_recorded",
    "location_right_iff",
    "recorded_location_if_appended",
    "recorded_location_refuted",
    "add_task_can_panic_refuted"
   ],
   "note": "Exact value of logfile_runcount in every history, and exactly when it is the place where the attempt was stored. The refutations show that it can be another place, or a panic, after the storage roots changed."
  },
  {
   "property": "C48",
   "status": "proved",
   "theorems": [
    "sigterm_once",
    "sigkill_after_sigterm",
    "every_child_signalled",
    "stubborn_child_killed",
    "cleanup_returns",
    "cleanup_ends",
    "deadline_not_early",
    "deadline_signals",
    "deadline_signals_once_refuted",
    "sigkill_after_sigterm_refuted"
   ],
   "note": "The refutations: the deadline signal is repeated without bound, and a process that reuses a number is killed without SIGTERM."
  },
  {
   "property": "C49",
   "status": "proved",
   "theorems": [
    "launch_rate_formula",
    "launch_rate_nonnegative",
    "launch_rate_at_start",
    "launch_rate_decreases",
    "launch_rate_accurate",
    "launch_rate_within_1e_8",
    "launch_rate_nonnegative_f64",
    "launch_rate_at_start_f64",
    "launch_rate_decreases_f64",
    "no_overflow",
    "good_exp_exists"
   ],
   "note": "The first three over the real numbers, the others with the rounding of f64 after each operation, for every exp function that meets good_exp."
  },
  {
   "property": "C50",
   "status": "proved",
   "theorems": [
    "finished_not_repeated"
   ],
   "note": ""
  },
  {
   "property": "C51",
   "status": "proved",
   "theorems": [
    "dependencies_have_succeeded",
    "dependencies_were_dealt_with",
    "dependencies_have_succeeded_refuted"
   ],
   "note": "The refutation shows that a second execute() of one process runs tasks whose dependency failed in the first."
  },
  {
   "property": "C52",
   "status": "proved",
   "theorems": [
    "runner_protocol",
    "runner_counts",
    "runner_reports_status",
    "no_task_asked_after_usr1",
    "no_task_asked_after_time",
    "task_asked_before"
   ],
   "note": ""
  },
  {
   "property": "C53",
   "status": "proved",
   "theorems": [
    "joint_runs_are_tracker_runs",
    "joint_runs_are_server_runs",
    "server_messages_accepted",
    "second_begun_panics",
    "given_after_dependencies",
    "given_at_most_once",
    "remote_status_is_reported",
    "next_task_after_unlocked",
    "announced_once_accepted",
    "given_task_fits_runner",
    "no_such_runner_type_means_unknown"
   ],
   "note": "Both machines side by side with an invariant that relates the tasks held by handlers, transactions and the reaper to the clients of the tracker; the two projection theorems carry the other claims over."
  },
  {
   "property": "C54",
   "status": "proved",
   "theorems": [
    "handout_costs_admission",
    "handout_follows_admission",
    "handouts_by_time",
    "handouts_in_window",
    "handouts_spread_out_refuted"
   ],
   "note": "Limiter and tracker side by side; the clients that passed the limiter and wait are a potential. The refutation shows that hand-outs themselves can come in a burst: the limiter is passed before the wait for a task."
  },
  {
   "property": "C55",
   "status": "proved",
   "theorems": [
    "storage_roots_exact",
    "key_replaced_once",
    "seen_from_once",
    "attempt_number",
    "locations_distinct",
    "location_in_root",
    "locations_distinct_refuted",
    "location_in_root_refuted"
   ],
   "note": "Paths are texts (Unix); symbolic links and .. are not resolved. The refutations show what keys with slashes do."
  },
  {
   "property": "C56",
   "status": "proved",
   "theorems": [
    "local_runners_follow_protocol",
    "local_process_limit",
    "one_process_per_loop",
    "process_spawned_for_ready_task",
    "report_matches_process",
    "success_means_exit_zero",
    "dependency_processes_exited_first",
    "processes_killed_for_a_reason",
    "no_process_left",
    "num_parallel_limits_all_processes_refuted"
   ],
   "note": "The loops of the local runners as threads of the scheduler model with their processes. The refutation shows that the console process comes on top of num_parallel."
  },
  {
   "property": "C57",
   "status": "proved",
   "theorems": [
    "local_call_ends",
    "local_call_complete",
    "local_call_ends_after_input_failure_refuted",
    "local_call_ends_after_setup_failure_refuted"
   ],
   "note": "Progress and a potential for the loops, their processes and the tracker together. A killed process counts as over when SIGKILL was sent."
  },
  {
   "property": "C58",
   "status": "proved",
   "theorems": [
    "output_is_complete",
    "input_is_delivered",
    "console_output_not_captured",
    "exchange_ends",
    "exchange_without_input_ends",
    "exchange_with_input_read_first_ends",
    "output_text_exact",
    "output_text_is_utf8",
    "exchange_always_ends_refuted",
    "unread_input_is_harmless_refuted",
    "report_follows_exit_refuted"
   ],
   "note": "Pipes of any capacity, arbitrary programs of the processes. Cancellation is not part of this model."
  },
  {
   "property": "C59",
   "status": "proved",
   "theorems": [
    "mirror_file_exact",
    "message_complete",
    "message_never_given_up",
    "flush_fails_for_a_reason",
    "panic_for_a_reason",
    "console_mirrors",
    "console_complete_refuted",
    "console_not_repeated_refuted",
    "message_contiguous_refuted",
    "graph_keeps_its_file_refuted",
    "logging_turned_off_refuted",
    "message_without_file_refuted",
    "failed_constructor_harmless_refuted"
   ],
   "note": "For any results of the writes. The console theorem needs that nothing fails and no write is short."
  },
  {
   "property": "C60",
   "status": "proved",
   "theorems": [
    "socket_names_recognized",
    "only_stale_sockets_removed",
    "running_sockets_kept",
    "stale_sockets_removed",
    "other_sockets_kept_refuted",
    "reused_number_refuted",
    "two_calls_refuted",
    "cleaning_goes_on_refuted"
   ],
   "note": "One system call at a time. running_sockets_kept needs the stated conditions, without which it is refuted."
  },
  {
   "property": "C61",
   "status": "proved",
   "theorems": [
    "console_shows",
    "progress_grows",
    "each_task_reported_once",
    "successes_shown",
    "failures_shown",
    "all_counted",
    "prints_along",
    "progress_line_readable",
    "progress_line_text",
    "failure_line_text",
    "every_failure_shown_refuted",
    "every_output_shown_refuted"
   ],
   "note": "For totals below 2^32. The messages are taken as printed when rawlog! is called; what becomes of them is C59."
  },
  {
   "property": "C62",
   "status": "proved",
   "theorems": [
    "hooks_go_along",
    "hooks_are_called",
    "postamble_once",
    "postamble_last",
    "postamble_arguments",
    "report_calls_postamble",
    "preamble_before_process",
    "preamble_before_postamble",
    "preamble_after_dependencies",
    "preamble_at_most_twice",
    "postamble_of_started_tasks",
    "preamble_once_refuted",
    "postamble_always_refuted",
    "failing_postamble_forgets",
    "failing_preamble_blocks_end"
   ],
   "note": "Each task is taken to have both capsules; they return 0 except in the last two theorems."
  },
  {
   "property": "C63",
   "status": "proved",
   "theorems": [
    "provisioner_started_right",
    "history_of_the_provisioner",
    "no_provisioner_left",
    "no_use_after_free",
    "cancelled_call_ends",
    "call_bounded",
    "returns_for_a_reason",
    "interrupted_for_a_reason",
    "token_determines_number",
    "token_fits_header",
    "address_determines_port",
    "address_text",
    "provisioner_cleans_up_refuted",
    "no_use_after_free_serve_refuted",
    "no_use_after_free_admin_refuted",
    "call_without_server_ends_refuted"
   ],
   "note": "The full claim that nothing uses freed memory is false without its two conditions; both exceptions are shown."
  },
  {
   "property": "C64",
   "status": "proved",
   "theorems": [
    "disconnected_runner_has_stopped",
    "live_runner_goes_on",
    "live_task_not_disconnected",
    "healthy_connection",
    "no_runner_without_pong",
    "disconnected_runner_has_stopped_refuted"
   ],
   "note": "The first claim needs its bound on the way back; without it it is refuted."
  },
  {
   "property": "C65",
   "status": "proved",
   "theorems": [
    "load_modes",
    "other_modes_refused",
    "write_logfile_total",
    "write_logfile_appends",
    "copy_of_log",
    "compacted_log",
    "written_log_opens_refuted"
   ],
   "note": "That a written log can be opened is false when headers differ: refuted."
  },
  {
   "property": "C66",
   "status": "proved",
   "theorems": [
    "slurm_report",
    "alarm_raised",
    "alarm_answered",
    "no_false_alarm",
    "unmodified_file_unnoticed",
    "disconnect_message_filled",
    "error_logfile_filled",
    "no_job_no_logfile",
    "disconnect_message_filled_refuted",
    "no_false_alarm_refuted",
    "alarm_raised_refuted",
    "last_line_reported_refuted"
   ],
   "note": "The conditions of the claims are needed: refutations without them."
  },
  {
   "property": "C67",
   "status": "proved",
   "theorems": [
    "caller_survives",
    "processes_of_tasks_terminated",
    "others_spared",
    "ctrl_c_reaches_leader",
    "no_end_by_sigterm",
    "others_spared_refuted",
    "own_helper_spared_refuted",
    "ctrl_c_reaches_caller_refuted",
    "sigterm_ends_caller_refuted",
    "daemons_terminated_refuted"
   ],
   "note": "The conditions of the claims are needed: refutations without them."
  },
  {
   "property": "C68",
   "status": "proved",
   "theorems": [
    "session_progress_grows",
    "progress_within_tasks",
    "only_execute_prints",
    "normal_end_not_cut_short",
    "every_history_prints",
    "printed_is_history",
    "session_progress_grows_refuted",
    "reused_tasks_counted_refuted"
   ],
   "note": "That the numbers always grow is false after an interrupted call: refuted."
  },
  {
   "property": "C69",
   "status": "proved",
   "theorems": [
    "report_not_lost",
    "silent_runner_fails_its_task",
    "server_alone_takes_tasks_back"
   ],
   "note": "Induction over the tracker for the queue of reports; the theorem about the reaper (C30) is carried over through the combined system; for the last one, 255 turns of the reaper are shown to be possible from any such state and to be accepted by the tracker."
  },
  {
   "property": "C70",
   "status": "proved",
   "theorems": [
    "fleet_runs_are_joint_runs",
    "command_attempted_at_most_once",
    "not_locally_and_remotely",
    "finished_status_true",
    "finished_report_true",
    "started_message_true",
    "spawned_after_dependencies",
    "spawned_after_commands_exited",
    "fleet_messages_accepted"
   ],
   "note": "The statements about statuses and messages assume that no transaction id is drawn twice (32 random bits); what happens otherwise is a finding of C31."
  },
  {
   "property": "C71",
   "status": "proved",
   "theorems": [
    "runner_report_accepted",
    "task_kept_or_reported",
    "fleet_at_rest_all_reported",
    "taken_task_ends"
   ],
   "note": "Assumes that no transaction id is drawn twice and that the reaper has not panicked; that both can happen, and lose tasks, is shown by the refutations of C31."
  },
  {
   "property": "C72",
   "status": "proved",
   "theorems": [
    "log_is_transcript",
    "final_log_is_transcript",
    "ready_lines_exact",
    "finished_line_true",
    "end_recorded",
    "started_line_true",
    "started_line_complete_refuted",
    "remote_reports_are_messages",
    "remote_end_recorded",
    "remote_finished_line_true",
    "fleet_finished_line_true",
    "fleet_end_recorded",
    "fleet_started_line_true",
    "local_reports_true",
    "local_finished_line_true",
    "local_started_line_true",
    "local_process_recorded",
    "dropped_task_recorded",
    "local_kill_recorded"
   ],
   "note": "Beginnings that are read only in the final clean-up are recorded without their host: refuted that they always are."
  },
  {
   "property": "C73",
   "status": "proved",
   "theorems": [
    "flushed_survives_kill",
    "killed_in_bytes",
    "flushed_success_is_final",
    "processed_success_is_final_refuted"
   ],
   "note": "For the death of the process, not of the machine: nothing calls fsync. The refutation shows that without a tick even a processed success can be lost."
  },
  {
   "property": "C74",
   "status": "proved",
   "theorems": [
    "tasks_listed",
    "task_as_added",
    "unknown_task_refused"
   ],
   "note": ""
  },
  {
   "property": "C75",
   "status": "proved",
   "theorems": [
    "info_is_current",
    "limit_is_current",
    "posted_info_is_shown",
    "posted_limit_is_shown",
    "shutdown_in_effect",
    "shutdown_only_if_asked",
    "answers_follow_requests",
    "own_post_shown_refuted",
    "asked_shutdown_refuted"
   ],
   "note": "The other fields of the answer are C09 and C39. Example mg_run meets the hypotheses."
  },
  {
   "property": "C76",
   "status": "proved",
   "theorems": [
    "live_log_reads",
    "live_outdated_not_in_use",
    "finished_not_outdated",
    "live_outdated_before_tick_refuted",
    "outdated_outside_target_refuted"
   ],
   "note": "LiveProps.v, over FlushModel.v, ToolModel.v and SessionModel.v. Refuted, with witnesses: before the first flush of the call the records of a task that is passed over are listed as outdated; with a target, so are those of a task of the session that has succeeded and that the target does not depend on, and the next call relies on them. Examples lv_reads and lv_finished meet the hypotheses."
  },
  {
   "property": "C77",
   "status": "proved",
   "theorems": [
    "all_have_succeeded",
    "workflow_completed",
    "workflow_completed_first",
    "completed_runs_nothing",
    "workflow_completed_when_stopped_refuted",
    "workflow_completed_without_rerun_refuted"
   ],
   "note": "CompleteProps.v, over SessionModel.v. Refuted, with witnesses: a call that is told to stop may report no failures although nothing was run; so may a call without rerun_failures if the log has failures of its tasks."
  },
  {
   "property": "C78",
   "status": "proved",
   "theorems": [
    "successes_of_execute",
    "successes_step",
    "success_has_run",
    "success_counts_once",
    "success_counts_killed_refuted"
   ],
   "note": "SuccessProps.v, over SessionModel.v. Refuted, with a witness: a success that was not yet flushed is lost with a process that is killed."
  },
  {
   "property": "C79",
   "status": "proved",
   "theorems": [
    "failures_of_execute",
    "no_failures_iff",
    "finished_record_has_report",
    "ready_record_has_attempt",
    "started_record_was_taken",
    "backref_refers_to_report"
   ],
   "note": "VerdictProps.v, over SessionModel.v."
  }
 ]
}