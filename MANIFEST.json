{
 "claims": [
  {
   "property": "C01",
   "status": "proved",
   "theorems": [
    "C01_points_without_ids_are_appended",
    "C01_points_without_ids_are_accepted",
    "C01_points_with_ids_go_to_their_rows",
    "C01_points_with_ids_accepted_iff_no_gap",
    "C01_sim_id_is_row_number",
    "C01_sim_return_can_break_ids_refuted",
    "C01_negative_id_point_is_lost_refuted"
   ],
   "note": "Holds when simulators do not return a sim_id column and ids are not negative; both exceptions are exhibited by _refuted theorems."
  },
  {
   "property": "C02",
   "status": "proved",
   "theorems": [
    "C02_growth_keeps_rows",
    "C02_used_rows_fit_and_trim_is_exact"
   ],
   "note": ""
  },
  {
   "property": "C03",
   "status": "proved",
   "theorems": [
    "C03_counters_agree_with_flags",
    "C03_informed_counter_refuted"
   ],
   "note": "Started and ended counters proved; the informed counter is refuted by a witness."
  },
  {
   "property": "C04",
   "status": "proved",
   "theorems": [
    "C04_status_flags_never_cleared",
    "C04_result_changes_only_its_rows_and_fields",
    "C04_result_is_stored",
    "C04_returned_rows_are_marked_ended"
   ],
   "note": "Safe mode is assumed for flags; without it user data may clear them."
  },
  {
   "property": "C05",
   "status": "proved",
   "theorems": [
    "C05_H0_values_are_kept",
    "C05_H0_without_status_counts_as_done",
    "C05_rest_is_blank",
    "C05_counters_start_at_H0",
    "C05_sim_max_zero_overwrites_H0_refuted",
    "C05_sim_ended_without_sim_started_overwritten_refuted"
   ],
   "note": "sim_max = 0 and sim_ended without sim_started are exhibited by _refuted theorems."
  },
  {
   "property": "C06",
   "status": "proved",
   "theorems": [
    "C06_orders_only_below_sim_max",
    "C06_total_points_sent"
   ],
   "note": "Run-level trace theorem over all iterations, messages and shutdowns; the bound with units of b points is tight (example)."
  },
  {
   "property": "C07",
   "status": "proved",
   "theorems": [
    "C07_stop_test",
    "C07_unknown_stop_key",
    "C07_nan_never_stops",
    "C07_sim_max_counts_results",
    "C07_no_order_after_criterion"
   ],
   "note": "Stop test characterised for every state; result counting is a run invariant."
  },
  {
   "property": "C08",
   "status": "proved",
   "theorems": [
    "C08_only_free_workers_get_work",
    "C08_other_orders_raise"
   ],
   "note": "Trace theorem for all runs plus: any other order raises with no effect. An order for key 0 without gen_on_manager reaches the last worker (see C45)."
  },
  {
   "property": "C09",
   "status": "proved",
   "theorems": [
    "C09_busy_exactly_while_an_order_is_out",
    "C09_each_order_answered_once"
   ],
   "note": "All interleavings of manager and worker steps of SystemModel.v; non-persistent orders, user functions that neither send nor receive and do not return status 20."
  },
  {
   "property": "C10",
   "status": "proved",
   "theorems": [
    "C10_kill_pass_signals_exactly_the_cancelled_running",
    "C10_no_row_is_signalled_twice"
   ],
   "note": ""
  },
  {
   "property": "C11",
   "status": "proved",
   "theorems": [
    "C11_window_covers_running",
    "C11_window_misses_running_refuted"
   ],
   "note": "Proved for increasing give-out; refuted in general."
  },
  {
   "property": "C12",
   "status": "proved",
   "theorems": [
    "C12_free_counts_are_exact",
    "C12_assignment_gives_unheld_sets",
    "C12_release_frees_exactly_the_workers_sets",
    "C12_all_released_all_free",
    "C12_repeated_set_refuted"
   ],
   "note": "A team that lists a set twice corrupts the counters (_refuted)."
  },
  {
   "property": "C13",
   "status": "partial",
   "theorems": [
    "C13_conflict_detected_refuted",
    "C13_assignment_error_partial"
   ],
   "note": "The claim as stated is false of the code: see C13_conflict_detected_refuted. The partial theorem says which errors are raised and that no holder loses a set."
  },
  {
   "property": "C14",
   "status": "proved",
   "theorems": [
    "C14_teams_are_free_and_disjoint",
    "C14_team_fits_request",
    "C14_exact_when_divisible"
   ],
   "note": "Reachable tables: distinct node names, gpus_per_group not 0. The order of set iteration is an arbitrary permutation oracle."
  },
  {
   "property": "C15",
   "status": "proved",
   "theorems": [
    "C15_same_number_on_every_node",
    "C15_same_slots_on_every_node"
   ],
   "note": ""
  },
  {
   "property": "C16",
   "status": "proved",
   "theorems": [
    "C16_only_documented_errors",
    "C16_fits_one_node_is_granted",
    "C16_idle_equal_nodes_grant_everything",
    "C16_idle_unequal_nodes_refuted",
    "C16_repeated_node_name_refuted"
   ],
   "note": "Two limits are exhibited: unequal nodes and repeated node names."
  },
  {
   "property": "C17",
   "status": "proved",
   "theorems": [
    "C17_even_groups",
    "C17_even_groups_defined"
   ],
   "note": ""
  },
  {
   "property": "C18",
   "status": "proved",
   "theorems": [
    "C18_sets_share_nodes_fairly",
    "C18_split_fails_only_without_sets_or_nodes",
    "C18_places_are_distinct"
   ],
   "note": ""
  },
  {
   "property": "C19",
   "status": "proved",
   "theorems": [
    "C19_default_sets_in_worker_order",
    "C19_default_sets_distinct"
   ],
   "note": ""
  },
  {
   "property": "C20",
   "status": "proved",
   "theorems": [
    "C20_least_sufficient_number",
    "C20_none_per_set"
   ],
   "note": ""
  },
  {
   "property": "C21",
   "status": "proved",
   "theorems": [
    "C21_units_are_sound",
    "C21_unit_contents",
    "C21_generators_last",
    "C21_nothing_after_stop",
    "C21_sets_disjoint_and_free",
    "C21_no_worker_left_idle",
    "C21_best_points_first",
    "C21_only_slow_sims_cancelled",
    "C21_nan_priority_gives_empty_unit_refuted"
   ],
   "note": "NaN priorities with batches refuted by a witness."
  },
  {
   "property": "C22",
   "status": "proved",
   "theorems": [
    "C22_fast_gives_next_points",
    "C22_fast_never_twice",
    "C22_pregenerated_gives_next_points",
    "C22_row_beyond_history_refuted",
    "C22_one_generator_at_a_time",
    "C22_one_generator_crash_refuted",
    "C22_persistent_units",
    "C22_persistent_discipline",
    "C22_persistent_points_first",
    "C22_simulation_unit_overwritten_refuted"
   ],
   "note": "Rows beyond the history, the IndexError without an idle generator worker and overwritten units are refuted by witnesses."
  },
  {
   "property": "C23",
   "status": "proved",
   "theorems": [
    "C23_all_sim_ended",
    "C23_all_sim_started",
    "C23_all_gen_informed",
    "C23_selection_is_best",
    "C23_selection_exists"
   ],
   "note": ""
  },
  {
   "property": "C24",
   "status": "proved",
   "theorems": [
    "C24_exactly_the_matching_workers",
    "C24_once_and_in_order",
    "C24_initial_table_in_order",
    "C24_error_iff"
   ],
   "note": ""
  },
  {
   "property": "C25",
   "status": "proved",
   "theorems": [
    "C25_local_queue_order",
    "C25_mpi_queue_order",
    "C25_exactly_once_in_order",
    "C25_pushed_back_is_next",
    "C25_thread_messages",
    "C25_second_push_back_loses_first_refuted",
    "C25_mail_check_refuted"
   ],
   "note": "Local (queue/pipe/TCP) and MPI communicators. Refuted parts: double push-back loses a message and mail_flag ignores a pushed-back message for the local one."
  },
  {
   "property": "C26",
   "status": "proved",
   "theorems": [
    "C26_orders_paired_with_data",
    "C26_every_order_reaches_a_function",
    "C26_in_the_ensemble"
   ],
   "note": "Worker alone for any parcel sequence, and in the ensemble for every interleaving."
  },
  {
   "property": "C27",
   "status": "proved",
   "theorems": [
    "C27_persistent_receive_paired",
    "C27_signal_stays_next",
    "C27_order_without_rows_refuted",
    "C27_order_without_rows_hangs_refuted",
    "C27_poll_throws_order_away_refuted"
   ],
   "note": "Proved for orders that list rows and functions that do not use manager_poll; refuted otherwise."
  },
  {
   "property": "C28",
   "status": "proved",
   "theorems": [
    "C28_one_answer_per_order",
    "C28_failure_reported",
    "C28_ends_only_when_told",
    "C28_waits_only_for_messages",
    "C28_return_value_understood",
    "C28_two_record_array_refuted",
    "C28_finish_signal_used_up_refuted"
   ],
   "note": "Any inbox, any user function. Refuted: bare two-record array, consumed finish signal."
  },
  {
   "property": "C29",
   "status": "proved",
   "theorems": [
    "C29_state_consistent",
    "C29_final_is_final",
    "C29_signals_only_by_kill",
    "C29_kill_ends_process",
    "C29_cancel_sends_no_signal_refuted"
   ],
   "note": "Every sequence of poll, wait, kill and cancel calls on every submitted task, MPI or serial executor. Refuted: cancel() sends the process no signal."
  },
  {
   "property": "C30",
   "status": "proved",
   "theorems": [
    "C30_status_tells_how_it_ended",
    "C30_loop_ends",
    "C30_success_reported_as_timeout_refuted",
    "C30_success_reported_as_killed_refuted"
   ],
   "note": "Every submitted task, timeout and signal. Refuted: a task that succeeded can be reported as timed out or killed."
  },
  {
   "property": "C31",
   "status": "proved",
   "theorems": [
    "C31_retries",
    "C31_earlier_attempts_leave_time_refuted"
   ],
   "note": "Any attempt sequence. Refuted for the timer total and ngpus_req, which keep or lose information across retries."
  },
  {
   "property": "C32",
   "status": "proved",
   "theorems": [
    "C32_partition",
    "C32_partition_raises",
    "C32_worker_defaults",
    "C32_task_layout",
    "C32_fewest_nodes",
    "C32_extra_args",
    "C32_zero_procs_refuted",
    "C32_exception_refuted",
    "C32_uneven_exception_refuted"
   ],
   "note": "Full characterisation of task_partition and get_resources, plus the layout, host list and machine file of the launched task. Refuted: zero processes means 'not set'; some impossible requests raise ZeroDivisionError/TypeError instead of the documented exception."
  },
  {
   "property": "C33",
   "status": "proved",
   "theorems": [
    "C33_reads_back",
    "C33_labels_differ",
    "C33_single_row",
    "C33_sim_dirs_differ",
    "C33_sim_gen_differ",
    "C33_worker_dirs_differ",
    "C33_gen_dirs_differ",
    "C33_gen_dirs_shared_refuted"
   ],
   "note": "Labels and directory names as functions of rows, worker, call count and settings; file copying not modelled."
  },
  {
   "property": "C34",
   "status": "proved",
   "theorems": [
    "C34_dicts_round_trip",
    "C34_array_round_trip",
    "C34_plain_dicts",
    "C34_unmap_map",
    "C34_unmap",
    "C34_unmap_map_refuted",
    "C34_given_fields",
    "C34_mapped_refuted",
    "C34_first_decides_refuted",
    "C34_wrong_width"
   ],
   "note": "Both round trips, unmap/map, and the given-dtype path of generator objects, for all points, shapes and mappings. Refuted: map_numpy_array raises for any field outside the mapping; a mapped field already in gen_specs['out'] is never filled (and the first batch adds it there); the first point's types cut later values."
  },
  {
   "property": "C35",
   "status": "proved",
   "theorems": [
    "C35_slurm",
    "C35_range_members",
    "C35_range_once",
    "C35_cobalt",
    "C35_pbs",
    "C35_pbs_once",
    "C35_pbs_once_refuted",
    "C35_lsf",
    "C35_lsf_short",
    "C35_node_file",
    "C35_no_file",
    "C35_two_groups_refuted",
    "C35_truncated_refuted",
    "C35_blank_line_refuted"
   ],
   "note": "Text-level models of all five parsers over character lists, proved against an abstract syntax of node lists; refutations are concrete inputs."
  },
  {
   "property": "C36",
   "status": "proved",
   "theorems": [
    "C36_checkpoints",
    "C36_other_files",
    "C36_crash",
    "C36_crash_refuted",
    "C36_final",
    "C36_final_enabled",
    "C36_stale_refuted"
   ],
   "note": "Disk states after every system call of every save along any history run; torn writes included; two refuted theorems."
  },
  {
   "property": "C37",
   "status": "proved",
   "theorems": [
    "C37_finish_sent_once",
    "C37_exit_flag",
    "C37_nobody_left_working",
    "C37_persistent_workers_stopped_once",
    "C37_results_recorded",
    "C37_finish_sent_after_exception_refuted",
    "C37_final_send_to_receiving_worker_refuted"
   ],
   "note": "Proved for runs that return; refuted for runs whose shutdown itself raises."
  },
  {
   "property": "C38",
   "status": "proved",
   "theorems": [
    "C38_failure_stops_everyone",
    "C38_failure_ends_the_run",
    "C38_finish_sent_exactly_once_refuted"
   ],
   "note": "'Exactly once' is refuted: the finish signal is sent again when the shutdown ends; the caller gets an exception."
  },
  {
   "property": "C39",
   "status": "proved",
   "theorems": [
    "C39_scoped",
    "C39_returns",
    "C39_failed_enter_refuted",
    "C39_unknown_location_refuted"
   ],
   "note": "Refinement of the stack implementation to lexically scoped directories for all programs whose blocks can be entered; two refuted theorems."
  },
  {
   "property": "C40",
   "status": "proved",
   "theorems": [
    "C40_total_is_sum_of_intervals",
    "C40_total_never_decreases",
    "C40_second_stop_counts_again_refuted"
   ],
   "note": "Any number of intervals. Refuted when stop is called twice."
  },
  {
   "property": "C41",
   "status": "proved",
   "theorems": [
    "C41_dedicated_full",
    "C41_dedicated_short",
    "C41_dedicated_cobalt",
    "C41_shared",
    "C41_single",
    "C41_node_file_refuted",
    "C41_full_names_refuted",
    "C41_node_zero_refuted"
   ],
   "note": "add_comm_info and the abbreviation rules; three refuted theorems where names are written differently."
  },
  {
   "property": "C42",
   "status": "proved",
   "theorems": [
    "C42_generator_cannot_set_protected",
    "C42_simulator_cannot_set_protected",
    "C42_only_bookkeeping_changes_protected"
   ],
   "note": ""
  },
  {
   "property": "C43",
   "status": "proved",
   "theorems": [
    "C43_generated_rows_keep_their_provenance"
   ],
   "note": ""
  },
  {
   "property": "C44",
   "status": "proved",
   "theorems": [
    "C44_worker_slots_agree_on_equal_nodes",
    "C44_worker_slots_unequal_nodes_refuted"
   ],
   "note": "Unequal nodes refuted by a witness."
  },
  {
   "property": "C45",
   "status": "proved",
   "theorems": [
    "C45_only_working_workers_hold_resources",
    "C45_all_resources_returned",
    "C45_order_to_worker_zero_refuted"
   ],
   "note": "Needs orders addressed to existing workers; refuted for Work[0] without gen_on_manager."
  },
  {
   "property": "C51",
   "status": "proved",
   "theorems": [
    "C51_gpus_disjoint",
    "C51_gpus_distinct",
    "C51_gpus_exist",
    "C51_uneven_refuted",
    "C51_mixed_team_refuted"
   ],
   "note": "Disjointness and count hold for all platforms with distinct node names. Existence needs even sets, no group size, GPU-only team; refuted otherwise."
  },
  {
   "property": "C52",
   "status": "proved",
   "theorems": [
    "C52_no_oversubscription",
    "C52_unbounded_refuted"
   ],
   "note": "Holds with the bounds enforced or default counts; refuted without."
  },
  {
   "property": "C53",
   "status": "proved",
   "theorems": [
    "C53_gpu_count",
    "C53_generator_counts",
    "C53_generator_procs",
    "C53_per_task_zero_refuted",
    "C53_platform_option_refuted"
   ],
   "note": "Refuted: gpus-per-task of 0 when ranks outnumber GPUs; platform-named option rejected by runners without default."
  },
  {
   "property": "C54",
   "status": "proved",
   "theorems": [
    "C54_completed",
    "C54_failed_saved",
    "C54_failed_raised",
    "C54_never_silent",
    "C54_team_ended",
    "C54_processes_never_block",
    "C54_results_in_dump",
    "C54_one_failure_refuted",
    "C54_threads_block_refuted"
   ],
   "note": "All runs of the manager model composed with the driver. Refuted: a worker whose main raises at the end makes libE raise after a complete run and leaves the workers after it running; with threads the timeout does not bound the wait. Abstracted: a process is always ended by SIGTERM."
  },
  {
   "property": "C55",
   "status": "proved",
   "theorems": [
    "C55_results_ingested",
    "C55_points_asked",
    "C55_points_sent",
    "C55_nothing_else_sent",
    "C55_finalized",
    "C55_persistent_only",
    "C55_early_stop_refuted",
    "C55_names_refuted",
    "C55_names_plain"
   ],
   "note": "Proved for every generator when nothing raises. A stop before the first results (TypeError, not finalized) and the names of later results under a mapping are refuted by witnesses."
  },
  {
   "property": "C46",
   "status": "proved",
   "theorems": [
    "C46_ids_listed",
    "C46_otherwise_unchanged",
    "C46_final_send"
   ],
   "note": ""
  },
  {
   "property": "C47",
   "status": "proved",
   "theorems": [
    "C47_table_tells_truth",
    "C47_next_order_finds_the_function",
    "C47_next_order_is_next_in_queue",
    "C47_each_order_answered_once",
    "C47_orders_reach_functions",
    "C47_function_that_does_not_wait_refuted"
   ],
   "note": "Proved over all interleavings for functions with the manners of ConvSpec, with kill_canceled_sims and final_gen_send off and without active_recv. A function that ends without waiting for its next order is refuted by a witness."
  },
  {
   "property": "C48",
   "status": "proved",
   "theorems": [
    "C48_no_deadlock",
    "C48_final_phase_goes_on",
    "C48_final_gen_send_refuted",
    "C48_polling_function_refuted",
    "C48_no_final_status_refuted"
   ],
   "note": "Same setting as C47. Deadlocks with final_gen_send and no rows left, with a persistent function that polls the manager, and with one that returns no final status are proved as witnesses."
  },
  {
   "property": "C49",
   "status": "proved",
   "theorems": [
    "C49_at_rest_at_end"
   ],
   "note": "Same setting as C47, for runs whose final loop ends because nobody is active or persistent."
  },
  {
   "property": "C50",
   "status": "proved",
   "theorems": [
    "C50_driven_is_a_run",
    "C50_default_never_twice",
    "C50_persistent_never_twice",
    "C50_fast_never_twice",
    "C50_pregenerated_never_twice",
    "C50_one_gen_never_twice",
    "C50_fast_H0_points_again_refuted",
    "C50_overwritten_point_again_refuted"
   ],
   "note": "Proved for five allocation functions over all driven runs. fast_alloc re-simulates rows of H0 (refuted); without safe_mode a result that overwrites sim_started makes its point go out again (refuted)."
  },
  {
   "property": "C56",
   "status": "proved",
   "theorems": [
    "C56_loop_never_shared",
    "C56_run_never_shared",
    "C56_table_tells",
    "C56_generator_on_manager_shares_refuted",
    "C56_final_gen_send_shares_refuted"
   ],
   "note": "Proved for five allocation functions over all driven runs, managed and unmanaged. Refuted witnesses: generator on the manager without num_resource_sets shares the last worker's set; the final_gen_send order names a set that a running simulation holds."
  },
  {
   "property": "C57",
   "status": "proved",
   "theorems": [
    "C57_default_gen_limit",
    "C57_fast_gen_limit",
    "C57_one_active_gen",
    "C57_pregenerated_no_gen",
    "C57_persistent_gen_limit"
   ],
   "note": "Proved for five allocation functions over all driven runs."
  },
  {
   "property": "C58",
   "status": "proved",
   "theorems": [
    "C58_default_orders_taken",
    "C58_fast_orders_taken",
    "C58_persistent_orders_taken",
    "C58_default_raises",
    "C58_default_raises_on_messages",
    "C58_persistent_H0_no_in_refuted",
    "C58_batch_nan_priority_refuted"
   ],
   "note": "Orders taken: default, fast and persistent allocation over all driven runs. Reasons for raising: default without resource sets, batch mode and safe mode. The side conditions on gen_specs[\"in\"] and on NaN priorities are shown necessary by two refuted theorems."
  },
  {
   "property": "C59",
   "status": "proved",
   "theorems": [
    "C59_default_generator_calls",
    "C59_default_work_bounded",
    "C59_default_turns_bounded",
    "C59_default_someone_works",
    "C59_default_never_stuck",
    "C59_default_completes",
    "C59_default_run_completes",
    "C59_empty_generator_refuted"
   ],
   "note": "Default allocation function. Bounds on generator calls, orders, answers and turns over all driven runs; progress (someone works or a criterion is met) and absence of a stall; completion with N results. Assumes answers match orders, results cancel nothing and overwrite no protected column, and each generator call brings a point; the last condition is shown necessary by a refuted theorem."
  },
  {
   "property": "C60",
   "status": "proved",
   "theorems": [
    "C60_stop_test_never_fails",
    "C60_stop_checked",
    "C60_fields_with_H0",
    "C60_accepted_H0_orders_taken",
    "C60_vocs_fields",
    "C60_explicit_fields_kept",
    "C60_explicit_gen_fields_kept",
    "C60_H0_nothing_open",
    "C60_settings_agree",
    "C60_settings_kept",
    "C60_comms_picked",
    "C60_workers",
    "C60_validation_stable",
    "C60_gen_validation_stable",
    "C60_libE_validation_stable",
    "C60_only_messages_fail",
    "C60_inputs_without_H0_refuted",
    "C60_alloc_fields_refuted",
    "C60_shapes_refuted",
    "C60_no_worker_refuted",
    "C60_current_dir_refuted"
   ],
   "note": "Validators of sim_specs, gen_specs, libE_specs, exit criteria and H0. Proved: accepted exit criteria never make the exit test fail; with H0 or with a VOCS all fields asked for are columns; accepted H0 leaves nothing under way; settings agree, are kept and stable under repeated validation; an accepted default run fails only on a message or kill signal. The checks that do not catch what they are meant to catch are refuted theorems. pydantic types are not modelled."
  },
  {
   "property": "C61",
   "status": "proved",
   "theorems": [
    "C61_fd_sound",
    "C61_fd_complete_pairs",
    "C61_fd_flows",
    "C61_fd_shutdown",
    "C61_fd_oldest_first",
    "C61_fd_one_start",
    "C61_fd_surplus_kept_back_refuted",
    "C61_fd_no_worker_crash_refuted",
    "C61_aposmm_first_call",
    "C61_aposmm_sound",
    "C61_aposmm_in_order",
    "C61_aposmm_sample_first",
    "C61_aposmm_run",
    "C61_bayes_sound",
    "C61_bayes_last_batch",
    "C61_bayes_flows",
    "C61_bayes_whole_subbatch",
    "C61_bayes_all_busy",
    "C61_bayes_one_start",
    "C61_bayes_weights",
    "C61_bayes_other_points_refuted",
    "C61_local_opt_sound",
    "C61_local_opt_orders",
    "C61_local_opt_worker_left",
    "C61_local_opt_runs_first",
    "C61_local_opt_flows",
    "C61_local_opt_run_lost_refuted",
    "C61_local_opt_sim_displaced_refuted",
    "C61_local_opt_unevaluated_refuted",
    "C61_local_opt_no_team_refuted"
   ],
   "note": "One call of each function, and whole sequences of calls of persistent_aposmm_alloc. The distance and starting-point computations of the local runs are arbitrary inputs. Eight refuted claims: surplus finite-difference results never sent, IndexError without a free worker, ValueError with points of others (inverse Bayes), runs recorded as started whose order is overwritten, simulations displaced by the order for new points, never-evaluated points returned to a run, rset_team=[] not honoured."
  },
  {
   "property": "C62",
   "status": "proved",
   "theorems": [
    "C62_one_call",
    "C62_num_gens",
    "C62_batch_complete",
    "C62_never_twice",
    "C62_nan_stops_point",
    "C62_batch_keeps_all",
    "C62_point_lost_refuted",
    "C62_nan_later_rows_refuted",
    "C62_cancelled_given_refuted",
    "C62_H0_again_refuted"
   ],
   "note": "One call and whole runs. The statistical rule for stop_partial_fvec_eval is an arbitrary input. Four refuted claims: a point lost outside batch mode, components added to paused points, cancelled points, evaluated points of H0."
  },
  {
   "property": "C63",
   "status": "proved",
   "theorems": [
    "C63_fd_never_twice",
    "C63_bayes_never_twice",
    "C63_local_opt_never_twice",
    "C63_aposmm_never_twice",
    "C63_pausing_never_twice",
    "C63_loop_never_shared",
    "C63_run_never_shared",
    "C63_table_tells"
   ],
   "note": "Driven runs of the five functions of C61 and C62. The numerical parts are arbitrary inputs at every call. For the pausing function results must not renumber points; for the first three, results leave the protected columns alone or safe_mode is on."
  },
  {
   "property": "C64",
   "status": "proved",
   "theorems": [
    "C64_inputs_delivered",
    "C64_only_inputs_change",
    "C64_new_directory_changes_nothing_else",
    "C64_directories_not_reused",
    "C64_directories_copied_back",
    "C64_other_files_copied_back",
    "C64_copying_back_changes_nothing_else",
    "C64_copying_back_succeeds",
    "C64_links_written_through_refuted",
    "C64_shared_generator_directory_refuted",
    "C64_files_named_like_directories_refuted",
    "C64_copied_directories_stale_refuted",
    "C64_inputs_of_one_name_refuted"
   ],
   "note": "Ten theorems over all file systems and settings. The refuted theorems show where the distinct-names and no-links hypotheses are needed and where the code loses files: links are written through, two generator workers share a directory, files named like simulation directories and directories already copied by another worker are skipped, two inputs of one name."
  },
  {
   "property": "C65",
   "status": "proved",
   "theorems": [
    "C65_points_handed_out_once",
    "C65_minima_reported",
    "C65_no_more_than_asked",
    "C65_sample_kept_back",
    "C65_sample_handed_over",
    "C65_sample_under_its_ids",
    "C65_rounds_succeed",
    "C65_result_is_the_generators",
    "C65_finalize_stops",
    "C65_later_results_need_numbers",
    "C65_request_after_the_end_raises",
    "C65_unnumbered_sample_refuted",
    "C65_sample_renumbered_refuted",
    "C65_larger_sample_refuted",
    "C65_two_requests_refuted",
    "C65_rest_repeated_refuted",
    "C65_ended_repeats_refuted",
    "C65_setup_refuted",
    "C65_early_request_refuted"
   ],
   "note": "The model covers every sequence of calls on the object; the generator function is any function from the messages in its inbox to those in its outbox. Statements that are false are refuted: a sample without numbers is told under number 0, a sample returned in another order is renumbered, a batch larger than what the sample lacks is refused, two requests before any result raise TypeError, suggest() after suggest(n) repeats points, a request after the end repeats the last batch, setup() first makes suggest wait for ever, and so does a request in the middle of a user's own sample."
  },
  {
   "property": "C66",
   "status": "proved",
   "theorems": [
    "C66_points_relayed_once",
    "C66_results_reach_the_function",
    "C66_in_step_never_fails",
    "C66_stop_ends_the_run",
    "C66_result_is_the_functions",
    "C66_two_batches_at_once_refuted",
    "C66_early_stop_unnoticed_refuted",
    "C66_stop_before_results_refuted",
    "C66_stop_lost_in_the_sample_refuted",
    "C66_last_results_unread_refuted",
    "C66_own_end_refuted",
    "C66_result_rows_unused_refuted",
    "C66_few_rows_at_the_start_refuted"
   ],
   "note": "Built on the model of C65; polling is any sequence of turns. Statements that are false are refuted: two batches at once raise RuntimeError, a stop with the first answer is not noticed, a stop signal instead of it raises AttributeError, a stop with rows in the sample is lost, the last rows with the stop are never read by the function, a function that ends by itself makes the worker raise, the function's result rows are never used, and starting with fewer rows than the sample waits for ever."
  },
  {
   "property": "C67",
   "status": "proved",
   "theorems": [
    "C67_runs_start_where_documented",
    "C67_first_runs_start_where_documented",
    "C67_every_promising_point_is_started",
    "C67_best_points_first",
    "C67_results_reach_their_run",
    "C67_one_run_per_point",
    "C67_at_most_max_active_runs",
    "C67_new_points_and_optima_are_sent",
    "C67_first_batch",
    "C67_workers_stay_busy",
    "C67_first_pass_fills_the_workers",
    "C67_user_sample_points_in_order",
    "C67_sample_count",
    "C67_minima",
    "C67_no_failure",
    "C67_stops",
    "C67_active_runs_not_negative_refuted",
    "C67_equally_good_points_start_refuted",
    "C67_given_points_known_to_aposmm_refuted",
    "C67_paused_points_are_left_alone_refuted",
    "C67_converged_at_once_refuted",
    "C67_stop_while_waiting_for_sample_refuted",
    "C67_sample_count_is_exact_refuted",
    "C67_runs_start_with_lhs_divisions_refuted"
   ],
   "note": "The main loop of APOSMM with arbitrary metric, radius, draws and optimizers, over all reachable states. Not covered: the optimizers themselves and their processes. Eight refuted statements are listed under Findings."
  },
  {
   "property": "C68",
   "status": "proved",
   "theorems": [
    "C68_replies",
    "C68_replies_of_the_optimizer",
    "C68_values_arrive_once",
    "C68_nobody_reads_their_own",
    "C68_every_call_returns",
    "C68_every_call_is_answered",
    "C68_closed_means_gone",
    "C68_destroy",
    "C68_values_fit_the_method",
    "C68_crash_is_noticed_refuted",
    "C68_no_process_left_refuted"
   ],
   "note": "All interleavings of the two processes and the queue's threads, any optimizer. The optimizers' numerical libraries are not modelled; two refuted statements are under Findings."
  },
  {
   "property": "C69",
   "status": "proved",
   "theorems": [
    "C69_one_point_per_result",
    "C69_stops",
    "C69_one_point_per_result_var_priorities",
    "C69_nonblocking_is_the_same",
    "C69_shutdown_at_the_limit",
    "C69_cancellations",
    "C69_cancellations_stop",
    "C69_cancelled_points_were_sent_refuted",
    "C69_every_corner_once",
    "C69_final_means",
    "C69_nan_in_the_means_refuted"
   ],
   "note": "Any random stream and any division of the results into messages. Two refuted statements are under Findings."
  },
  {
   "property": "C70",
   "status": "proved",
   "theorems": [
    "C70_latin_hypercube",
    "C70_components",
    "C70_components_raises",
    "C70_components_same_history_refuted",
    "C70_gpus",
    "C70_gpus_at_the_bound_refuted",
    "C70_best_points",
    "C70_best_points_any_order_refuted",
    "C70_weights",
    "C70_fewer_results_refuted"
   ],
   "note": "Exact arithmetic: rounding is not modelled. Refuted statements are under Findings."
  },
  {
   "property": "C71",
   "status": "proved",
   "theorems": [
    "C71_arrays_are_right",
    "C71_cancellations",
    "C71_values_in_their_cells",
    "C71_results_at_hand",
    "C71_raises_only",
    "C71_values_in_their_cells_refuted",
    "C71_every_result_recorded_refuted",
    "C71_cancelled_not_returned_refuted"
   ],
   "note": "Any emulator (an oracle) and any arrival of results. Three refuted statements (values in wrong cells, results lost, results at hand cancelled) are under Findings."
  },
  {
   "property": "C72",
   "status": "proved",
   "theorems": [
    "C72_mesh",
    "C72_mesh_points_apart",
    "C72_eligible",
    "C72_search",
    "C72_search_ends",
    "C72_search_ends_refuted",
    "C72_search_ends_on_the_mesh_refuted",
    "C72_largest_variance",
    "C72_too_many_asked_for",
    "C72_largest_variance_function_refuted",
    "C72_variances_in_groups",
    "C72_told",
    "C72_told_by_the_function",
    "C72_told_by_the_function_refuted"
   ],
   "note": "Any distance and variance; exact rationals. Four refuted statements (search does not end twice, redrawn candidates, results in another order) are under Findings."
  },
  {
   "property": "C73",
   "status": "proved",
   "theorems": [
    "C73_batch",
    "C73_run",
    "C73_two_variables_only",
    "C73_even_only",
    "C73_batches_not_empty_refuted"
   ],
   "note": "Any noise estimator (a function of the data) and any objective. One refuted statement (an empty batch is sent) is under Findings."
  },
  {
   "property": "C74",
   "status": "proved",
   "theorems": [
    "C74_command_line",
    "C74_additional_workers_refuted",
    "C74_resource_sets_passed_on_refuted",
    "C74_parsed_arguments_are_used",
    "C74_communication_is_kept",
    "C74_runs",
    "C74_assignment_to_specs",
    "C74_workers_assigned",
    "C74_workers_of_the_run",
    "C74_ensembles_are_separate_refuted",
    "C74_runs_without_specs_refuted",
    "C74_dictionary_with_parsed_arguments_refuted",
    "C74_assigned_object_is_used_refuted",
    "C74_object_with_workers_refuted",
    "C74_workers_agree_refuted",
    "C74_threads_save_refuted",
    "C74_random_streams",
    "C74_streams_differ",
    "C74_settings_from_a_file",
    "C74_no_clash_is_left_refuted"
   ],
   "note": "Programs over any number of ensembles, with shared objects. The theorem that communication is kept excludes libE_specs=None and parsed arguments with an object another ensemble has; both are refuted under Findings."
  },
  {
   "property": "C75",
   "status": "proved",
   "theorems": [
    "C75_signals_since_the_order",
    "C75_poll",
    "C75_pass_signals_the_right_worker",
    "C75_signal_was_meant_for_it",
    "C75_no_kills_unless_asked",
    "C75_reserved_status_refuted"
   ],
   "note": "Orders are single calculations (not persistent). The allocation function may edit the history shown to it except sim_started, sim_worker and sim_ended, and safe_mode is on; user functions do not use status 11, 12 or 20 (refuted otherwise for 11)."
  },
  {
   "property": "C76",
   "status": "proved",
   "theorems": [
    "C76_persistent_never_stuck",
    "C76_persistent_someone_works",
    "C76_persistent_results_once",
    "C76_persistent_work_bounded",
    "C76_persistent_turns_bounded",
    "C76_persistent_completes",
    "C76_persistent_run_completes",
    "C76_empty_message_refuted",
    "C76_too_few_workers_refuted"
   ],
   "note": "Without resource sets, active receive mode, alt_type and H0, with sim_ids left to libEnsemble and no cancellations; generators send at least one point with each message (refuted otherwise) and a worker is left for simulations (refuted otherwise). The bound on orders is for give_all_with_same_priority off."
  },
  {
   "property": "C77",
   "status": "proved",
   "theorems": [
    "C77_own_channel",
    "C77_next_message",
    "C77_team_complete",
    "C77_worker_numbers_refuted",
    "C77_same_id_refuted",
    "C77_extra_worker"
   ],
   "note": "Workers have different workerIDs (refuted otherwise). That worker i of the manager is the process with workerID i is refuted."
  },
  {
   "property": "C78",
   "status": "proved",
   "theorems": [
    "C78_results_at_their_points",
    "C78_one_run_per_point",
    "C78_returns",
    "C78_type_error_runs_twice_refuted",
    "C78_missing_objective_refuted"
   ],
   "note": "Values are those of MapModel (integers, floats as thousandths, text)."
  },
  {
   "property": "C79",
   "status": "proved",
   "theorems": [
    "C79_first_tool",
    "C79_detected",
    "C79_node_numbers",
    "C79_no_probe",
    "C79_zero_gpus_refuted",
    "C79_zero_platform_refuted",
    "C79_half_cores_refuted",
    "C79_match_slots",
    "C79_runner",
    "C79_foreign_command_refuted",
    "C79_second_run_refuted",
    "C79_which_platform",
    "C79_platform",
    "C79_detection_safe",
    "C79_user_specs",
    "C79_known_kept",
    "C79_known_lost",
    "C79_specs_added_refuted",
    "C79_match_slots_reset_refuted"
   ],
   "note": "Refuted: that platform_specs only adds to the known platform when given to libE directly; that 0 GPUs is respected; that a half-given cores_on_node is completed from the platform; that command and kind of the runner belong together; that a reused executor follows the new platform."
  },
  {
   "property": "C80",
   "status": "proved",
   "theorems": [
    "C80_command_line",
    "C80_directory",
    "C80_application",
    "C80_quotes_refuted",
    "C80_msmpi_hosts_refuted",
    "C80_env_script",
    "C80_script_end_refuted",
    "C80_environment",
    "C80_leftover_refuted",
    "C80_threads_refuted"
   ],
   "note": "Refuted: that quoting works in app_args and extra_args, that a path may have blanks, that MS-MPI uses the hosts, that any env_script works, that variables of a task end with it, and that worker threads keep their variables apart."
  },
  {
   "property": "C81",
   "status": "proved",
   "theorems": [
    "C81_alone",
    "C81_task",
    "C81_directory",
    "C81_statistics",
    "C81_messages",
    "C81_poll",
    "C81_names",
    "C81_threads_task_refuted",
    "C81_threads_poll_refuted",
    "C81_threads_end_refuted",
    "C81_threads_directory_refuted",
    "C81_threads_statistics_refuted",
    "C81_threads_zero_refuted",
    "C81_second_call_refuted"
   ],
   "note": "Refuted for comms=\"threads\": own number, resource sets, directory, signals, orders and statistics. Refuted across libE calls with local processes: distinct task names."
  },
  {
   "property": "C82",
   "status": "proved",
   "theorems": [
    "C82_records",
    "C82_manager_records",
    "C82_statistics",
    "C82_statistics_level_refuted",
    "C82_threads_refuted",
    "C82_prefix",
    "C82_lines_before_results"
   ],
   "note": "Refuted: that libE_stats.txt does not depend on the level; that lines of worker threads carry their number."
  },
  {
   "property": "C83",
   "status": "proved",
   "theorems": [
    "C83_batches",
    "C83_data",
    "C83_best",
    "C83_fit",
    "C83_more_hifi_refuted",
    "C83_async_refuted"
   ],
   "note": "Refuted: the claim without n_opt_hifi <= n_opt_lofi, and with values returned in parts."
  },
  {
   "property": "C84",
   "status": "proved",
   "theorems": [
    "C84_values",
    "C84_result",
    "C84_active",
    "C84_minima",
    "C84_sample",
    "C84_active_refuted",
    "C84_next_run_refuted",
    "C84_twice_refuted"
   ],
   "note": "Refuted: the count for runs that end without an optimum; that a call never fails."
  },
  {
   "property": "C85",
   "status": "proved",
   "theorems": [
    "C85_mapping",
    "C85_made",
    "C85_own",
    "C85_default_refuted",
    "C85_shared_mapping_refuted"
   ],
   "note": "Refuted: the claim for objects that rely on the default gen_specs, and for a mapping that is given to two objects."
  },
  {
   "property": "C86",
   "status": "proved",
   "theorems": [
    "C86_request_marks_exactly_the_named_points",
    "C86_request_leaves_the_run_as_it_is",
    "C86_request_for_the_next_id_adds_a_point_refuted",
    "C86_request_beyond_the_next_id_ends_the_run_refuted",
    "C86_request_for_a_point_of_H0_claims_it_refuted"
   ],
   "note": "Refuted for ids of points that do not exist, and for the provenance fields of points of H0."
  },
  {
   "property": "C87",
   "status": "proved",
   "theorems": [
    "C87_saved_results_can_be_read_back",
    "C87_names_tell_runs_apart",
    "C87_later_saves_of_other_runs_keep_the_files",
    "C87_saved_results_are_found",
    "C87_what_is_found_begins_with_the_name",
    "C87_two_scripts_share_a_name_refuted",
    "C87_returned_name_does_not_exist_refuted",
    "C87_check_finds_results_of_another_script_refuted"
   ],
   "note": "The returned name is right unless append_attrs is off and the short name ends in .npy; refuted otherwise."
  },
  {
   "property": "C88",
   "status": "proved",
   "theorems": [
    "C88_every_worker_has_a_stream_of_its_own",
    "C88_seeds_are_as_documented",
    "C88_other_settings_are_kept",
    "C88_the_ensemble_serves_all_workers",
    "C88_a_generator_object_has_a_stream",
    "C88_workers_with_one_dictionary_share_the_stream_refuted",
    "C88_generator_objects_draw_the_same_numbers_refuted"
   ],
   "note": "Refuted for a persis_info in which two workers share a dictionary, and for the default streams of generator objects."
  },
  {
   "property": "C89",
   "status": "proved",
   "theorems": [
    "C89_replayed_points_end_with_the_recorded_results",
    "C89_recorded_points_are_returned",
    "C89_batches_cannot_be_replayed_refuted"
   ],
   "note": "Refuted for points given out several at a time: mock_sim returns one row only and the manager raises IndexError."
  },
  {
   "property": "C90",
   "status": "proved",
   "theorems": [
    "C90_every_point_gets_its_value_and_gradient",
    "C90_points_with_two_coordinates_are_evaluated",
    "C90_the_persistent_simulator_answers_every_order",
    "C90_the_components_add_up",
    "C90_the_value_of_a_component",
    "C90_the_gradient_of_all_components",
    "C90_the_gradient_of_one_component",
    "C90_vectors_of_even_length_are_evaluated",
    "C90_every_point_of_a_batch_is_evaluated"
   ],
   "note": "Exact arithmetic: rounding is not modelled."
  },
  {
   "property": "C91",
   "status": "proved",
   "theorems": [
    "C91_status_tells_how_it_ended",
    "C91_the_loop_ends",
    "C91_kill_signal_reported_as_finish_refuted",
    "C91_failed_launch_raises_refuted"
   ],
   "note": "Refuted parts: MAN_SIGNAL_KILL is reported as MAN_SIGNAL_FINISH; a task that failed to start makes the loop raise."
  },
  {
   "property": "C92",
   "status": "proved",
   "theorems": [
    "C92_less_than_50_results_behind",
    "C92_new_minima_are_shown_at_once",
    "C92_new_optimization_points_are_shown_at_once",
    "C92_drawn_for_a_reason",
    "C92_a_minimum_is_never_shown_refuted"
   ],
   "note": "Refuted: a local minimum found later in a low row is never drawn."
  },
  {
   "property": "C93",
   "status": "proved",
   "theorems": [
    "C93_points_are_in_the_domain",
    "C93_batches_do_not_matter",
    "C93_the_two_samplers_agree",
    "C93_no_variables_are_refused",
    "C93_arrays_are_in_the_domain",
    "C93_arrays_are_the_same_points"
   ],
   "note": "Exact arithmetic; random numbers are an arbitrary sequence in [0, 1) fixed by the seed."
  },
  {
   "property": "C94",
   "status": "proved",
   "theorems": [
    "C94_the_simulation_tells_what_happened",
    "C94_raises_only_without_output",
    "C94_killed_reported_as_failed_refuted"
   ],
   "note": "Exact rationals; the true value of the test function is taken to be positive. That the field sim_killed is needed is shown by C94_killed_reported_as_failed_refuted."
  },
  {
   "property": "C95",
   "status": "proved",
   "theorems": [
    "C95_all_residuals",
    "C95_every_batch_is_evaluated",
    "C95_one_residual",
    "C95_nan_frequency",
    "C95_one_at_a_time_is_all_at_once",
    "C95_no_such_residual"
   ],
   "note": "Exact rationals; exp is an arbitrary function and the data arbitrary lists."
  },
  {
   "property": "C96",
   "status": "proved",
   "theorems": [
    "C96_status_of_the_batch",
    "C96_launch_failure_raises",
    "C96_dry_run",
    "C96_value_of_a_failed_run_refuted"
   ],
   "note": "The executor's submit and wait as modelled in ExecutorModel."
  },
  {
   "property": "C97",
   "status": "proved",
   "theorems": [
    "C97_value_after_the_last_occurrence",
    "C97_option_is_the_expected_one",
    "C97_value_after_the_sign",
    "C97_processes_read_back",
    "C97_arguments_are_taken_for_options_refuted",
    "C97_runner_check"
   ],
   "note": "Over the words of the run line. That the condition on the other arguments is needed is shown by C97_arguments_are_taken_for_options_refuted."
  },
  {
   "property": "C98",
   "status": "proved",
   "theorems": [
    "C98_text_names_the_units",
    "C98_no_common_name",
    "C98_named_tiles_exist",
    "C98_empty_text"
   ],
   "note": "Default delimiter, limits that are not negative. Not composed with C51, whose GPU numbers are integers."
  }
 ]
}