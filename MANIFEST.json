{
 "claims": [
  {
   "property": "C01",
   "status": "proved",
   "theorems": [
    "C01_workflow_id",
    "C01_job_id",
    "C01_step_id"
   ],
   "note": "Printed ids parse back to themselves"
  },
  {
   "property": "C02",
   "status": "proved",
   "theorems": [
    "C02_workflow_id_accepts",
    "C02_workflow_id_rejects",
    "C02_job_id_accepts",
    "C02_job_id_rejects",
    "C02_step_id_accepts",
    "C02_step_id_rejects"
   ],
   "note": "Id parsing accepts exactly the documented format"
  },
  {
   "property": "C03",
   "status": "partial",
   "theorems": [
    "C03_job_id_refuted",
    "C03_step_id_refuted",
    "C03_job_id_partial",
    "C03_step_id_partial"
   ],
   "note": "Injectivity of printed ids fails in general because job keys and workflow ids may contain '/': refuted with witnesses; proved when the workflow id has no '/' (and the job key likewise for steps)."
  },
  {
   "property": "C04",
   "status": "proved",
   "theorems": [
    "C04_raise",
    "C04_is_cancelled",
    "C04_is_timeout",
    "C04_never_both"
   ],
   "note": "First signal wins and is permanent"
  },
  {
   "property": "C05",
   "status": "proved",
   "theorems": [
    "C05_delivery"
   ],
   "note": "A raised signal is delivered exactly once"
  },
  {
   "property": "C06",
   "status": "partial",
   "theorems": [
    "C06_wakes_last_poller_partial",
    "C06_all_waiters_refuted"
   ],
   "note": "Refuted for several waiters (one waker slot); proved: the last task that polled is woken."
  },
  {
   "property": "C07",
   "status": "proved",
   "theorems": [
    "C07_unknown_job",
    "C07_registered_job",
    "C07_only_its_own_signal",
    "C07_registered_unique"
   ],
   "note": "cancel_job acts on exactly the running job"
  },
  {
   "property": "C08",
   "status": "proved",
   "theorems": [
    "C08_prefix",
    "C08_C11_poll"
   ],
   "note": "The log stream loses, duplicates and reorders nothing"
  },
  {
   "property": "C09",
   "status": "partial",
   "theorems": [
    "C09_first_end_wins_partial",
    "C09_concurrent_refuted",
    "C09_concurrent_bound",
    "C09_stays_ended"
   ],
   "note": "Refuted for two threads ending at once (check then store); proved for non-overlapping end calls, with a bound for the concurrent case."
  },
  {
   "property": "C10",
   "status": "proved",
   "theorems": [
    "C10_asleep_means_nothing_to_read",
    "C10_woken",
    "C10_end_wakes"
   ],
   "note": "A waiting stream reader is woken"
  },
  {
   "property": "C11",
   "status": "proved",
   "theorems": [
    "C08_C11_poll",
    "C11_drain"
   ],
   "note": "The stream ends iff it was ended"
  },
  {
   "property": "C12",
   "status": "proved",
   "theorems": [
    "C12_filter",
    "C12_order_irrelevant",
    "C12_empty"
   ],
   "note": "Pattern lists: exact matching rule"
  },
  {
   "property": "C13",
   "status": "proved",
   "theorems": [
    "C13_condition"
   ],
   "note": "Condition decision table"
  },
  {
   "property": "C14",
   "status": "partial",
   "theorems": [
    "C14_skip_iff",
    "C14_cache_is_fetched",
    "C14_start_answer",
    "C14_finish_answer",
    "C14_no_fetch_after_success",
    "C14_same_files_partial",
    "C14_same_files_refuted",
    "C14_unsupported_event_never_skips"
   ],
   "note": "The decision table and fail-open rule are proved exactly; 'later decisions use the same file list' is refuted when two first fetches run concurrently and proved when no other fetch is in flight at the first success."
  },
  {
   "property": "C15",
   "status": "proved",
   "theorems": [
    "C15_accepted_iff",
    "C15_order_irrelevant",
    "C15_rejection_reason",
    "C15_C19_build",
    "C15_C16_built_workflow_shape"
   ],
   "note": "Config acceptance rule"
  },
  {
   "property": "C16",
   "status": "proved",
   "theorems": [
    "C16_keys_and_ids",
    "C16_step_ids_distinct",
    "C16_C17_C18_built_exactly",
    "C15_C16_built_workflow_shape"
   ],
   "note": "Built steps are numbered densely and uniquely"
  },
  {
   "property": "C17",
   "status": "proved",
   "theorems": [
    "C16_C17_C18_built_exactly",
    "C17_expansion_order"
   ],
   "note": "Action expansion order"
  },
  {
   "property": "C18",
   "status": "proved",
   "theorems": [
    "C16_C17_C18_built_exactly",
    "C18_job_settings",
    "C18_step_settings"
   ],
   "note": "Built steps carry the user's settings and the documented defaults"
  },
  {
   "property": "C19",
   "status": "proved",
   "theorems": [
    "C19_action_lookup",
    "C19_builds_iff",
    "C19_failure_cause",
    "C15_C19_build"
   ],
   "note": "Action lookup precedence and build failure"
  },
  {
   "property": "C20",
   "status": "partial",
   "theorems": [
    "C20_self_waiting_jobs_hang",
    "C20_acyclic_or_self_waiting",
    "C20_acyclic_workflows_finish_partial",
    "C20_accepted_config_that_never_finishes_refuted"
   ],
   "note": "Refuted as stated: a config with a dependency cycle among some of its jobs is accepted and its run never ends (C20_accepted_config_that_never_finishes_refuted; in general C20_self_waiting_jobs_hang). Proved: accepted workflows with acyclic dependencies finish (C20_acyclic_workflows_finish_partial with C35_bounded), and every workflow is acyclic or contains a self-waiting set."
  },
  {
   "property": "C21",
   "status": "proved",
   "theorems": [
    "C21_delivery",
    "C21_exactly_once_in_order"
   ],
   "note": "Every event reaches every plugin once, in order, then the runner"
  },
  {
   "property": "C22",
   "status": "proved",
   "theorems": [
    "C22_before_hooks_compose"
   ],
   "note": "before-run-step hooks compose"
  },
  {
   "property": "C23",
   "status": "proved",
   "theorems": [
    "C23_step_life_cycle",
    "C23_nothing_follows",
    "C23_step_life_cycle_prefix"
   ],
   "note": "Step life cycle"
  },
  {
   "property": "C24",
   "status": "proved",
   "theorems": [
    "C24_logs",
    "C24_logs_prefix"
   ],
   "note": "Step logs reach the hooks exactly as sent"
  },
  {
   "property": "C25",
   "status": "proved",
   "theorems": [
    "C25_result",
    "C25_no_missing_result_panic",
    "C25_finishes_once_ended"
   ],
   "note": "Step result mirrors the runner's result"
  },
  {
   "property": "C26",
   "status": "partial",
   "theorems": [
    "C26_idle_timeout_partial",
    "C26_not_early",
    "C26_total_timeout_refuted"
   ],
   "note": "Refuted as stated: the timer is restarted by every log line, so a step that keeps logging never times out. Proved: the idle timeout."
  },
  {
   "property": "C27",
   "status": "proved",
   "theorems": [
    "C27_steps_listen_to_the_jobs_signal",
    "C27_cancelled_job_cancels_the_next_listening_step",
    "C27_listens_to_its_job",
    "C27_forwarding",
    "C27_consumed_once",
    "C27_cancel_reaches_running_step"
   ],
   "note": "Cancellation reaches the running step"
  },
  {
   "property": "C28",
   "status": "proved",
   "theorems": [
    "C28_results"
   ],
   "note": "Job results list every step once, in order"
  },
  {
   "property": "C29",
   "status": "proved",
   "theorems": [
    "C29_which_steps_are_skipped",
    "C29_only_unskipped_steps_reach_the_runner",
    "C29_condition_answers"
   ],
   "note": "Which steps are skipped"
  },
  {
   "property": "C30",
   "status": "proved",
   "theorems": [
    "C30_final_state"
   ],
   "note": "Job final state"
  },
  {
   "property": "C31",
   "status": "proved",
   "theorems": [
    "C31_job_life_cycle",
    "C31_nothing_follows",
    "C31_job_life_cycle_prefix",
    "C31_registration"
   ],
   "note": "Job life cycle"
  },
  {
   "property": "C32",
   "status": "proved",
   "theorems": [
    "C32_dependencies_finish_first",
    "C32_started_after_dependencies"
   ],
   "note": "Dependencies finish first"
  },
  {
   "property": "C33",
   "status": "partial",
   "theorems": [
    "C33_comparable_jobs_start_once_partial",
    "C33_every_job_of_a_finished_run_was_started",
    "C33_job_started_twice_refuted"
   ],
   "note": "Refuted as stated: a waiting job is started again for every result received while it is still running. Proved: once for graphs in which every job with dependencies is comparable with every other; C34 gives the exact number of starts in general."
  },
  {
   "property": "C34",
   "status": "proved",
   "theorems": [
    "C34_what_is_started",
    "C34_number_of_starts"
   ],
   "note": "How often a job is started"
  },
  {
   "property": "C35",
   "status": "proved",
   "theorems": [
    "C35_one_entry_per_job",
    "C35_bounded",
    "C35_never_stuck"
   ],
   "note": "A workflow run completes"
  },
  {
   "property": "C36",
   "status": "proved",
   "theorems": [
    "C36_skipped_iff_not_matched",
    "C36_final_state"
   ],
   "note": "Workflow final state"
  },
  {
   "property": "C37",
   "status": "proved",
   "theorems": [
    "C37_life_cycle",
    "C37_jobs_run_inside"
   ],
   "note": "Workflow life cycle"
  },
  {
   "property": "C38",
   "status": "partial",
   "theorems": [
    "C38_suitable_partial",
    "C38_refuted"
   ],
   "note": "Refuted for the code as it is: affinity accepts host/<os>-<arch> without checking host support (operator precedence). Proved: everything else (C38_suitable_partial, C67)."
  },
  {
   "property": "C39",
   "status": "proved",
   "theorems": [
    "C39_counts_exact",
    "C39_all_completed_empty"
   ],
   "note": "Counts are Z (i32 in code)."
  },
  {
   "property": "C40",
   "status": "proved",
   "theorems": [
    "C40_least_loaded"
   ],
   "note": "Least loaded docker runner is picked"
  },
  {
   "property": "C41",
   "status": "proved",
   "theorems": [
    "C41_affinity",
    "C41_affinity_meaning"
   ],
   "note": "Job affinity"
  },
  {
   "property": "C42",
   "status": "partial",
   "theorems": [
    "C42_refuted"
   ],
   "note": "Refuted: max_runs is never consulted."
  },
  {
   "property": "C43",
   "status": "proved",
   "theorems": [
    "C43_concurrent_counts",
    "C43_every_answer_explained",
    "C43_calls_return"
   ],
   "note": "Concurrent scheduling keeps counts exact"
  },
  {
   "property": "C44",
   "status": "proved",
   "theorems": [
    "C44_contained",
    "C44_places",
    "C44_step_directories_distinct",
    "C44_data_shared_iff_same_job",
    "C44_step_directory_is_no_data_directory",
    "C44_not_nested"
   ],
   "note": "Working directories are contained and separate"
  },
  {
   "property": "C45",
   "status": "partial",
   "theorems": [
    "C45_refuted",
    "C45_unique_partial"
   ],
   "note": "Refuted in general: ids joined with '-' clash (a/b-c vs a-b/c). Proved when workflow ids have equal length, or contain no '-', or job keys contain no '-'; C68 is the version that holds."
  },
  {
   "property": "C46",
   "status": "proved",
   "theorems": [
    "C46_docker_argv",
    "C46_step_argv"
   ],
   "note": "The docker command line passes exactly the configured arguments"
  },
  {
   "property": "C47",
   "status": "partial",
   "theorems": [
    "C47_output_lost_refuted",
    "C47_per_stream_order_partial"
   ],
   "note": "Refuted: reading stops when either pipe ends, so output of the other may be lost completely. Proved: what is logged is per-pipe an in-order prefix and one pipe is complete; C48 gives the exact set of outcomes."
  },
  {
   "property": "C48",
   "status": "proved",
   "theorems": [
    "C48_exit_result",
    "C48_outcomes_sound",
    "C48_outcomes_complete"
   ],
   "note": "Exit status mapping"
  },
  {
   "property": "C49",
   "status": "proved",
   "theorems": [
    "C49_host_or_docker",
    "C49_image",
    "C49_scheduled_host_step"
   ],
   "note": "Host or docker execution"
  },
  {
   "property": "C50",
   "status": "partial",
   "theorems": [
    "C50_stream_ended_once_partial",
    "C50_never_ended_twice_partial",
    "C50_bounded_partial",
    "C50_cleanup_partial",
    "C50_only_own_directory_partial",
    "C50_no_cleanup_after_exit_refuted"
   ],
   "note": "Refuted: after a command exits by itself the executor's select waits for a signal for ever, so the directory is not removed and on_after_run is not called. Proved: the stream is always ended exactly once; clean-up whenever a signal is raised or the command could not be started or waited for; C71 is the exact statement."
  },
  {
   "property": "C51",
   "status": "partial",
   "theorems": [
    "C51_signal_reported_partial",
    "C51_results",
    "C51_result_final_partial",
    "C51_cancelled_before_start_refuted"
   ],
   "note": "Refuted: a signal raised before the task's first check is reported as Failed 1. Proved: afterwards, while the command has not exited, the signal's result is reported; C70 is the exact statement."
  },
  {
   "property": "C52",
   "status": "proved",
   "theorems": [
    "C52_entrypoint",
    "C52_entrypoint_written_first"
   ],
   "note": "Entrypoint scripts always have an interpreter line"
  },
  {
   "property": "C53",
   "status": "proved",
   "theorems": [
    "C53_contains_own_directories",
    "C53_contains_no_other_directory"
   ],
   "note": "Hypotheses: ordinary names, one event per workflow, no mixing of workflows with and without event, workflow not named caches; the two Examples show the last two are needed."
  },
  {
   "property": "C54",
   "status": "proved",
   "theorems": [
    "C54_transparent",
    "C54_prefix",
    "C54_finishes"
   ],
   "note": "Remote execution is transparent"
  },
  {
   "property": "C55",
   "status": "proved",
   "theorems": [
    "C55_failures",
    "C55_calls",
    "C55_faults_end_the_run",
    "C55_no_runner"
   ],
   "note": "Remote failures surface as a failed step"
  },
  {
   "property": "C56",
   "status": "proved",
   "theorems": [
    "C56_signals",
    "C56_one_signal_per_run"
   ],
   "note": "Remote signals reach the right step"
  },
  {
   "property": "C57",
   "status": "partial",
   "theorems": [
    "C57_in_order_partial",
    "C57_caught_up_partial",
    "C57_stops_only_when_behind_partial",
    "C57_burst_refuted"
   ],
   "note": "Refuted: a forwarder more than 32 events behind gets Lagged and its loop ends for good. Proved: in order, at most once, complete when caught up, stops only then; C73 is the exact statement."
  },
  {
   "property": "C58",
   "status": "proved",
   "theorems": [
    "C58_command_and_back",
    "C58_step_and_back"
   ],
   "note": "Step/command conversion"
  },
  {
   "property": "C59",
   "status": "proved",
   "theorems": [
    "C59_connected",
    "C59_distinct",
    "C59_same_release",
    "C59_picked_runner_is_found"
   ],
   "note": "Only compatible, distinct runners are connected"
  },
  {
   "property": "C60",
   "status": "partial",
   "theorems": [
    "C60_load_only_grows_partial",
    "C60_never_back_to_zero_refuted"
   ],
   "note": "Refuted: the client's hooks never call the scheduler's completion functions, so the load never decreases. C74 is the exact statement."
  },
  {
   "property": "C61",
   "status": "proved",
   "theorems": [
    "C61_success",
    "C61_failure"
   ],
   "note": "Remote before-run-step hooks"
  },
  {
   "property": "C62",
   "status": "partial",
   "theorems": [
    "C62_round_trip_partial",
    "C62_injective_partial",
    "C62_nan_number_refuted"
   ],
   "note": "Refuted as stated: an environment number that is NaN or infinite is written as null and the message cannot be decoded. Proved for messages whose numbers are finite and survive the number codec (an open parameter: serde_json without float_roundtrip may be off by one ULP); C75 is the exact statement."
  },
  {
   "property": "C63",
   "status": "partial",
   "theorems": [
    "C63_command_partial",
    "C63_action_partial",
    "C63_container_condition_partial",
    "C63_ill_typed_field_refuted",
    "C63_odd_shapes_refuted"
   ],
   "note": "Refuted as stated: a step with a string run and another ill-typed field is rejected, or silently becomes an action if it has uses; lists and number-keyed mappings can be steps or conditions. Proved when the other fields are well typed; C76 is the exact statement."
  },
  {
   "property": "C64",
   "status": "proved",
   "theorems": [
    "C64_signal_text",
    "C64_texts",
    "C64_log_type_text",
    "C64_log_type_parse"
   ],
   "note": "Text forms of signals and log types"
  },
  {
   "property": "C65",
   "status": "partial",
   "theorems": [
    "C65_all_jobs_finished_partial",
    "C65_events_after_completion_refuted"
   ],
   "note": "Refuted for runs in which a job was started twice; proved when no job was (which C33 gives for comparable graphs)."
  },
  {
   "property": "C66",
   "status": "partial",
   "theorems": [
    "C66_no_crash_partial",
    "C66_crash_refuted"
   ],
   "note": "Refuted for runs in which a job was started twice; proved when no job was."
  },
  {
   "property": "C67",
   "status": "proved",
   "theorems": [
    "C67_suitable",
    "C67_none_only_if_nothing_suits"
   ],
   "note": "Scheduler suitability, as it holds"
  },
  {
   "property": "C68",
   "status": "proved",
   "theorems": [
    "C68_names_unique_within_a_workflow",
    "C68_names_unique_for_equally_long_ids"
   ],
   "note": "Container names within a workflow"
  },
  {
   "property": "C69",
   "status": "proved",
   "theorems": [
    "C69_before_run",
    "C69_no_plugins",
    "C69_failing_plugin_is_skipped",
    "C69_after_run"
   ],
   "note": "Runner plugins"
  },
  {
   "property": "C70",
   "status": "proved",
   "theorems": [
    "C70_verdict",
    "C70_only_the_verdict"
   ],
   "note": "The result a built-in run reports, exactly"
  },
  {
   "property": "C71",
   "status": "proved",
   "theorems": [
    "C71_rest"
   ],
   "note": "How a built-in run comes to rest, exactly"
  },
  {
   "property": "C72",
   "status": "proved",
   "theorems": [
    "C72_dispatch"
   ],
   "note": "Forwarded events are dispatched like local ones"
  },
  {
   "property": "C73",
   "status": "proved",
   "theorems": [
    "C73_forwarding",
    "C73_progress"
   ],
   "note": "Event forwarding, exactly"
  },
  {
   "property": "C74",
   "status": "proved",
   "theorems": [
    "C74_load_is_picks"
   ],
   "note": "The remote client's load counts, exactly"
  },
  {
   "property": "C75",
   "status": "proved",
   "theorems": [
    "C75_encode_decode"
   ],
   "note": "Message encoding, exactly"
  },
  {
   "property": "C76",
   "status": "proved",
   "theorems": [
    "C76_step",
    "C76_container",
    "C76_condition",
    "C76_step_kind"
   ],
   "note": "Step, container and condition shapes, exactly"
  },
  {
   "property": "C77",
   "status": "proved",
   "theorems": [
    "C77_try_from",
    "C77_parse_error",
    "C77_build"
   ],
   "note": "libyaml (text to tree, aliases expanded) and the number syntax are open parameters; tags are not modelled."
  },
  {
   "property": "C78",
   "status": "proved",
   "theorems": [
    "C78_unknown_step_field",
    "C78_unknown_job_field",
    "C78_unknown_workflow_field",
    "C78_field_order"
   ],
   "note": "Unknown fields and field order do not matter"
  },
  {
   "property": "C79",
   "status": "proved",
   "theorems": [
    "C79_last_job_wins",
    "C79_field_twice"
   ],
   "note": "Duplicate keys"
  },
  {
   "property": "C80",
   "status": "proved",
   "theorems": [
    "C80_equal_iff_same",
    "C80_equivalence",
    "C80_text_identifies"
   ],
   "note": "Comparing and printing errors"
  },
  {
   "property": "C81",
   "status": "proved",
   "theorems": [
    "C81_build",
    "C81_context",
    "C81_context_alone",
    "C81_last_given_defined",
    "C81_conditions"
   ],
   "note": "AstroRun and execution contexts are what was configured"
  },
  {
   "property": "C82",
   "status": "proved",
   "theorems": [
    "C82_plugin"
   ],
   "note": "Plugins made with the builder"
  },
  {
   "property": "C83",
   "status": "proved",
   "theorems": [
    "C83_server",
    "C83_directory"
   ],
   "note": "Runner builders: defaults and required parts"
  },
  {
   "property": "C84",
   "status": "proved",
   "theorems": [
    "C84_level_fixed",
    "C84_first_print_fixes",
    "C84_panics",
    "C84_calls_end",
    "C84_rust_log"
   ],
   "note": "The machine has one transition per access to the OnceLock and to the log crate; the panic case needs a logger installed by other code."
  },
  {
   "property": "C85",
   "status": "proved",
   "theorems": [
    "C85_clone",
    "C85_payload_type"
   ],
   "note": "Refined finding: cloning panics for payloads nested more than 126 deep (serde_json recursion limit)."
  },
  {
   "property": "C86",
   "status": "proved",
   "theorems": [
    "C86_job_ids_print_alike",
    "C86_step_ids_print_alike",
    "C86_distinct_within_a_workflow"
   ],
   "note": "Exact characterisation of when C03 fails."
  },
  {
   "property": "C87",
   "status": "proved",
   "theorems": [
    "C87_at_most_one_task_is_woken",
    "C87_which_task_is_woken"
   ],
   "note": "Exact form of C06."
  },
  {
   "property": "C88",
   "status": "proved",
   "theorems": [
    "C88_result_of_a_stream",
    "C88_no_result"
   ],
   "note": "Exact form of C09."
  },
  {
   "property": "C89",
   "status": "proved",
   "theorems": [
    "C89_which_files_decide",
    "C89_own_fetch_decides"
   ],
   "note": "Exact form of the file-list part of C14."
  },
  {
   "property": "C90",
   "status": "proved",
   "theorems": [
    "C90_limits_and_versions_are_ignored"
   ],
   "note": "Why C42 fails: limits are never read."
  },
  {
   "property": "C91",
   "status": "proved",
   "theorems": [
    "C91_only_extra_instances_outlive_the_run"
   ],
   "note": "Exact form of C65."
  },
  {
   "property": "C92",
   "status": "proved",
   "theorems": [
    "C92_crash_needs_a_finished_twin",
    "C92_started_once_never_crashes"
   ],
   "note": "Exact form of C66."
  },
  {
   "property": "C93",
   "status": "proved",
   "theorems": [
    "C93_ids_nest",
    "C93_projections_of_parsed_ids"
   ],
   "note": "Found missing by mutation testing (job_id_workflow_id was used by no theorem)."
  },
  {
   "property": "C94",
   "status": "proved",
   "theorems": [
    "C94_final_states",
    "C94_step_results_are_final",
    "C94_job_results_are_final",
    "C94_workflow_results_are_final"
   ],
   "note": "Found missing by mutation testing (is_terminal was used by no theorem)."
  },
  {
   "property": "C95",
   "status": "proved",
   "theorems": [
    "C95_logs_are_the_lines_of_the_output",
    "C95_result_is_the_exit_code",
    "C95_refines_the_command_model"
   ],
   "note": "Byte-level model of the pipes and tokio line readers; refines the command model of Runner_model.v."
  },
  {
   "property": "C96",
   "status": "proved",
   "theorems": [
    "C96_an_ordinary_command_never_hangs",
    "C96_a_command_takes_boundedly_many_steps",
    "C96_an_ordinary_command_can_always_finish"
   ],
   "note": "The hypotheses are those of an ordinary program; C97 shows what happens without them."
  },
  {
   "property": "C97",
   "status": "proved",
   "theorems": [
    "C97_a_blocked_command_never_ends",
    "C97_closing_one_output_hangs",
    "C97_a_line_that_is_not_text_hangs"
   ],
   "note": "As the code behaves: cancellation or a timeout of the step are the only ways out."
  },
  {
   "property": "C98",
   "status": "proved",
   "theorems": [
    "C98_spawned_process",
    "C98_spawned_process_windows",
    "C98_exec_ok",
    "C98_exec_error"
   ],
   "note": "UTF-8 (RFC 3629) and White_Space are specified independently in Text_spec.v; not on Windows."
  },
  {
   "property": "C99",
   "status": "proved",
   "theorems": [
    "C99_histories",
    "C99_result",
    "C99_own_result",
    "C99_cancelled_only_with_its_job"
   ],
   "note": "Joint machine of Exec_model and Runner_model sharing stream and signal (Local_model.v); plugins of the runner are any function of the context."
  },
  {
   "property": "C100",
   "status": "proved",
   "theorems": [
    "C100_after_run",
    "C100_done_is_final",
    "C100_never_cleaned"
   ],
   "note": "As the code behaves: select! disables the command branch after Ok(()), so the task waits for a signal that nobody can raise."
  },
  {
   "property": "C101",
   "status": "proved",
   "theorems": [
    "C101_result_arrives",
    "C101_task_decides"
   ],
   "note": "Possibility (no lost result), for every reachable state; fairness of the scheduler is what turns it into termination."
  },
  {
   "property": "C102",
   "status": "proved",
   "theorems": [
    "C102_histories",
    "C102_result",
    "C102_transparent"
   ],
   "note": "Joint machine of Exec_model and Remote_model sharing stream and signal (Distant_model.v); the server runner is arbitrary, gRPC delivers in order until it breaks."
  },
  {
   "property": "C103",
   "status": "proved",
   "theorems": [
    "C103_at_most_one",
    "C103_told",
    "C103_passed_on",
    "C103_not_after_the_end",
    "C103_origin"
   ],
   "note": "As the code behaves: after a broken stream the command on the server goes on and a later cancellation is not forwarded."
  },
  {
   "property": "C104",
   "status": "proved",
   "theorems": [
    "C104_result_arrives",
    "C104_server_done",
    "C104_no_runner"
   ],
   "note": "Possibility (no lost result), for every reachable state; fairness of the scheduler is what turns it into termination."
  },
  {
   "property": "C105",
   "status": "proved",
   "theorems": [
    "C105_engine",
    "C105_results",
    "C105_final"
   ],
   "note": "Composition of the engine (Workflow_model, Exec_model), the stream and the runner (Runner_model) in one machine (System_model)."
  },
  {
   "property": "C106",
   "status": "proved",
   "theorems": [
    "C106_results",
    "C106_outcome"
   ],
   "note": "Without interference, exit statuses decide the workflow's result"
  },
  {
   "property": "C107",
   "status": "proved",
   "theorems": [
    "C107_engine",
    "C107_results",
    "C107_final"
   ],
   "note": "Same composition as C105 with the remote client (Distant_model) on the runner's side; one server per call, the scheduler's choice arbitrary."
  },
  {
   "property": "C108",
   "status": "proved",
   "theorems": [
    "C108_builtin",
    "C108_distant"
   ],
   "note": "C108_builtin, C108_distant. Assumes what orderly says: nobody outside registers/unregisters this run's jobs, and before-run-step hooks leave a step in its job. Panics inside the scheduler (client_start = None) are excluded by hypothesis."
  },
  {
   "property": "C109",
   "status": "proved",
   "theorems": [
    "C109_no_cycle",
    "C109_cycle",
    "C109_dichotomy"
   ],
   "note": "C109_no_cycle, C109_cycle, C109_dichotomy: the exact form of what C20 asks, whose literal claim is refuted (the validation only asks for one job without dependencies)."
  },
  {
   "property": "C110",
   "status": "proved",
   "theorems": [
    "C110_stamps",
    "C110_truthful",
    "C110_dependencies",
    "C110_result"
   ],
   "note": "The model clock only moves forward; the code reads chrono::Utc::now, which follows adjustments of the system clock."
  },
  {
   "property": "C111",
   "status": "proved",
   "theorems": [
    "C111_only_grounded_jobs_start",
    "C111_grounded_iff",
    "C111_builtin",
    "C111_distant"
   ],
   "note": "How far a run gets when dependencies are cyclic"
  },
  {
   "property": "C112",
   "status": "proved",
   "theorems": [
    "C112_histories",
    "C112_layers",
    "C112_one_server",
    "C112_relay",
    "C112_result",
    "C112_signal_once",
    "C112_signal_arrives",
    "C112_cancelled",
    "C112_decided",
    "C112_ends"
   ],
   "note": "A step on a remote runner whose server runs the built-in runner"
  },
  {
   "property": "C113",
   "status": "proved",
   "theorems": [
    "C113_engine",
    "C113_results",
    "C113_final"
   ],
   "note": "A whole workflow on remote runner servers that have the built-in runner"
  },
  {
   "property": "C114",
   "status": "proved",
   "theorems": [
    "C114_results",
    "C114_outcome"
   ],
   "note": "On remote runners, exit statuses alone decide an undisturbed run"
  },
  {
   "property": "C115",
   "status": "proved",
   "theorems": [
    "C115_completes",
    "C115_settles"
   ],
   "note": "Runs on remote runner servers can always be completed"
  },
  {
   "property": "C116",
   "status": "proved",
   "theorems": [
    "C116_outcome",
    "C116_interleaving_irrelevant",
    "C116_state_order_dependent",
    "C116_systems"
   ],
   "note": "The dependence of the workflow's state on the order of results when jobs both fail and are cancelled is shown by C116_state_order_dependent."
  },
  {
   "property": "C117",
   "status": "proved",
   "theorems": [
    "C117_config_to_result",
    "C117_systems"
   ],
   "note": "From the text of the config to the result"
  },
  {
   "property": "C118",
   "status": "proved",
   "theorems": [
    "C118_host_process",
    "C118_docker_process",
    "C118_any_map_order",
    "C118_started_once_prepared",
    "C118_host_never_killed",
    "C118_container_killed",
    "C118_kill_command"
   ],
   "note": "What the built-in runner starts and kills, exactly"
  },
  {
   "property": "C119",
   "status": "proved",
   "theorems": [
    "C119_exchange",
    "C119_silent",
    "C119_credentials",
    "C119_asks_once",
    "C119_verdict",
    "C119_same_as_answers",
    "C119_history",
    "C119_history_bound"
   ],
   "note": "The exchange is proved equal to a relational specification; C119_same_as_answers refines the abstract answers of C14. C119_second_page_unseen shows the consequence of asking for no page."
  },
  {
   "property": "C120",
   "status": "proved",
   "theorems": [
    "C120_every_order",
    "C120_only_such_orders",
    "C120_reached",
    "C120_states",
    "C120_second_result_counts"
   ],
   "note": "The states a workflow run can end in, exactly"
  },
  {
   "property": "C121",
   "status": "proved",
   "theorems": [
    "C121_as_unbounded",
    "C121_checked",
    "C121_panics_iff",
    "C121_wraps"
   ],
   "note": "The scheduler's 32-bit load counters"
  },
  {
   "property": "C122",
   "status": "proved",
   "theorems": [
    "C122_call",
    "C122_paths"
   ],
   "note": "A remote call runs exactly the method called"
  },
  {
   "property": "C123",
   "status": "proved",
   "theorems": [
    "C123_json_exactly",
    "C123_unambiguous"
   ],
   "note": "The grammar is stated as inductive relations in Grammar_spec.v, independently of the reader. Values that the message's type ignores are read by serde_json with the same grammar but without checking the nesting limit or UTF-8; the model checks them everywhere."
  },
  {
   "property": "C124",
   "status": "proved",
   "theorems": [
    "C124_document",
    "C124_received",
    "C124_rejected"
   ],
   "note": "The schemas are a table in Schema_spec.v, independent of the readers; the meaning of a schema is one inductive relation. Values of unknown fields are only checked to be JSON, as in C123."
  },
  {
   "property": "C125",
   "status": "proved",
   "theorems": [
    "C125_builtin",
    "C125_distant",
    "C125_chained"
   ],
   "note": "The amount of work in a run is bounded by the shape of the workflow and what its commands print"
  },
  {
   "property": "C126",
   "status": "proved",
   "theorems": [
    "C126_builtin_never_stuck",
    "C126_distant_never_stuck",
    "C126_chained_never_stuck",
    "C126_builtin",
    "C126_distant",
    "C126_chained",
    "C126_built"
   ],
   "note": "A run without cyclic dependencies that is not abandoned comes to its end, whatever else happens"
  },
  {
   "property": "C127",
   "status": "partial",
   "theorems": [
    "C127_builtin",
    "C127_distant",
    "C127_chained",
    "C127_same_workflow_twice_refuted"
   ],
   "note": "C127_builtin/_distant/_chained: each run's part of the history is a run of its own, with the origin of every outside effect; C127_same_workflow_twice_refuted: the same one-job workflow started twice, no cancellation, every command exits 0: the first run succeeds, the second never completes whatever happens afterwards. C128 is the exact companion."
  },
  {
   "property": "C128",
   "status": "proved",
   "theorems": [
    "C128_built",
    "C128_builtin_completes",
    "C128_distant_completes",
    "C128_chained_completes",
    "C128_builtin_outcome",
    "C128_chained_outcome"
   ],
   "note": "C128_built: workflows built with different ids are apart. C128_*_completes: completable by its own actions. C128_builtin_outcome / C128_chained_outcome: results decided by the run's own commands (for the remote runner with an arbitrary server the results are the server's, C107)."
  },
  {
   "property": "C129",
   "status": "proved",
   "theorems": [
    "C129_over_before",
    "C129_builtin_completes",
    "C129_distant_completes",
    "C129_chained_completes",
    "C129_builtin_outcome",
    "C129_chained_outcome"
   ],
   "note": "Stated for runs such that since their start no job of another run with a common job id did anything outside its steps (alone); C129_over_before: that is so when the earlier runs were over (result delivered, all started jobs ended) at the start. C127_same_workflow_twice_refuted shows that the condition is needed."
  },
  {
   "property": "C130",
   "status": "proved",
   "theorems": [
    "C130_builtin",
    "C130_distant",
    "C130_chained",
    "C130_all_builtin",
    "C130_all_distant",
    "C130_all_chained"
   ],
   "note": "No run keeps another from ending"
  },
  {
   "property": "C131",
   "status": "proved",
   "theorems": [
    "C131_builtin",
    "C131_distant",
    "C131_chained"
   ],
   "note": "Every started job comes to its end, attended to or not"
  },
  {
   "property": "C132",
   "status": "proved",
   "theorems": [
    "C132_unnoticed",
    "C132_nothing_lost",
    "C132_at_any_time",
    "C132_builtin",
    "C132_distant",
    "C132_chained"
   ],
   "note": "Giving up on a run is not noticed by any other run"
  },
  {
   "property": "C133",
   "status": "proved",
   "theorems": [
    "C133_nothing_more",
    "C133_report",
    "C133_builtin",
    "C133_distant",
    "C133_chained"
   ],
   "note": "What becomes of a run that has been given up"
  },
  {
   "property": "C134",
   "status": "proved",
   "theorems": [
    "C134_alone",
    "C134_builtin_completes",
    "C134_distant_completes",
    "C134_chained_completes",
    "C134_builtin_outcome",
    "C134_chained_outcome"
   ],
   "note": "A workflow that has been given up can be run again"
  },
  {
   "property": "C135",
   "status": "proved",
   "theorems": [
    "C135_runs",
    "C135_scheduler",
    "C135_asked",
    "C135_one_at_a_time"
   ],
   "note": "With remote runners, every step is placed by the scheduler's answer to a question about that very step"
  },
  {
   "property": "C136",
   "status": "proved",
   "theorems": [
    "C136_answer",
    "C136_goes_on"
   ],
   "note": "A step on its way to a remote runner always gets the scheduler's answer"
  },
  {
   "property": "C137",
   "status": "proved",
   "theorems": [
    "C137_one_runner"
   ],
   "note": "All container steps of a job run on one remote runner"
  },
  {
   "property": "C138",
   "status": "proved",
   "theorems": [
    "C138_choice"
   ],
   "note": "Which remote runner a container step is given"
  },
  {
   "property": "C139",
   "status": "proved",
   "theorems": [
    "C139_connected",
    "C139_container",
    "C139_host"
   ],
   "note": "Steps are only sent to connected runners that can take them"
  },
  {
   "property": "C140",
   "status": "proved",
   "theorems": [
    "C140_completes"
   ],
   "note": "With the default scheduler in the loop, a run on remote runners can always be completed"
  },
  {
   "property": "C141",
   "status": "proved",
   "theorems": [
    "C141_inevitable",
    "C141_all"
   ],
   "note": "With the default scheduler in the loop, runs that are not abandoned end"
  },
  {
   "property": "C142",
   "status": "proved",
   "theorems": [
    "C142_possible_history",
    "C142_every_history"
   ],
   "note": "What one plugin sees is a possible history"
  },
  {
   "property": "C143",
   "status": "proved",
   "theorems": [
    "C143_same_events",
    "C143_same_when_quiet",
    "C143_orders_may_differ"
   ],
   "note": "All plugins and the runner get the same events of a job in the same order"
  },
  {
   "property": "C144",
   "status": "proved",
   "theorems": [
    "C144_dependencies_first",
    "C144_completed_last",
    "C144_life_cycle"
   ],
   "note": "What a plugin can rely on when it is called"
  },
  {
   "property": "C145",
   "status": "proved",
   "theorems": [
    "C145_deliveries_end",
    "C145_delivery_goes_on"
   ],
   "note": "Deliveries do not stand in the way of each other"
  },
  {
   "property": "C146",
   "status": "proved",
   "theorems": [
    "C146_client",
    "C146_runs"
   ],
   "note": "Runs, scheduler and servers together are what their parts are"
  },
  {
   "property": "C147",
   "status": "proved",
   "theorems": [
    "C147_final"
   ],
   "note": "Every step result comes from the server the scheduler chose, or from its finding none, or from a fault"
  },
  {
   "property": "C148",
   "status": "proved",
   "theorems": [
    "C148_only_what_was_sent"
   ],
   "note": "A runner server does only what the scheduler sent it"
  },
  {
   "property": "C149",
   "status": "proved",
   "theorems": [
    "C149_completes"
   ],
   "note": "With scheduler and runner servers in the loop, a run can always be completed"
  },
  {
   "property": "C150",
   "status": "proved",
   "theorems": [
    "C150_inevitable",
    "C150_all"
   ],
   "note": "With scheduler and runner servers in the loop, runs that are not abandoned end"
  },
  {
   "property": "C151",
   "status": "proved",
   "theorems": [
    "C151_unplaced",
    "C151_no_runner"
   ],
   "note": "A run for whose steps there is no runner fails, and nothing is executed for it anywhere"
  },
  {
   "property": "C152",
   "status": "proved",
   "theorems": [
    "C152_effects",
    "C152_in_order"
   ],
   "note": "Every process a local run starts is the command of one of its steps, while that step is in progress, once"
  },
  {
   "property": "C153",
   "status": "proved",
   "theorems": [
    "C153_places"
   ],
   "note": "A local run touches only the directories of its own steps"
  },
  {
   "property": "C154",
   "status": "proved",
   "theorems": [
    "C154_once",
    "C154_count",
    "C154_may_start_late"
   ],
   "note": "A remote run starts at most one process per call of the runner, but possibly late"
  },
  {
   "property": "C155",
   "status": "proved",
   "theorems": [
    "C155_effects",
    "C155_places"
   ],
   "note": "What remote runners do on their machines, they do for steps the scheduler sent them"
  },
  {
   "property": "C156",
   "status": "proved",
   "theorems": [
    "C156_builder"
   ],
   "note": "The builder of docker commands: the last call wins, nothing is lost"
  },
  {
   "property": "C157",
   "status": "proved",
   "theorems": [
    "C157_in_order",
    "C157_effects"
   ],
   "note": "Each of several local runs at the same time starts only its own steps' processes, each once"
  },
  {
   "property": "C158",
   "status": "proved",
   "theorems": [
    "C158_apart"
   ],
   "note": "Local runs of different workflows keep off each other's directories"
  },
  {
   "property": "C159",
   "status": "proved",
   "theorems": [
    "C159_count",
    "C159_placed"
   ],
   "note": "In a deployment every process on a runner server is the command of one call placed there"
  },
  {
   "property": "C160",
   "status": "proved",
   "theorems": [
    "C160_apart"
   ],
   "note": "What servers do for runs of different workflows keeps apart on the disk"
  },
  {
   "property": "C161",
   "status": "proved",
   "theorems": [
    "C161_kill_on_a_server",
    "C161_kill"
   ],
   "note": "Cancelling or timing out one run's step never kills another step's container"
  },
  {
   "property": "C162",
   "status": "proved",
   "theorems": [
    "C162_only_while_preparing",
    "C162_nothing_after_completion",
    "C162_made_in_what_is_removed",
    "C162_nothing_after_completion_of_comparable_jobs",
    "C162_not_if_a_job_is_started_twice",
    "C162_on_a_machine"
   ],
   "note": "The hypothesis NoDup (started ...) excludes the double start that C33 refutes; without it jobs go on after the completion (C65_events_after_completion_refuted). The on-disk removal itself is modelled by cleanup_dir (C53)."
  },
  {
   "property": "C163",
   "status": "proved",
   "theorems": [
    "C163_made_in_what_is_removed",
    "C163_in_a_deployment",
    "C163_may_be_made_after_completion"
   ],
   "note": "C163_may_be_made_after_completion is a witness run of one step; it satisfies C162's hypotheses other than that the runner is remote."
  },
  {
   "property": "C164",
   "status": "proved",
   "theorems": [
    "C164_on_a_runners_machine",
    "C164_in_a_deployment",
    "C164_host_directory_removed_under_next_step",
    "C164_only_same_jobs_host_steps",
    "C164_on_a_machine"
   ],
   "note": "The expectation that a running step's directory is left alone is refuted by the witness; what holds for every run is proved."
  }
 ]
}