{
 "claims": [
  {
   "property": "C01",
   "status": "proved",
   "theorems": [
    "C01_table_refines_spec",
    "C01_spec_total",
    "C01_clause_sets_its_pair_only",
    "C01_frame"
   ],
   "note": "Config.v refines ConfigSpec.v for every call history"
  },
  {
   "property": "C02",
   "status": "proved",
   "theorems": [
    "C02_reserved_names_rejected",
    "C02_no_reserved_name_in_table"
   ],
   "note": "every call history"
  },
  {
   "property": "C03",
   "status": "proved",
   "theorems": [
    "C03_rejected_call_changes_nothing"
   ],
   "note": "every call history and every rejected call"
  },
  {
   "property": "C04",
   "status": "proved",
   "theorems": [
    "C04_call_any_time",
    "C04_only_configuration_calls",
    "C04_protocol"
   ],
   "note": "every call history, both directions; calls on running machines under every schedule"
  },
  {
   "property": "C05",
   "status": "proved",
   "theorems": [
    "C05_duplicate_mapping_never_rejected",
    "C05_remap_silently_replaces",
    "C05_second_mapping_rejected_refuted"
   ],
   "note": "documented rejection refuted; silent replacement proved for every call history"
  },
  {
   "property": "C06",
   "status": "proved",
   "theorems": [
    "C06_start",
    "C06_start_in_state"
   ],
   "note": "every schedule; provisos: configuration and started flag do not change during the call"
  },
  {
   "property": "C07",
   "status": "proved",
   "theorems": [
    "C07_one_successful_start",
    "C07_started_is_permanent"
   ],
   "note": "every schedule, any number of racing start calls"
  },
  {
   "property": "C08",
   "status": "proved",
   "theorems": [
    "C08_fire_routing",
    "C08_not_started",
    "C08_running"
   ],
   "note": "every schedule; decided by the flags as they really were during the call"
  },
  {
   "property": "C09",
   "status": "proved",
   "theorems": [
    "C09_taken_in_order",
    "C09_accepted_were_fired",
    "C09_taken_for_the_machine_fired_on"
   ],
   "note": "any number of workers and clients, every schedule; trace-level"
  },
  {
   "property": "C10",
   "status": "proved",
   "theorems": [
    "C10_nothing_stranded"
   ],
   "note": "every schedule, every callback, Errors included; hypotheses describe quiescence (the liveness counterpart is C51)"
  },
  {
   "property": "C11",
   "status": "proved",
   "theorems": [
    "C11_script_under_interference",
    "C11_one_event",
    "C11_automaton_run",
    "C11_states_follow_the_table",
    "C11_configuration_exists"
   ],
   "note": "script under arbitrary interference; exact automaton run while calm (own queue, one worker)"
  },
  {
   "property": "C12",
   "status": "proved",
   "theorems": [
    "C12_entered",
    "C12_states",
    "C12_get_current_state",
    "C12_own_table"
   ],
   "note": "every schedule, every callback; sources of each state change and of every observed state"
  },
  {
   "property": "C13",
   "status": "proved",
   "theorems": [
    "C13_one_at_a_time",
    "C13_callbacks_belong_to_one_event"
   ],
   "note": "own queue and one worker thread: hypotheses private_queue, one_thread"
  },
  {
   "property": "C14",
   "status": "proved",
   "theorems": [
    "C14_default_handler",
    "C14_handler_and_nothing_else",
    "C14_handler_called_whatever_others_do",
    "C14_unmapped_exactly"
   ],
   "note": "handler under arbitrary interference; exact sequence while calm"
  },
  {
   "property": "C15",
   "status": "proved",
   "theorems": [
    "C15_no_action_no_change",
    "C15_two_notifications_exactly"
   ],
   "note": "while calm (own queue, one worker)"
  },
  {
   "property": "C16",
   "status": "proved",
   "theorems": [
    "C16_notifications_paired"
   ],
   "note": "arbitrary interference"
  },
  {
   "property": "C17",
   "status": "proved",
   "theorems": [
    "C17_reported_exactly_once",
    "C17_state_after_exception"
   ],
   "note": "reporting under arbitrary interference; resulting state while calm"
  },
  {
   "property": "C18",
   "status": "proved",
   "theorems": [
    "C18_final_state_ends",
    "C18_other_states_do_not_end"
   ],
   "note": "while calm"
  },
  {
   "property": "C19",
   "status": "proved",
   "theorems": [
    "C19_starting_in_a_final_state_ends_refuted",
    "C19_no_other_event_ends_it"
   ],
   "note": "expectation refuted by a run; what holds instead proved for every calm run"
  },
  {
   "property": "C20",
   "status": "proved",
   "theorems": [
    "C20_ended_is_permanent",
    "C20_isEnded_stays_true",
    "C20_returned_start_is_over"
   ],
   "note": "every schedule; provisos: no start in progress"
  },
  {
   "property": "C21",
   "status": "proved",
   "theorems": [
    "C21_discarded",
    "C21_fire_queues_nothing"
   ],
   "note": "every schedule"
  },
  {
   "property": "C22",
   "status": "proved",
   "theorems": [
    "C22_ended_means_end_state_refuted",
    "C22_without_interference",
    "C22_stop_alone"
   ],
   "note": "expectation refuted by a run; positive part for every calm run and every undisturbed stop()"
  },
  {
   "property": "C23",
   "status": "proved",
   "theorems": [
    "C23_ended_during_start_stays_ended_refuted",
    "C23_end_state_means_ended_refuted",
    "C23_start_clears_ended",
    "C23_nothing_ends_it_again"
   ],
   "note": "expectation refuted by the README quick start; start() always clears the flag; nothing changes afterwards while calm"
  },
  {
   "property": "C24",
   "status": "proved",
   "theorems": [
    "C24_one_place",
    "C24_written_only_by_its_holder"
   ],
   "note": "ownership invariant over every schedule"
  },
  {
   "property": "C25",
   "status": "proved",
   "theorems": [
    "C25_delivered_object",
    "C25_snapshot",
    "C25_no_payload_same_object"
   ],
   "note": "every schedule, payload races included"
  },
  {
   "property": "C26",
   "status": "proved",
   "theorems": [
    "C26_bound",
    "C26_bound_threads",
    "C26_never_lost_silently",
    "C26_bound_refuted",
    "C26_refused_only_when_full_refuted"
   ],
   "note": "limit refuted for concurrent firing; bound limit-1+k proved for every schedule; never lost silently; refused only when full refuted"
  },
  {
   "property": "C27",
   "status": "proved",
   "theorems": [
    "C27_bound",
    "C27_bound_threads",
    "C27_dropped",
    "C27_no_duplicates_refuted"
   ],
   "note": "refuted for concurrent firing; at most k duplicates with k concurrent threads, for every schedule; objects_exist: client code only uses event objects that exist"
  },
  {
   "property": "C28",
   "status": "proved",
   "theorems": [
    "C28_default_configuration",
    "C28_defaults_share",
    "C28_later_defaults_share",
    "C28_defaults_always_share_queue_refuted",
    "C28_shared_queue_shared_executor_refuted",
    "C28_default_machines_isolated_refuted",
    "C28_other_machines_do_not_interfere_refuted",
    "C28_discarded_only_after_own_end_refuted"
   ],
   "note": "sharing for every interleaving without overlapping creations, and after the first; interference and racing builds refuted by runs"
  },
  {
   "property": "C29",
   "status": "proved",
   "theorems": [
    "C29_separate_objects",
    "C29_own_pool",
    "C29_own_config",
    "C29_built_isolated",
    "C29_private_queue_isolated"
   ],
   "note": "every interleaving of factory and builder calls; isolation for every schedule of the machines built"
  },
  {
   "property": "C30",
   "status": "proved",
   "theorems": [
    "C30_add",
    "C30_remove",
    "C30_notification",
    "C30_notification_undisturbed",
    "C30_one_moment_refuted",
    "C30_only_while_registered_refuted"
   ],
   "note": "every schedule, every order of iteration; two expectations about concurrent changes refuted"
  },
  {
   "property": "C31",
   "status": "proved",
   "theorems": [
    "C31_handled"
   ],
   "note": "every handler behaviour, Errors included"
  },
  {
   "property": "C32",
   "status": "proved",
   "theorems": [
    "C32_unique",
    "C32_form",
    "C32_unique_per_prefix",
    "C32_always_unique_refuted"
   ],
   "note": "limits 2^31 (any prefixes) and 2^32 (one prefix); beyond: refuted by execution"
  },
  {
   "property": "C33",
   "status": "proved",
   "theorems": [
    "C33_one_line",
    "C33_target_determined",
    "C33_transition_determined_refuted"
   ],
   "note": "every schedule; two notifications can print the same line (refuted part)"
  },
  {
   "property": "C34",
   "status": "proved",
   "theorems": [
    "C34_lifecycle_table"
   ],
   "note": "whole table, all names"
  },
  {
   "property": "C35",
   "status": "proved",
   "theorems": [
    "C35_started_in_order",
    "C35_stopped_in_reverse",
    "C35_error_fired",
    "C35_entry_action"
   ],
   "note": "every subsystem behaviour"
  },
  {
   "property": "C36",
   "status": "proved",
   "theorems": [
    "C36_error",
    "C36_stop",
    "C36_second_start"
   ],
   "note": "every schedule"
  },
  {
   "property": "C37",
   "status": "proved",
   "theorems": [
    "C37_returns_only_after_stopped",
    "C37_stopped_action",
    "C37_restartable_never_returns_by_itself"
   ],
   "note": "every schedule; returning at all is C50"
  },
  {
   "property": "C38",
   "status": "proved",
   "theorems": [
    "C38_start_returns_normally_refuted"
   ],
   "note": "refuted by a run"
  },
  {
   "property": "C39",
   "status": "proved",
   "theorems": [
    "C39_size_counts_waiting_events",
    "C39_size_is_accepted_minus_taken",
    "C39_zero_means_idle_refuted",
    "C39_size_of_a_moment_refuted"
   ],
   "note": "count proved for every schedule, walking over a queue that changes meanwhile; javadoc reading refuted by a run; so is that the size is that of one moment"
  },
  {
   "property": "C40",
   "status": "proved",
   "theorems": [
    "C40_equals_is_equality_of_names",
    "C40_equal_objects_equal_hash",
    "C40_lookup_by_name"
   ],
   "note": "all names"
  },
  {
   "property": "C41",
   "status": "proved",
   "theorems": [
    "C41_one_event_at_a_time_refuted",
    "C41_no_task_dies_refuted"
   ],
   "note": "both failures refuted by runs; no loss, no double take by C09 for any number of workers"
  },
  {
   "property": "C42",
   "status": "proved",
   "theorems": [
    "C42_rejected_event_stays_queued",
    "C42_shut_down_executor_rejects"
   ],
   "note": "every schedule"
  },
  {
   "property": "C43",
   "status": "proved",
   "theorems": [
    "C43_start_sequence",
    "C43_startInState_calls_nothing"
   ],
   "note": "every schedule, every entry action behaviour"
  },
  {
   "property": "C44",
   "status": "proved",
   "theorems": [
    "C44_start_is_atomic_refuted",
    "C44_startup_notified_first_refuted"
   ],
   "note": "refuted by a run"
  },
  {
   "property": "C45",
   "status": "proved",
   "theorems": [
    "C45_append_while_processing",
    "C45_append_during_start",
    "C45_otherwise_all_run"
   ],
   "note": "every schedule; in-place iteration with modification check"
  },
  {
   "property": "C46",
   "status": "proved",
   "theorems": [
    "C46_daemon_with_handler"
   ],
   "note": "every interleaving of factory calls and thread creations"
  },
  {
   "property": "C47",
   "status": "proved",
   "theorems": [
    "C47_last_built_table",
    "C47_own_table_refuted",
    "C47_builder_reuse_refuted"
   ],
   "note": "last built table for every interleaving; expectation refuted by a run"
  },
  {
   "property": "C48",
   "status": "proved",
   "theorems": [
    "C48_snapshot",
    "C48_created_as_told",
    "C48_created_share",
    "C48_built_as_told"
   ],
   "note": "snapshot for every interleaving; the created-as-told theorems need only that the Config (variable, Builder) is not touched by other threads"
  },
  {
   "property": "C49",
   "status": "proved",
   "theorems": [
    "C49_prefix",
    "C49_last_name_refuted"
   ],
   "note": "every interleaving; exact name: field_after in C48_created_as_told; last name wins refuted"
  },
  {
   "property": "C50",
   "status": "proved",
   "theorems": [
    "C50_only_start_blocks",
    "C50_begun_is_finished",
    "C50_client_comes_to_its_end"
   ],
   "note": "every schedule; liveness under fairness of the thread, bounded nesting of its callbacks, and release of the app services it starts"
  },
  {
   "property": "C51",
   "status": "proved",
   "theorems": [
    "C51_accepted_is_processed"
   ],
   "note": "every fair endless execution; executors serve only this queue, have a thread, are not shut down"
  },
  {
   "property": "C52",
   "status": "proved",
   "theorems": [
    "C52_comes_up"
   ],
   "note": "every fair endless execution in which the app service is left alone (AppLiveSpec.left_alone)"
  },
  {
   "property": "C53",
   "status": "proved",
   "theorems": [
    "C53_goes_down",
    "C53_start_ends",
    "C53_start_waits"
   ],
   "note": "every fair endless execution in which the app service is left alone (AppLiveSpec.left_alone); how start() may end is C37, C38"
  },
  {
   "property": "C54",
   "status": "proved",
   "theorems": [
    "C54_takes_effect",
    "C54_settles"
   ],
   "note": "every fair endless execution; own queue, one worker, calm from the starting moment on"
  },
  {
   "property": "C55",
   "status": "proved",
   "theorems": [
    "C55_own_machine",
    "C55_app_built"
   ],
   "note": "every interleaving of builder threads; makes the hypothesis app_built of C52, C53 true of constructed app services"
  },
  {
   "property": "C56",
   "status": "proved",
   "theorems": [
    "C56_getters",
    "C56_setters",
    "C56_changes"
   ],
   "note": "every schedule; frame: who may change what"
  },
  {
   "property": "C57",
   "status": "proved",
   "theorems": [
    "C57_default_flow_listener"
   ],
   "note": "every schedule, all three callbacks"
  },
  {
   "property": "C58",
   "status": "proved",
   "theorems": [
    "C58_first_start",
    "C58_interrupted",
    "C58_interrupt"
   ],
   "note": "every schedule and moment of interruption; client threads only (worker threads have no interrupt flag in the model)"
  },
  {
   "property": "C59",
   "status": "proved",
   "theorems": [
    "C59_nothing_runs_after_start_returns_refuted",
    "C59_nothing_runs_when_stopped_refuted",
    "C59_started_only_when_not_running_refuted",
    "C59_started_means_running_refuted",
    "C59_restartable_stays_restartable_refuted"
   ],
   "note": "refutations, each by a concrete execution; proper use of a constructed app service"
  },
  {
   "property": "C60",
   "status": "proved",
   "theorems": [
    "C60_failed_start",
    "C60_failed_start_ends",
    "C60_failed_start_waits",
    "C60_failed_stop_comes_up",
    "C60_failed_stop",
    "C60_failed_stop_start_ends",
    "C60_failed_stop_start_waits"
   ],
   "note": "endless fair schedules; hypotheses as C52/C53 but for the subsystems: which of them fail is fixed by the fate (never starts / starts and never stops)"
  },
  {
   "property": "C61",
   "status": "proved",
   "theorems": [
    "C61_comes_up",
    "C61_goes_down",
    "C61_comes_up_again",
    "C61_calls_return",
    "C61_first_start_never_returns"
   ],
   "note": "endless fair schedules; hypotheses as C52/C53 for a restartable app, but any number of calls of start() and stop() in turn (in_turn: each after the state the call before leads to was reached); the induction of C52/C53 with a fourth fate (Again), whose plan of events is periodic"
  },
  {
   "property": "C62",
   "status": "proved",
   "theorems": [
    "C62_pairs_ordered",
    "C62_race_free",
    "C62_drop_duplicates_refuted",
    "C62_edges"
   ],
   "note": "happens-before over the trace; edges: program order, AtomicBoolean flags, queue and pool hand-over, latch (sw_min); the refutation uses far more edges (sw_max)"
  },
  {
   "property": "C63",
   "status": "proved",
   "theorems": [
    "C63_fire_before_processing",
    "C63_start_before_processing"
   ],
   "note": "happens-before with the edges sw_min; assumes the queue gives the ConcurrentLinkedQueue memory-consistency guarantee (the default queue does)"
  },
  {
   "property": "C64",
   "status": "proved",
   "theorems": [
    "C64_used_race_free",
    "C64_confined_race_free",
    "C64_current_state_query_refuted",
    "C64_app_stop_refuted",
    "C64_fire_during_start_refuted",
    "C64_queue_full_refuted",
    "C64_two_threads_refuted"
   ],
   "note": "race freedom of all plain fields under API-level conditions on the use of the machine; five refutations with sw_max for conditions dropped; action lists of states are covered by the general theorem only (states may be shared between machines)"
  },
  {
   "property": "C65",
   "status": "proved",
   "theorems": [
    "C65_shutdown_visible",
    "C65_subsystems_visible"
   ],
   "note": "happens-before with the CountDownLatch edge"
  },
  {
   "property": "C66",
   "status": "proved",
   "theorems": [
    "C66_dealt_with",
    "C66_mirrored",
    "C66_published",
    "C66_nothing_runs_when_stopped_refuted",
    "C66_only_started_ones_are_stopped_refuted"
   ],
   "note": "every schedule; the list of subsystems is an AtomicReference (edge sw_subs of sw_min); each app service has a context of its own"
  },
  {
   "property": "C67",
   "status": "proved",
   "theorems": [
    "C67_each_event",
    "C67_error_stops",
    "C67_error_ends",
    "C67_start_returns",
    "C67_error_while_initialising_refuted",
    "C67_error_with_throwing_listener_refuted"
   ],
   "note": "safety (each event) on every schedule, liveness on fair schedules; two refutations for the conditions dropped"
  },
  {
   "property": "C68",
   "status": "proved",
   "theorems": [
    "C68_bound",
    "C68_none_lost",
    "C68_bounded_queue",
    "C68_shared_queue_refuted",
    "C68_give_resets_refuted"
   ],
   "note": "for a queue and a pool that belong together; refuted for machines that share a queue and have a pool each"
  },
  {
   "property": "C69",
   "status": "proved",
   "theorems": [
    "C69_none_refused",
    "C69_large_enough",
    "C69_capacity_as_limit_refuted",
    "C69_in_order",
    "C69_pair_gone",
    "C69_never_lost_silently_refuted"
   ],
   "note": "queues that refuse events are a second layer over Sched.v (Refuse.v); two refutations"
  },
  {
   "property": "C70",
   "status": "proved",
   "theorems": [
    "C70_same_events",
    "C70_same_events_no_throw",
    "C70_same_acceptance",
    "C70_more_threads_refuted"
   ],
   "note": "a property of pairs of executions; from C11_automaton_run, whose names are now those read after the event was taken"
  },
  {
   "property": "C71",
   "status": "proved",
   "theorems": [
    "C71_none_rejected",
    "C71_in_order",
    "C71_rejected_stays_queued",
    "C71_reported_once",
    "C71_not_processed_refuted",
    "C71_left_over",
    "C71_not_stranded",
    "C71_own_executor",
    "C71_nothing_stranded_refuted"
   ],
   "note": "executors that reject tasks are a second layer over Sched.v (Reject.v); two refutations"
  },
  {
   "property": "C72",
   "status": "proved",
   "theorems": [
    "C72_one_machine_each",
    "C72_same_execution",
    "C72_in_order",
    "C72_nothing_stranded",
    "C72_reported_once"
   ],
   "note": "executors that run tasks in any order are a second layer over Sched.v (Order.v)"
  },
  {
   "property": "C73",
   "status": "proved",
   "theorems": [
    "C73_none_lost",
    "C73_in_order",
    "C73_reported_once",
    "C73_own_executor",
    "C73_nothing_stranded_refuted",
    "C73_left_over"
   ],
   "note": "executors that drop tasks are a layer over Order.v (Discard.v); (e) is refuted by a concrete execution, C73_nothing_stranded_refuted"
  }
 ]
}