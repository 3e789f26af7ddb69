{
 "claims": [
  {
   "property": "C01",
   "status": "proved",
   "theorems": [
    "C01_keys",
    "C01_tree_is_map",
    "C01_rejected_changes_nothing"
   ],
   "note": "Refinement of the heap-of-nodes model to a finite map over every history, including interleaved projections; a rejected operation changes no later answer."
  },
  {
   "property": "C02",
   "status": "proved",
   "theorems": [
    "C02_iteration"
   ],
   "note": "Breadth-first order, multiplicity and length, for every reachable tree."
  },
  {
   "property": "C03",
   "status": "proved",
   "theorems": [
    "C03_membership",
    "C03_membership_dot",
    "C03_membership_after_projections",
    "C03_after_projection_refuted"
   ],
   "note": "Exact for histories of stores and deletions; after projections only one direction holds and the other is refuted by C03_after_projection_refuted."
  },
  {
   "property": "C04",
   "status": "proved",
   "theorems": [
    "C04_projection_follows",
    "C04_projection_hides_the_rest",
    "C04_projection_total",
    "C04_after_prune_refuted"
   ],
   "note": "Aliasing proved under the exact condition that no deletion leaves the projected path empty; without it refuted by C04_after_prune_refuted."
  },
  {
   "property": "C05",
   "status": "proved",
   "theorems": [
    "C05_get_handlers_keeps",
    "C05_get_handlers_blocks",
    "C05_projection_keeps_values",
    "C05_projection_presence"
   ],
   "note": "For every registry state reached by any program; the blocked names are characterised exactly (if and only if)."
  },
  {
   "property": "C06",
   "status": "proved",
   "theorems": [
    "C06_accepted_or_unchanged",
    "C06_keywords"
   ],
   "note": "Against an independent table of documented ranges, exceptions and conversions, for every configuration reachable by any program; values compared by a finite abstraction of Python values."
  },
  {
   "property": "C07",
   "status": "proved",
   "theorems": [
    "C07_cross_consistency"
   ],
   "note": "Invariant over every history of config.set and level registrations."
  },
  {
   "property": "C08",
   "status": "proved",
   "theorems": [
    "C08_started_once",
    "C08_never_false",
    "C08_boolean"
   ],
   "note": "Monotone and exclusive after being set; only True is ever accepted."
  },
  {
   "property": "C09",
   "status": "proved",
   "theorems": [
    "C09_always_legal",
    "C09_always_present"
   ],
   "note": "Every reachable configuration; bool counts as int (a level registered as True can be stored)."
  },
  {
   "property": "C10",
   "status": "proved",
   "theorems": [
    "C10_get",
    "C10_level_name",
    "C10_round_trip",
    "C10_unnamed",
    "C10_stale_name_refuted"
   ],
   "note": "Look-ups characterised by the history of registrations; the round trip holds exactly when the name was not re-registered, refuted otherwise by C10_stale_name_refuted."
  },
  {
   "property": "C11",
   "status": "proved",
   "theorems": [
    "C11_every_handler_once",
    "C11_no_data"
   ],
   "note": "Handlers and extractors are arbitrary total functions of the record and a world state that may raise; each is called once, in order, after all extraction."
  },
  {
   "property": "C12",
   "status": "proved",
   "theorems": [
    "C12_operators",
    "C12_total_order",
    "C12_incomparable",
    "C12_reflexive_refuted"
   ],
   "note": "Total preorder on times and agreement of the six operators for records with comparable times; equality is not reflexive for a record without time (C12_reflexive_refuted)."
  },
  {
   "property": "C13",
   "status": "proved",
   "theorems": [
    "C13_existing_kept",
    "C13_field_value",
    "C13_called",
    "C13_sees",
    "C13_other_fields",
    "C13_raising_extractor"
   ],
   "note": "For every list of extractors and every raising behaviour."
  },
  {
   "property": "C14",
   "status": "proved",
   "theorems": [
    "C14_not_invented",
    "C14_at_most_once",
    "C14_handed_over",
    "C14_same_instance",
    "C14_written_by_threads"
   ],
   "note": "Over every interleaving, including nested writes, reloads and the exit hook; when handlers do not log the number of calls is tied to the threads' programs (C14_written_by_threads)."
  },
  {
   "property": "C15",
   "status": "proved",
   "theorems": [
    "C15_flushed",
    "C15_stop_flushes",
    "C15_workers_exit"
   ],
   "note": "Also in the strong form C15_flushed: records put before the stop began are executed whatever is put later."
  },
  {
   "property": "C16",
   "status": "proved",
   "theorems": [
    "C16_fifo",
    "C16_one_worker",
    "C16_pool_of_one",
    "C16_synchronous",
    "C16_no_pool"
   ],
   "note": "FIFO at every moment (every prefix of every trace); one worker; synchronous engine."
  },
  {
   "property": "C17",
   "status": "proved",
   "theorems": [
    "C17_bounds",
    "C17_settings",
    "C17_values",
    "C17_assignment"
   ],
   "note": "Per instance, and with the configured numbers when the settings are not changed; the values of the settings themselves while they are being changed by C17_values and C17_assignment (the instance in use has the values of the settings unless a reload is going on: C18)."
  },
  {
   "property": "C18",
   "status": "proved",
   "theorems": [
    "C18_new_records_elsewhere",
    "C18_old_stopped_first",
    "C18_lost",
    "C18_stuck",
    "C18_reload_flushes",
    "C18_no_loss_refuted",
    "C18_writer_stuck_refuted"
   ],
   "note": "The positive half for every interleaving; the unconditional claims are refuted by C18_no_loss_refuted and C18_writer_stuck_refuted (lost / stuck in every continuation)."
  },
  {
   "property": "C19",
   "status": "proved",
   "theorems": [
    "C19_initialised_once",
    "C19_no_crash",
    "C19_embrace_for_ever",
    "C19_finish_or_embrace",
    "C19_started_no_embrace",
    "C19_started_finishes",
    "C19_unchanged_finishes",
    "C19_deadlock_refuted"
   ],
   "note": "Deadlock freedom is refuted (C19_deadlock_refuted) and the exact shape of the only deadlock is proved: C19_finish_or_embrace is a progress theorem from every reachable state, by a decreasing measure. Possibility (a schedule exists), not fairness, is what is proved."
  },
  {
   "property": "C20",
   "status": "proved",
   "theorems": [
    "C20_flushed",
    "C20_current_flushed",
    "C20_nothing_later",
    "C20_lock_kept"
   ],
   "note": "For multi-threaded instances; a synchronous engine is not waited for by the hook."
  },
  {
   "property": "C21",
   "status": "proved",
   "theorems": [
    "C21_cycle_for_ever",
    "C21_quiet_workers_free",
    "C21_deadlock_refuted"
   ],
   "note": "Witness state that no continuation leaves; without nested writes no worker is ever inside write and C19_started_finishes applies."
  },
  {
   "property": "C22",
   "status": "proved",
   "theorems": [
    "C22_at_most_one_layer",
    "C22_last_explicit_decorator_wins",
    "C22_last_class_decorator_wins",
    "C22_reused_wrapper_refuted",
    "C22_priority_after_methods_list_refuted",
    "C22_methods_list_strips_refuted"
   ],
   "note": "For linear stacks over functions nobody else decorates; sharing a wrapper between two stacks and the methods list are refuted by witnesses."
  },
  {
   "property": "C23",
   "status": "proved",
   "theorems": [
    "C23_unlog_wins",
    "C23_flag_of_the_last_unlog",
    "C23_flag_lost_under_log",
    "C23_reused_wrapper_refuted"
   ],
   "note": "Same model; the flag of the surviving unlog layer and its loss under @log are characterised."
  },
  {
   "property": "C24",
   "status": "proved",
   "theorems": [
    "C24_silence_inside",
    "C24_silence_inside_setting",
    "C24_status_is_the_last_order",
    "C24_on_after_return",
    "C24_partial_unlog_changes_nothing",
    "C24_everything_inside_refuted"
   ],
   "note": "Interpreter of arbitrary call trees; a record event inside the body forces an earlier EOn or a different EOff."
  },
  {
   "property": "C25",
   "status": "proved",
   "theorems": [
    "C25_transparent",
    "C25_outcome_of_a_call",
    "C25_unregistered_level_raises",
    "C25_always_transparent_refuted"
   ],
   "note": "Simulation between the decorated and the bare program for every call tree; plus the exact single-call outcome."
  },
  {
   "property": "C26",
   "status": "proved",
   "theorems": [
    "C26_success",
    "C26_failure",
    "C26_one_record_per_call",
    "C26_message_level_counts_refuted"
   ],
   "note": "Per call from any state after any body; counting invariant over all programs; the \"message level decides\" reading is refuted."
  },
  {
   "property": "C27",
   "status": "proved",
   "theorems": [
    "C27_at_most_one_record",
    "C27_innermost_decides",
    "C27_without_deduplication"
   ],
   "note": "At most one: invariant over all programs. Exactly one / none / each passing layer: induction over the chain of nested calls."
  },
  {
   "property": "C28",
   "status": "proved",
   "theorems": [
    "C28_record_is_overlaid",
    "C28_which_message",
    "C28_manual_records_untouched",
    "C28_survives_nested_call_refuted",
    "C28_stays_in_its_call_refuted",
    "C28_messages_add_up_refuted",
    "C28_message_fields"
   ],
   "note": "Context variable as a function of the event sequence; documented scoping refuted by three witnesses."
  },
  {
   "property": "C29",
   "status": "proved",
   "theorems": [
    "C29_decorator",
    "C29_block",
    "C29_suppress_arguments_silent",
    "C29_suppress_arguments_loud",
    "C29_suppress_call",
    "C29_never_base_exceptions_refuted"
   ],
   "note": "issubclass against the reflexive transitive closure of the base relation for acyclic hierarchies."
  },
  {
   "property": "C30",
   "status": "proved",
   "theorems": [
    "C30_global_unchanged",
    "C30_handlers_refused",
    "C30_handlers_meaning",
    "C30_handlers_accepted",
    "C30_handlers_generated_names",
    "C30_fields_accepted",
    "C30_fields_refused",
    "C30_fields_meaning",
    "C30_argument_afterwards",
    "C30_same_argument_twice_refuted"
   ],
   "note": "On the tree model of C01-C05 with decorators in the history; names of C45. The caveat about deletions that empty a path is that of C04. is_handler is a parameter (C47)."
  },
  {
   "property": "C31",
   "status": "proved",
   "theorems": [
    "C31_entered_once",
    "C31_exit_finalises_own_block",
    "C31_one_record_per_block",
    "C31_any_nesting_refuted"
   ],
   "note": "For programs whose suppress arguments are exceptions; the failing case is a witness."
  },
  {
   "property": "C32",
   "status": "proved",
   "theorems": [
    "C32_exit",
    "C32_exit_succeeds",
    "C32_success_can_be_overridden_refuted",
    "C32_own_exception_leaves_refuted"
   ],
   "note": "Field contents of the record are stated by key; the data of a block is a dictionary (no repeated keys)."
  },
  {
   "property": "C33",
   "status": "proved",
   "theorems": [
    "C33_dotted_level_wins",
    "C33_any_name_is_accepted",
    "C33_manual_record",
    "C33_with_unregistered_raises",
    "C33_argument_wins_refuted",
    "C33_only_registered_refuted"
   ],
   "note": "The other arguments of the call are arbitrary."
  },
  {
   "property": "C34",
   "status": "proved",
   "theorems": [
    "C34_exactly_the_expected_fields",
    "C34_loud_mode_raises",
    "C34_silent_mode_only_KeyError",
    "C34_unknown_level_raises",
    "C34_two_aliases_raise",
    "C34_record_keeps_fields",
    "C34_duplicates_always_noticed_refuted",
    "C34_whole_record"
   ],
   "note": "Python values by a finite abstraction; str(exception) may raise; stated through an independent relation of expected fields."
  },
  {
   "property": "C35",
   "status": "proved",
   "theorems": [
    "C35_level_and_threshold",
    "C35_level_of_call",
    "C35_exception_makes_failure"
   ],
   "note": "C35_level_of_call states the level in terms of the arguments only."
  },
  {
   "property": "C36",
   "status": "proved",
   "theorems": [
    "C36_message",
    "C36_table",
    "C36_safe",
    "C36_true_is_silent",
    "C36_false_raises",
    "C36_exactly_as_assert_refuted",
    "C36_one_record_refuted"
   ],
   "note": "Truth value, text and falsity of the argument are arbitrary outcomes (value or Exception); BaseException and a change of settings during the call are not modelled."
  },
  {
   "property": "C37",
   "status": "proved",
   "theorems": [
    "C37_call",
    "C37_acts_when",
    "C37_done_or_alt",
    "C37_chain",
    "C37_constructor",
    "C37_never_both_refuted",
    "C37_falsy_answer_refuses_refuted",
    "C37_filter_failure_goes_to_alt_refuted"
   ],
   "note": "Handlers as values with arbitrary functions of a world state; relational specification of a try, induction over chains of alternatives."
  },
  {
   "property": "C38",
   "status": "proved",
   "theorems": [
    "C38_history",
    "C38_one_thread",
    "C38_kept_list",
    "C38_progress",
    "C38_last_is_last_refuted",
    "C38_first_init_race_refuted"
   ],
   "note": "Step-level model of the semaphore sections; existence of a linearisation as an invariant."
  },
  {
   "property": "C39",
   "status": "proved",
   "theorems": [
    "C39_other_file_system",
    "C39_names_repeat_refuted",
    "C39_other_file_system_refuted",
    "C39_no_lock_refuted",
    "C39_reopen_failure_refuted",
    "C39_every_record_accepted",
    "C39_flushed",
    "C39_every_record_once",
    "C39_one_thread_done",
    "C39_nothing_lost",
    "C39_one_handler",
    "C39_other_files"
   ],
   "note": "Step-level model of inodes, names, file objects with buffers, the two locks of a handler and the steps of writing; theorems for one file system and new names, for one thread with forced flush also over two file systems, refutations otherwise. The cross-process file lock is left out: it only removes interleavings."
  },
  {
   "property": "C40",
   "status": "proved",
   "theorems": [
    "C40_parse",
    "C40_match",
    "C40_edge_cases",
    "C40_unclosed_bracket_refuted",
    "C40_no_tokens_refuted"
   ],
   "note": "Pattern language against an independent grammar, matcher against an independent glob relation; the IndexError and the unclosed bracket are stated and refute the natural claim. Recursion-depth limits of Python are outside the model."
  },
  {
   "property": "C41",
   "status": "proved",
   "theorems": [
    "C41_rule",
    "C41_rule_text",
    "C41_rules",
    "C41_trigger",
    "C41_command"
   ],
   "note": "Rule texts, comma/semicolon lists, the >> command and the trigger; the characters that count as white space and int() are parameters (int() refuses unit names is a hypothesis, shown satisfiable)."
  },
  {
   "property": "C42",
   "status": "proved",
   "theorems": [
    "C42_threads_of_a_handler",
    "C42_handlers_with_one_thread",
    "C42_other_order_excludes_all",
    "C42_all_can_finish",
    "C42_both_locks_exclude_refuted",
    "C42_file_lock_between_threads_refuted",
    "C42_thread_lock_between_handlers_refuted"
   ],
   "note": "flock per open file description, a threading.Lock per handler. The claim for both locks with several threads per handler is refuted by a schedule."
  },
  {
   "property": "C43",
   "status": "proved",
   "theorems": [
    "C43_parse",
    "C43_none_and_other",
    "C43_only_names_matter"
   ],
   "note": "Exact acceptance and result for every string, None and other values; invariance under permutation of the names."
  },
  {
   "property": "C44",
   "status": "proved",
   "theorems": [
    "C44_resolution",
    "C44_never_below"
   ],
   "note": "Declarative maximum, unique."
  },
  {
   "property": "C45",
   "status": "proved",
   "theorems": [
    "C45_roman",
    "C45_distinct",
    "C45_count",
    "C45_exhausted"
   ],
   "note": "Tables transcribed; any shuffle. CPython recursion limit (the generator recurses per epoch) is not modelled."
  },
  {
   "property": "C46",
   "status": "proved",
   "theorems": [
    "C46_created",
    "C46_own",
    "C46_settles",
    "C46_first_alone",
    "C46_one_instance_refuted"
   ],
   "note": "Steps are single reads and writes of the class attributes; the naive claim is refuted by a schedule."
  },
  {
   "property": "C47",
   "status": "proved",
   "theorems": [
    "C47_match",
    "C47_exact",
    "C47_order",
    "C47_handler",
    "C47_refuses",
    "C47_total",
    "C47_callable",
    "C47_accepted_is_callable_refuted",
    "C47_callable_is_accepted_refuted"
   ],
   "note": "Definitions as structured parameter lists; str.isidentifier is a parameter; defaults are compared by a decidable equality."
  },
  {
   "property": "C48",
   "status": "proved",
   "theorems": [
    "C48_sound",
    "C48_clean",
    "C48_map",
    "C48_answers",
    "C48_concurrent_map_refuted",
    "C48_items",
    "C48_items_refuted"
   ],
   "note": "Objects by identity; callbacks may come any time after the death; iteration while changing is not modelled."
  },
  {
   "property": "C49",
   "status": "proved",
   "theorems": [
    "C49_add_never_replaces",
    "C49_add_named",
    "C49_duplicate_name_refused",
    "C49_duplicate_object_refused",
    "C49_delete_name",
    "C49_delete_object",
    "C49_add_several",
    "C49_add_fails_in_the_middle",
    "C49_add_accepted",
    "C49_delete_several",
    "C49_same_object_twice_refuted",
    "C49_prefix_blocked"
   ],
   "note": "Exact effect of every add/delete call; the documented ban on registering one object twice is refuted by C49_same_object_twice_refuted."
  },
  {
   "property": "C50",
   "status": "proved",
   "theorems": [
    "C50_record",
    "C50_absent",
    "C50_refused_before",
    "C50_other_loggers",
    "C50_errors",
    "C50_invisible_refuted",
    "C50_all_loggers_refuted",
    "C50_install"
   ],
   "note": "On top of the model of manual logging; the filter chain of logging is modelled."
  },
  {
   "property": "C51",
   "status": "proved",
   "theorems": [
    "C51_overlay",
    "C51_live"
   ],
   "note": "Membership, iteration and items for every content; live defaults."
  },
  {
   "property": "C52",
   "status": "proved",
   "theorems": [
    "C52_fraction",
    "C52_whole",
    "C52_lost",
    "C52_zero",
    "C52_faithful_refuted",
    "C52_fractions_differ"
   ],
   "note": "For any number of decimals; rounding of the float to 8 decimals is left to Python."
  },
  {
   "property": "C53",
   "status": "proved",
   "theorems": [
    "C53_setters",
    "C53_reads_as_dict",
    "C53_empty_before_data",
    "C53_read_only"
   ],
   "note": "All read operations against the dictionary; writes raise and change nothing."
  },
  {
   "property": "C54",
   "status": "proved",
   "theorems": [
    "C54_no_engine",
    "C54_started_by_hand"
   ],
   "note": "For all continuations; witness and repair by examples."
  },
  {
   "property": "C55",
   "status": "proved",
   "theorems": [
    "C55_instance_fits",
    "C55_latest_in_use"
   ],
   "note": "Invariant over all interleavings."
  },
  {
   "property": "C56",
   "status": "proved",
   "theorems": [
    "C56_class_decorators",
    "C56_one_class_decorator",
    "C56_bad_name_fails",
    "C56_missing_name_AttributeError",
    "C56_class_in_methods"
   ],
   "note": "Attributes by name in order; inherited attributes are modelled as the list dir() gives."
  },
  {
   "property": "C57",
   "status": "proved",
   "theorems": [
    "C57_success_record",
    "C57_failure_record"
   ],
   "note": "All field names enumerated; everything else absent. The names taken from the function object are module, function and class."
  },
  {
   "property": "C58",
   "status": "proved",
   "theorems": [
    "C58_tasks_do_not_interfere",
    "C58_threads_begin_empty",
    "C58_tasks_created_in_a_block_refuted",
    "C58_errors_never_refuted"
   ],
   "note": "All interleavings of enter, exit, task and thread creation; tasks created inside a block are refuted."
  },
  {
   "property": "C59",
   "status": "proved",
   "theorems": [
    "C59_two_handlers_refuted",
    "C59_overshoot_of_threads_refuted",
    "C59_no_small_file_moved",
    "C59_overshoot"
   ],
   "note": "On the model of C39; the rule is any decision that says yes only at or above the limit (exactly so for the bound)."
  },
  {
   "property": "C60",
   "status": "proved",
   "theorems": [
    "C60_names_differ",
    "C60_paths_differ",
    "C60_in_the_directory",
    "C60_sorted",
    "C60_whole_second_refuted"
   ],
   "note": "str(datetime) and os.path.join (posix) are modelled; the dates range over all values the class allows."
  },
  {
   "property": "C61",
   "status": "proved",
   "theorems": [
    "C61_one_line_refuted",
    "C61_unambiguous_refuted",
    "C61_custom_shown_refuted",
    "C61_empty_left_out_refuted",
    "C61_traceback_refuted",
    "C61_aligned_refuted",
    "C61_line",
    "C61_columns",
    "C61_fields",
    "C61_produced",
    "C61_lost",
    "C61_raw"
   ],
   "note": "The meaning of a record is an independent type (entry) related to the Python values by the relation carries; the json module, str.isspace and str() of values are parameters. Tracebacks are lines of traceback.format_tb whose path and function name contain no white space (refuted otherwise)."
  },
  {
   "property": "C62",
   "status": "proved",
   "theorems": [
    "C62_created",
    "C62_get_data",
    "C62_registered",
    "C62_effect",
    "C62_asked",
    "C62_text_refuted",
    "C62_visible_refuted"
   ],
   "note": "Callables are seen through inspect.Signature (C47); fields by identity."
  },
  {
   "property": "C63",
   "status": "proved",
   "theorems": [
    "C63_none",
    "C63_fails",
    "C63_arguments",
    "C63_result",
    "C63_one_distinct",
    "C63_type_refuted",
    "C63_distinct_refuted"
   ],
   "note": "dumps and loads are parameters; that they are inverse is a hypothesis of the round trip only, shown satisfiable."
  },
  {
   "property": "C64",
   "status": "proved",
   "theorems": [
    "C64_arguments",
    "C64_edit",
    "C64_block",
    "C64_given_time_kept_refuted"
   ],
   "note": "On the call model of C17-C29; the record itself is the one of C34_whole_record. Bodies that call the object and then end are blocks without further nesting; edits in nested blocks are covered by C64_edit."
  },
  {
   "property": "C65",
   "status": "proved",
   "theorems": [
    "C65_constructor",
    "C65_repr_hides_password",
    "C65_repr_tells_all_refuted",
    "C65_text",
    "C65_subject",
    "C65_assemblers",
    "C65_one_assembler",
    "C65_text_determines_refuted"
   ],
   "note": "The email library (MIMEText, headers, encoding of the text) is not modelled: a letter is its subject, text, kind and addresses. Three refutations show what the text and repr do not tell."
  },
  {
   "property": "C66",
   "status": "proved",
   "theorems": [
    "C66_returned_iff_accepted",
    "C66_alone",
    "C66_working_server",
    "C66_working_server_many_refuted",
    "C66_connections_ended_refuted",
    "C66_own_connection_refuted",
    "C66_refused_connection_ended_refuted"
   ],
   "note": "Interleaving of the atomic steps of create_smtp_server and send; overlapping calls of smtplib on one connection are not modelled (each call is one step). Four refutations with witness schedules."
  },
  {
   "property": "C67",
   "status": "proved",
   "theorems": [
    "C67_undisturbed",
    "C67_timeout_has_a_cause",
    "C67_interrupted",
    "C67_cancelled",
    "C67_no_limit",
    "C67_argument",
    "C67_delay_given",
    "C67_result_kept_refuted",
    "C67_no_stray_interrupt_refuted",
    "C67_quiet_afterwards_refuted",
    "C67_ctrl_c_passes_refuted"
   ],
   "note": "Small-step model of wrapper, timer and interrupts; real time is not modelled: the timer may fire at any moment after it was started. Four refutations with witness schedules."
  },
  {
   "property": "C68",
   "status": "proved",
   "theorems": [
    "C68_caller_sees",
    "C68_no_wrapper",
    "C68_logged",
    "C68_manual",
    "C68_fallback",
    "C68_handled",
    "C68_locals_of_last_frame_refuted",
    "C68_manual_locals_refuted",
    "C68_own_traceback_refuted"
   ],
   "note": "format_tb, json.dumps and json of variables are parameters; frames are abstract. Three refutations."
  },
  {
   "property": "C69",
   "status": "proved",
   "theorems": [
    "C69_value",
    "C69_built_in",
    "C69_assignment",
    "C69_restores_refuted",
    "C69_while_on_refuted",
    "C69_steady",
    "C69_change_repairs",
    "C69_sequential",
    "C69_always_refuted",
    "C69_again_refuted"
   ],
   "note": "Small-step model of the first creation of records against assignments of the setting; assignments themselves are serialised by the lock of the point. Four refutations."
  },
  {
   "property": "C70",
   "status": "proved",
   "theorems": [
    "C70_registered",
    "C70_reachable",
    "C70_hides_nothing",
    "C70_several",
    "C70_all_or_nothing_refuted",
    "C70_writable_refuted"
   ],
   "note": "On the configuration model of C06-C10; attributes that a program adds to the loggers itself are not modelled. Two refutations."
  },
  {
   "property": "C71",
   "status": "proved",
   "theorems": [
    "C71_empty",
    "C71_text",
    "C71_lines",
    "C71_local",
    "C71_readable",
    "C71_same_text",
    "C71_values_refuted",
    "C71_determined_refuted"
   ],
   "note": "On the heap model of the tree (C01-C05); assumes that the empty string is not an identifier. The order of siblings is not claimed. Not modelled: the text shown when recursion is too deep, a filler other than the tab. Two refutations."
  },
  {
   "property": "C72",
   "status": "proved",
   "theorems": [
    "C72_accepted",
    "C72_object",
    "C72_files",
    "C72_refusals",
    "C72_refused_before",
    "C72_keeps",
    "C72_logs_survive",
    "C72_default_lock",
    "C72_refused_leaves_nothing_refuted",
    "C72_no_log_is_emptied_refuted",
    "C72_file_lock_given_refuted"
   ],
   "note": "Arguments as in C65; the file system is a map from names to texts and open() fails by name. Classes passed in place of the wrapper, formatter and rotator are not modelled. Three refutations."
  },
  {
   "property": "C73",
   "status": "proved",
   "theorems": [
    "C73_locks",
    "C73_serial",
    "C73_alone",
    "C73_consistent",
    "C73_started",
    "C73_never_stuck",
    "C73_bounded",
    "C73_calls",
    "C73_call_atomic_refuted",
    "C73_levels_alone",
    "C73_levels_round_trip_refuted",
    "C73_unlocked_read_refuted"
   ],
   "note": "One move is one access to shared state; dictionary operations are atomic. The order is over keywords, checked against the sequential model of C06-C10. Actions are left out (they write no setting; reload_engine is C18-C19), so never-blocking does not cover locks they take. Three refutations."
  },
  {
   "property": "C74",
   "status": "proved",
   "theorems": [
    "C74_registered",
    "C74_calls",
    "C74_once",
    "C74_order",
    "C74_all",
    "C74_all_value",
    "C74_added",
    "C74_child_of_running",
    "C74_undisturbed",
    "C74_ends",
    "C74_ends_well",
    "C74_unchanged",
    "C74_no_end_in_sight",
    "C74_put_back_refuted",
    "C74_threads_refuted"
   ],
   "note": "The two generators as a state machine over the heap of C01-C05; an operation on the registry is one event (it holds the lock of the tree). A dictionary that changes but keeps its size while being iterated is not followed further. The tree is the registry; own handlers of a logger are not covered. Two refutations."
  },
  {
   "property": "C75",
   "status": "proved",
   "theorems": [
    "C75_layer",
    "C75_unlog_stays",
    "C75_two_layers_refuted",
    "C75_methods",
    "C75_through_the_class",
    "C75_class_method",
    "C75_class_method_own",
    "C75_without_class_decorators",
    "C75_data",
    "C75_no_new_names",
    "C75_single_inheritance",
    "C75_other_classes",
    "C75_after_the_decorator",
    "C75_exactly_which",
    "C75_static_on_instance_refuted",
    "C75_class_method_refuted",
    "C75_nested_class_refuted",
    "C75_not_listed_refuted",
    "C75_class_method_priority_refuted",
    "C75_diamond_refuted"
   ],
   "note": "Callables are terms (functions, other callables, wrappers, bound methods) with the equality of Python; getattr on classes and instances follows the descriptor protocol; the method resolution order is given. Keyword arguments, attributes of instances and metaclasses are left out. Seven refutations."
  },
  {
   "property": "C76",
   "status": "proved",
   "theorems": [
    "C76_empty",
    "C76_repr",
    "C76_record",
    "C76_log_object",
    "C76_token",
    "C76_rule",
    "C76_settings",
    "C76_setting",
    "C76_weak_empty",
    "C76_forged_refuted",
    "C76_settings_quotes_refuted",
    "C76_weak_string_refuted"
   ],
   "note": "A value is a string or something of which only the text given by str() is kept. Three refutations."
  },
  {
   "property": "C77",
   "status": "proved",
   "theorems": [
    "C77_readings",
    "C77_times",
    "C77_call",
    "C77_standing_clock",
    "C77_never_negative_refuted",
    "C77_written_in_order_of_time_refuted",
    "C77_before_or_inside_refuted"
   ],
   "note": "For programs whose log.suppress(...) arguments are exceptions; Call_Model is proved to be this model with a clock standing still. Three refutations."
  },
  {
   "property": "C78",
   "status": "proved",
   "theorems": [
    "C78_same_settings",
    "C78_at_rest",
    "C78_always",
    "C78_logging_off",
    "C78_never_stuck",
    "C78_reading_tells_refuted",
    "C78_off_and_on_refuted"
   ],
   "note": "Builtins.log is only changed by polog here (what others do to it is C69); adding and removing a filter is one step. Two refutations."
  },
  {
   "property": "C79",
   "status": "proved",
   "theorems": [
    "C79_current_engine",
    "C79_stopped_before_next",
    "C79_setting_in_force",
    "C79_lazy",
    "C79_write",
    "C79_not_after_stop",
    "C79_never_stuck",
    "C79_stuck_for_ever",
    "C79_story",
    "C79_first_fails",
    "C79_stopped_not_used_refuted",
    "C79_reading_settings_refuted",
    "C79_logging_constructor_refuted"
   ],
   "note": "Operations one after another, by any threads (polog's own engines under threads are C14-C21, C54, C55). Three refutations."
  },
  {
   "property": "C80",
   "status": "proved",
   "theorems": [
    "C80_same_answers",
    "C80_same_registry",
    "C80_original_alive",
    "C80_replaced_is_free",
    "C80_replaced_can_die",
    "C80_no_leak"
   ],
   "note": "Function objects compared by identity; collections between calls of decorators."
  },
  {
   "property": "C81",
   "status": "proved",
   "theorems": [
    "C81_never_raises",
    "C81_finishes",
    "C81_locks",
    "C81_locks_stay",
    "C81_points",
    "C81_once",
    "C81_filter",
    "C81_never_twice",
    "C81_filter_refuted"
   ],
   "note": "One initialisation at a time (they hold the lock of the class); an assignment with its action is one event; waiting for the lock of a point (set_store_object, set_name) is not modelled."
  }
 ]
}