{
 "claims": [
  {
   "property": "C01",
   "status": "proved",
   "theorems": [
    "C01_interning_injective"
   ],
   "note": ""
  },
  {
   "property": "C02",
   "status": "proved",
   "theorems": [
    "C02_interned_items_retrievable"
   ],
   "note": ""
  },
  {
   "property": "C03",
   "status": "proved",
   "theorems": [
    "C03_len_counts_distinct_items",
    "C03_panics_exactly_when_exhausted",
    "C03_reinterning_is_noop"
   ],
   "note": ""
  },
  {
   "property": "C04",
   "status": "proved",
   "theorems": [
    "C04_sequence_key_lossless_or_refused",
    "C04_distinct_ranges_distinct_keys"
   ],
   "note": ""
  },
  {
   "property": "C05",
   "status": "proved",
   "theorems": [
    "C05_sequence_interning_injective",
    "C05_sequences_retrievable",
    "C05_reinterning_is_noop",
    "C05_statistics",
    "C05_panics_exactly_when_unrepresentable"
   ],
   "note": ""
  },
  {
   "property": "C06",
   "status": "proved",
   "theorems": [
    "C06_entries_are_transactions"
   ],
   "note": "Includes the exact panic case of exhausted keys (see C07)."
  },
  {
   "property": "C07",
   "status": "proved",
   "theorems": [
    "C07_entry_agrees_with_intern_refuted",
    "C07_exhausted_entries_always_panic"
   ],
   "note": "The property is false of the code; its negation is proved (_refuted), with the general failing condition."
  },
  {
   "property": "C08",
   "status": "proved",
   "theorems": [
    "C08_recursive_interning_never_leaks",
    "C08_scratch_buffers_recycled"
   ],
   "note": ""
  },
  {
   "property": "C09",
   "status": "proved",
   "theorems": [
    "C09_paths_normalised",
    "C09_equal_keys_iff_equal_normal_forms",
    "C09_relative_paths_rejected",
    "C09_normal_forms_are_normal",
    "C09_panics_leave_keys_valid",
    "C09_statistics"
   ],
   "note": ""
  },
  {
   "property": "C10",
   "status": "proved",
   "theorems": [
    "C10_long_paths_always_panic",
    "C10_long_paths_reported_refuted"
   ],
   "note": "The property is false of the code; its negation is proved (_refuted): every absolute path of 255 or more names panics in every reachable state."
  },
  {
   "property": "C11",
   "status": "proved",
   "theorems": [
    "C11_descendants",
    "C11_descendants_are_contained_activities",
    "C11_direct_children_are_the_closest_descendants",
    "C11_parent_is_inverse_of_direct_children",
    "C11_roots_are_the_activities_without_parent"
   ],
   "note": "Containment is exact for activities of positive duration; for zero-length activities at a boundary the exact condition (nothing between them starts earlier) is proved."
  },
  {
   "property": "C12",
   "status": "proved",
   "theorems": [
    "C12_all_activities_in_input_order",
    "C12_root_subtrees_partition",
    "C12_subtrees_are_contiguous",
    "C12_children_listed_latest_first"
   ],
   "note": ""
  },
  {
   "property": "C13",
   "status": "proved",
   "theorems": [
    "C13_parents_enclose_children",
    "C13_siblings_do_not_overlap"
   ],
   "note": ""
  },
  {
   "property": "C14",
   "status": "proved",
   "theorems": [
    "C14_accepts_exactly_well_nested_traces",
    "C14_errors_name_the_first_violation"
   ],
   "note": ""
  },
  {
   "property": "C15",
   "status": "proved",
   "theorems": [
    "C15_build_never_panics"
   ],
   "note": ""
  },
  {
   "property": "C16",
   "status": "proved",
   "theorems": [
    "C16_self_duration_is_what_children_leave",
    "C16_subtree_self_durations_sum_to_duration",
    "C16_all_self_durations_sum_to_root_durations",
    "C16_self_durations_not_negative"
   ],
   "note": "Exact (integer) time stamps, as stated in the quantifier; f64 rounding is outside the model."
  },
  {
   "property": "C17",
   "status": "proved",
   "theorems": [
    "C17_failed_insert_leaves_builder_refuted"
   ],
   "note": "The property is false of the code; its negation is proved (_refuted): after a rejected insertion build panics."
  },
  {
   "property": "C18",
   "status": "proved",
   "theorems": [
    "C18_loads_exactly",
    "C18_activities_are_the_complete_events_above_1us",
    "C18_known_activities_have_the_documented_arguments",
    "C18_global_stats_are_the_other_complete_events",
    "C18_names_are_those_of_the_metadata"
   ],
   "note": "exact characterisation of loading from the deserialised document (serde_json not modelled; timestamps exact)"
  },
  {
   "property": "C19",
   "status": "proved",
   "theorems": [
    "C19_rejects_inconsistent_traces",
    "C19_errors_describe_the_first_offending_event"
   ],
   "note": "every rejection, and errors describe the first offending event"
  },
  {
   "property": "C20",
   "status": "proved",
   "theorems": [
    "C20_loading_panics_only_on_empty_lists_and_details",
    "C20_empty_event_list_refuted",
    "C20_empty_detail_refuted"
   ],
   "note": "refuted for empty event lists and empty details; proved to be the only panics"
  },
  {
   "property": "C21",
   "status": "proved",
   "theorems": [
    "C21_map_order_is_irrelevant",
    "C21_which_error_is_reported_refuted"
   ],
   "note": "acceptance, result and panics do not depend on map order; which error is reported does (refuted part)"
  },
  {
   "property": "C22",
   "status": "proved",
   "theorems": [
    "C22_relative_paths_panic_refuted",
    "C22_absolute_paths_and_modules"
   ],
   "note": "refuted: every relative path panics; other cases right"
  },
  {
   "property": "C23",
   "status": "proved",
   "theorems": [
    "C23_value_of_numbers",
    "C23_only_numbers",
    "C23_display_then_parse"
   ],
   "note": "Value, converse and display-parse round trip, for literals followed by something that does not continue a word."
  },
  {
   "property": "C24",
   "status": "proved",
   "theorems": [
    "C24_value_of_characters",
    "C24_display_then_parse",
    "C24_display_of_characters",
    "C24_refuted"
   ],
   "note": "The round trip is false of the code for characters shown as \\u{..}; its failure for exactly these is proved (_refuted and display_then_parse), with the Unicode printable table as a parameter. The accepted literals and the displayed text of every character are characterised exactly."
  },
  {
   "property": "C25",
   "status": "proved",
   "theorems": [
    "C25_cv_is_a_set",
    "C25_every_text",
    "C25_display_then_parse",
    "C25_references"
   ],
   "note": ""
  },
  {
   "property": "C26",
   "status": "proved",
   "theorems": [
    "C26_legal_combinations",
    "C26_every_text",
    "C26_order_independent",
    "C26_display_then_parse"
   ],
   "note": "The table of legal combinations in Cpp_Lex_Spec.v is the specification."
  },
  {
   "property": "C27",
   "status": "proved",
   "theorems": [
    "C27_keywords_are_whole_words",
    "C27_identifiers_are_maximal",
    "C27_refuted"
   ],
   "note": "Proved of the keyword and identifier parsers; false of `new` in value position, which uses a plain text match (C27_refuted)."
  },
  {
   "property": "C28",
   "status": "proved",
   "theorems": [
    "C28_operators_read_their_text",
    "C28_texts_determine_operators",
    "C28_longest_binary_operator",
    "C28_binary_display_then_parse",
    "C28_overload_display_then_parse"
   ],
   "note": "The overload theorem leaves out << and <<=, whose text is ambiguous with < and template parameters (example beside it)."
  },
  {
   "property": "C29",
   "status": "proved",
   "theorems": [
    "C29_refuted",
    "C29_panics_only_if",
    "C29_verdict"
   ],
   "note": "Refuted as first stated (C29_refuted: three inputs). The statement now lists the three reasons; C29_verdict proves that every other string gets a verdict and C29_panics_only_if relates each reason to its shape of input."
  },
  {
   "property": "C30",
   "status": "proved",
   "theorems": [
    "C30_bounded_display_fits"
   ],
   "note": "For all AST values, not only parsed ones, and all width functions giving the ellipsis width 1. A budget of 0 columns panics, as documented in the code."
  },
  {
   "property": "C31",
   "status": "proved",
   "theorems": [
    "C31_bounded_display_is_deepest",
    "C31_nothing_deeper_fits"
   ],
   "note": "The second theorem adds that no deeper rendering that fits is missed; it needs the restrictions of C32."
  },
  {
   "property": "C32",
   "status": "proved",
   "theorems": [
    "C32_full_display_iff_it_fits",
    "C32_refuted"
   ],
   "note": "Exact characterisation (iff) for entities without `::x` and `f(...)`; these two are refuted in C32_refuted."
  },
  {
   "property": "C33",
   "status": "proved",
   "theorems": [
    "C33_recursion_is_balanced"
   ],
   "note": ""
  },
  {
   "property": "C34",
   "status": "proved",
   "theorems": [
    "C34_displayed_path_fits",
    "C34_one_component_refuted"
   ],
   "note": "Proved for two or more components; _refuted for one-component paths, as stated."
  },
  {
   "property": "C35",
   "status": "proved",
   "theorems": [
    "C35_displayed_path_shape",
    "C35_path_that_fits_is_shown_in_full",
    "C35_exact_fit_refuted",
    "C35_file_name_shown_and_selection_maximal"
   ],
   "note": "Shape and maximality proved; the exact-fit part is _refuted for two-component absolute paths, as stated. Extra laws on the width function are explicit hypotheses (UI_Spec.v)."
  },
  {
   "property": "C36",
   "status": "proved",
   "theorems": [
    "C36_short_string_unchanged",
    "C36_long_string_elided",
    "C36_displayed_string_fits"
   ],
   "note": ""
  },
  {
   "property": "C37",
   "status": "proved",
   "theorems": [
    "C37_description_fits_or_is_refused",
    "C37_activity_line_fits",
    "C37_activity_line_content",
    "C37_detailed_description_is_complete",
    "C37_argument_gets_the_remaining_columns",
    "C37_short_argument_is_complete"
   ],
   "note": "Hypothesis cpp_fits (bounded C++ display honours its budget) is what C31 establishes for cpparser."
  },
  {
   "property": "C38",
   "status": "proved",
   "theorems": [
    "C38_metadata_lines_fit",
    "C38_panics_exactly",
    "C38_metadata_text",
    "C38_narrow_screen",
    "C38_any_recording_date_refuted"
   ],
   "note": "Fitting and content proved for dates in years 0-9999; outside, the panic is proved (_refuted)."
  },
  {
   "property": "C39",
   "status": "proved",
   "theorems": [
    "C39_duration_display_canonical"
   ],
   "note": "Durations in whole microseconds; two-decimal formatting is any rounding to nearest."
  },
  {
   "property": "C40",
   "status": "proved",
   "theorems": [
    "C40_profile_lines_fit",
    "C40_profile_content",
    "C40_drawing"
   ],
   "note": "Width of every line, and exact content of the tree."
  },
  {
   "property": "C41",
   "status": "proved",
   "theorems": [
    "C41_breakdown",
    "C41_breakdown_of_trace_adds_up_to_root_durations",
    "C41_hottest"
   ],
   "note": ""
  },
  {
   "property": "C42",
   "status": "proved",
   "theorems": [
    "C42_success_is_one_row_per_entry",
    "C42_success_is_possible"
   ],
   "note": ""
  },
  {
   "property": "C43",
   "status": "proved",
   "theorems": [
    "C43_every_job_is_in_exactly_one_place",
    "C43_no_concurrent_work_on_one_entry"
   ],
   "note": ""
  },
  {
   "property": "C44",
   "status": "proved",
   "theorems": [
    "C44_no_lost_wakeup",
    "C44_progress",
    "C44_bounded_work",
    "C44_can_always_finish"
   ],
   "note": "For 1 to 2^32-4 workers. Idle trips (empty polls) are not counted as progress; the bound on productive steps holds for every schedule."
  },
  {
   "property": "C45",
   "status": "proved",
   "theorems": [
    "C45_every_worker_can_act_until_it_ends",
    "C45_kill_is_seen",
    "C45_nothing_starts_after_a_kill"
   ],
   "note": "Every worker can act until it ends (join phase) and productive steps are bounded (C44_bounded_work)."
  },
  {
   "property": "C46",
   "status": "proved",
   "theorems": [
    "C46_flags_are_the_set_of_running_workers",
    "C46_any_workers_can_be_stopped",
    "C46_listing_refuted"
   ],
   "note": "Listing is _refuted exactly when a 64-worker word has only its last worker running, as stated."
  },
  {
   "property": "C47",
   "status": "proved",
   "theorems": [
    "C47_a_memory_check_is_a_round_of_the_killer",
    "C47_what_a_round_does",
    "C47_many_workers_refuted"
   ],
   "note": "For at most 63 workers; the panic beyond is proved (_refuted)."
  },
  {
   "property": "C48",
   "status": "proved",
   "theorems": [
    "C48_refresh_finds_exactly_the_descendants",
    "C48_memory_and_kill",
    "C48_cyclic_table_refuted"
   ],
   "note": "Acyclic tables exact; cyclic tables diverge for every fuel (_refuted)."
  },
  {
   "property": "C49",
   "status": "proved",
   "theorems": [
    "C49_lookup_finds_the_last_entry",
    "C49_lookup_fails_only_for_unknown_paths",
    "C49_entries_are_what_lookup_finds",
    "C49_push_panics_exactly_on_duplicates",
    "C49_exact_string_match_refuted"
   ],
   "note": "Lookup, entries and push for all entry lists; paths compare by components. The documented exact string match is refuted."
  },
  {
   "property": "C50",
   "status": "proved",
   "theorems": [
    "C50_outdated_means_older_than_an_input",
    "C50_nonexistent_means_not_found",
    "C50_errors_come_from_file_queries",
    "C50_failing_queries_are_not_ignored",
    "C50_inputs_of_profiles",
    "C50_prompt",
    "C50_shown_age_refuted",
    "C50_shown_age"
   ],
   "note": "For all file times and query results; prompt and shown age. Shown age of a future-dated profile refuted."
  },
  {
   "property": "C51",
   "status": "proved",
   "theorems": [
    "C51_error_exactly_for_bad_times",
    "C51_duration_of_other_times",
    "C51_new_profiles_are_good",
    "C51_same_stored_time_refuted"
   ],
   "note": "All f32 values; executable binary32 model; repo proptest unit_profile_new refuted (15 ns)."
  },
  {
   "property": "C52",
   "status": "proved",
   "theorems": [
    "C52_answers_are_current",
    "C52_no_crash_of_its_own",
    "C52_no_stale_trace",
    "C52_interned_arguments_are_stable"
   ],
   "note": "For any trace library whose parsing is stable (shown for interned arguments): every reply after any history equals a fresh computation; no crash beyond those of the library; a request without a current trace crashes rather than answer from an older one."
  },
  {
   "property": "C53",
   "status": "proved",
   "theorems": [
    "C53_replies_match_requests",
    "C53_one_reply_each",
    "C53_replies_come"
   ],
   "note": "Two-thread model, all schedules: what fetch returns is the right answer to that very request, one reply per request in order, and a waiting UI always progresses towards the reply or a worker crash."
  },
  {
   "property": "C54",
   "status": "proved",
   "theorems": [
    "C54_cancelled_never_shown",
    "C54_source_of_activities",
    "C54_shows_what_was_asked",
    "C54_dialog_not_forgotten"
   ],
   "note": "cancelled_never_shown and source_of_activities hold for all executions; shows_what_was_asked and dialog_not_forgotten for executions in which the result of a measurement is opened while nothing else is (needed: see C55_busy_refuted)"
  },
  {
   "property": "C55",
   "status": "proved",
   "theorems": [
    "C55_stack_mirrors_screen",
    "C55_no_crash",
    "C55_escape",
    "C55_backtrace",
    "C55_global_dialogs",
    "C55_zoom",
    "C55_flip",
    "C55_busy_refuted"
   ],
   "note": "for executions in which the result of a measurement is only opened while nothing else is displayed, loaded or measured; C55_busy_refuted shows that in other executions (the user opens a unit between the end of a measurement and the opening of its result) the record stops mirroring the screen and the program can crash"
  },
  {
   "property": "C56",
   "status": "proved",
   "theorems": [
    "C56_previous_trace_is_kept",
    "C56_failure_restores",
    "C56_success_keeps_the_new_trace",
    "C56_success_is_possible",
    "C56_measurements_can_end",
    "C56_sessions",
    "C56_reported_errors_are_real",
    "C56_silent_failure_leaves_no_partial_output",
    "C56_lingering_clang_refuted",
    "C56_errors_are_reported_refuted",
    "C56_second_crash_refuted"
   ],
   "note": "All crash points, clang behaviours and I/O faults: the previous trace stays readable at its path or backup path until a success; orderly failure restores it; sessions of any length. Refuted parts, each with a reachable execution: processes that outlive the kill, an error of the restoration that is not reported, a second run after a crash."
  },
  {
   "property": "C57",
   "status": "proved",
   "theorems": [
    "C57_previous_profile_is_kept",
    "C57_late_abort_restores",
    "C57_success",
    "C57_reported_success_is_real",
    "C57_no_late_writes",
    "C57_reported_errors_are_real",
    "C57_early_abort_refuted",
    "C57_early_abort_leaves_output_refuted",
    "C57_reported_success_refuted",
    "C57_deleted_profile_refuted"
   ],
   "note": "All schedules of UI and measuring thread: kept until restored, back for good if the thread created its file before the abort, nothing after the join. Refuted: early abort truncates the restored profile or leaves an empty one; success may be reported for the restored old profile; a backup left by a success comes back later."
  },
  {
   "property": "C58",
   "status": "proved",
   "theorems": [
    "C58_large_output_refuted",
    "C58_small_output_is_collected"
   ],
   "note": "The property is false of the code; its negation is proved (_refuted) for every output larger than the pipe."
  },
  {
   "property": "C59",
   "status": "proved",
   "theorems": [
    "C59_error_stops_compilations_refuted"
   ],
   "note": "The property is false of the code; its negation is proved (_refuted) for every list of entries."
  },
  {
   "property": "C60",
   "status": "proved",
   "theorems": [
    "C60_output_is_the_argument_of_dash_o"
   ],
   "note": "Up to equality of paths; canonicalize is an arbitrary oracle; shlex word splitting is an input."
  },
  {
   "property": "C61",
   "status": "proved",
   "theorems": [
    "C61_loaded_arguments_are_well_formed",
    "C61_argument_parsing_panics_only_on_bad_paths_and_entities",
    "C61_arguments_are_shown_as_what_they_say",
    "C61_rejected_arguments"
   ],
   "note": ""
  },
  {
   "property": "C62",
   "status": "proved",
   "theorems": [
    "C62_guess_is_what_it_looks_like",
    "C62_every_non_empty_detail_has_a_guess",
    "C62_guessed_types_fit",
    "C62_guessed_arguments_parse"
   ],
   "note": ""
  },
  {
   "property": "C63",
   "status": "proved",
   "theorems": [
    "C63_deeper_is_wider",
    "C63_depth_suffices"
   ],
   "note": "Stability holds strictly beyond the recursion depth; at it, C32_refuted shows it fails for `::x`."
  },
  {
   "property": "C64",
   "status": "proved",
   "theorems": [
    "C64_parsing_terminates"
   ],
   "note": "In the model the recursion is cut off by a budget; the theorem shows that no budget above the length of the text is ever exhausted or changes the result."
  },
  {
   "property": "C65",
   "status": "proved",
   "theorems": [
    "C65_parsed_entities_are_well_formed"
   ],
   "note": ""
  },
  {
   "property": "C66",
   "status": "proved",
   "theorems": [
    "C66_uniform_settings"
   ],
   "note": "same executions as C55"
  },
  {
   "property": "C67",
   "status": "proved",
   "theorems": [
    "C67_all_traces_refuted"
   ],
   "note": "refuted: the theorem gives two traces which make the program crash; C55_no_crash shows that these are the only such traces"
  },
  {
   "property": "C68",
   "status": "proved",
   "theorems": [
    "C68_opened_after_success",
    "C68_opened_once",
    "C68_outcome",
    "C68_outcome_complete"
   ],
   "note": "outcome holds in every state, the other two for every execution"
  },
  {
   "property": "C69",
   "status": "proved",
   "theorems": [
    "C69_loads_exactly",
    "C69_format_errors_exactly",
    "C69_metadata_errors_exactly",
    "C69_panics_only_if",
    "C69_no_event_panics_refuted",
    "C69_malformed_stack_trace_ignored"
   ],
   "note": "Exact characterisation of the documents that load, and necessary condition for panics; the no-panic reading is refuted."
  },
  {
   "property": "C70",
   "status": "proved",
   "theorems": [
    "C70_field_order_is_irrelevant",
    "C70_unknown_event_field_ignored",
    "C70_unknown_document_field_ignored",
    "C70_duplicate_document_field_rejected",
    "C70_duplicate_event_field_rejected",
    "C70_two_stack_traces_refuted"
   ],
   "note": "Holds except for events with both kinds of stack traces (refuted)."
  },
  {
   "property": "C71",
   "status": "proved",
   "theorems": [
    "C71_report",
    "C71_several_roots_panic",
    "C71_profile_lines_fit",
    "C71_no_trace_no_output",
    "C71_failures_are_explained",
    "C71_every_trace_refuted",
    "C71_any_width_refuted",
    "C71_whole_report_fits_refuted",
    "C71_hidden_below_threshold_refuted",
    "C71_no_time_no_hot_activity",
    "C71_odd_thresholds"
   ],
   "note": "The report, its order, thresholds, counts and line widths proved for all traces with one root and at least three columns; several roots shown to panic for all of them; the four over-strong readings refuted by witnesses."
  },
  {
   "property": "C72",
   "status": "proved",
   "theorems": [
    "C72_clang_detection",
    "C72_used_iff_recent",
    "C72_any_recent_version_refuted"
   ],
   "note": "Full decision table proved as an equivalence; over-strong reading refuted."
  },
  {
   "property": "C73",
   "status": "proved",
   "theorems": [
    "C73_sessions",
    "C73_consent",
    "C73_shown_profile",
    "C73_sessions_end",
    "C73_sessions_go_on",
    "C73_result_is_used",
    "C73_abort_ends_the_session",
    "C73_screens_remain_refuted"
   ],
   "note": "Complete histories without abort characterised exactly; consent, shown profile, termination, use of the result for all histories; dialogs closed by stale quit requests after an abort refuted by witnesses and shown for all aborted sessions."
  },
  {
   "property": "C74",
   "status": "proved",
   "theorems": [
    "C74_table_shows_the_profile",
    "C74_columns",
    "C74_first_order",
    "C74_sorted",
    "C74_narrow_terminal_refuted",
    "C74_missing_time_refuted",
    "C74_nan_time_refuted",
    "C74_short_path_refuted"
   ],
   "note": "Assumes a sorting algorithm that sorts total preorders by comparing elements of the list; formats of numbers are parameters. The refuted cases (narrow terminals, mixed or NaN times, paths of less than two components) are theorems of their own."
  },
  {
   "property": "C75",
   "status": "proved",
   "theorems": [
    "C75_answer",
    "C75_wait_ends",
    "C75_no_livelock",
    "C75_verbose_clang_refuted"
   ],
   "note": "Pipes are bounded queues; the case of more output than a pipe holds is refuted by C75_verbose_clang_refuted. What lingers after a kill is covered by C56."
  },
  {
   "property": "C76",
   "status": "proved",
   "theorems": [
    "C76_core_text_is_read",
    "C76_core_entity_is_displayed",
    "C76_written_is_displayed",
    "C76_displayed_core_is_read_back",
    "C76_same_text_same_entity",
    "C76_unknown_entity",
    "C76_round_trip_refuted"
   ],
   "note": "Reading (as clang writes it and as crofiler displays it), display, round trip and injectivity for the whole core of Cpp_Core_Spec.v; the same for arbitrary accepted texts is refuted."
  },
  {
   "property": "C77",
   "status": "proved",
   "theorems": [
    "C77_saved_profile_loads",
    "C77_measured_units_are_loaded",
    "C77_tables_are_read",
    "C77_cut_profile",
    "C77_interrupted_profile",
    "C77_errors",
    "C77_cut_time_is_noticed_refuted",
    "C77_foreign_files_are_refused_refuted"
   ],
   "note": "for all profiles, tables and cut points; what the csv crate and serde do is transcribed by hand; reading and printing f32 are parameters that are assumed to be inverse up to value"
  },
  {
   "property": "C78",
   "status": "proved",
   "theorems": [
    "C78_commands_run_as_written",
    "C78_trace_commands",
    "C78_every_command_can_be_written",
    "C78_every_text_is_covered",
    "C78_broken_commands",
    "C78_broken_commands_are_refused_refuted",
    "C78_line_continuations_refuted",
    "C78_output_of_a_command"
   ],
   "note": "for all texts; what the shlex crate does is transcribed by hand"
  },
  {
   "property": "C79",
   "status": "proved",
   "theorems": [
    "C79_stored_path_names_the_input",
    "C79_stored_path_is_relative",
    "C79_measured_unit_is_found",
    "C79_loaded_unit_is_found",
    "C79_what_is_found",
    "C79_linked_inputs_refuted",
    "C79_relative_inputs_refuted"
   ],
   "note": "The file system is a function from places to nodes; symbolic links up to any limit. Two readings are refuted: inputs through links and relative inputs are measured but not found again."
  },
  {
   "property": "C80",
   "status": "proved",
   "theorems": [
    "C80_trace_of_an_entry",
    "C80_command_of_an_entry",
    "C80_never_measured_unasked"
   ],
   "note": "Up to spelling of the trace path. The age shown for a trace from the future is refuted under C50."
  },
  {
   "property": "C81",
   "status": "proved",
   "theorems": [
    "C81_prints_one_line",
    "C81_or_fails",
    "C81_argument_first",
    "C81_no_prompt",
    "C81_complete_if_it_fits",
    "C81_core_names"
   ],
   "note": "composition of C30-C32, C65, C76"
  },
  {
   "property": "C82",
   "status": "proved",
   "theorems": [
    "C82_arithmetic",
    "C82_rounding_determined",
    "C82_end_is_the_rounded_sum",
    "C82_activities_listed",
    "C82_descendants",
    "C82_descendants_are_contained_activities",
    "C82_direct_children_are_the_closest_descendants",
    "C82_parent_is_inverse_of_direct_children",
    "C82_roots_are_the_activities_without_parent",
    "C82_parents_enclose_children",
    "C82_siblings_do_not_overlap",
    "C82_accepts_exactly_well_nested_traces",
    "C82_errors_name_the_first_violation",
    "C82_build_never_panics",
    "C82_self_duration",
    "C82_whole_times_are_exact",
    "C82_self_durations_not_negative_refuted"
   ],
   "note": "f64 arithmetic modelled bit-exactly except for signed zeros; C82_self_durations_not_negative_refuted: the bound of 2^53 in the exactness theorem is sharp"
  },
  {
   "property": "C83",
   "status": "proved",
   "theorems": [
    "C83_arithmetic",
    "C83_share_rounds",
    "C83_share_monotone",
    "C83_share_at_most_one",
    "C83_share_accurate",
    "C83_threshold_right_outside_margin",
    "C83_hottest",
    "C83_breakdown",
    "C83_whole_breakdown_exact",
    "C83_rows_comparable",
    "C83_only_nan_panics",
    "C83_whole_is_100_percent_refuted",
    "C83_breakdown_never_panics_refuted"
   ],
   "note": "IEEE arithmetic on integers of 2^-1074; the two refuted theorems show the rounding and overflow cases that do fail in the code"
  }
 ]
}