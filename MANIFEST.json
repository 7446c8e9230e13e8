{
 "claims": [
  {
   "property": "C01",
   "status": "proved",
   "theorems": [
    "C01_get_after_any_history",
    "C01_set_reports_presence",
    "C01_assignment_copies_everything"
   ],
   "note": "For every history of the thirteen mutators."
  },
  {
   "property": "C02",
   "status": "proved",
   "theorems": [
    "C02_indexed_entries_never_alias",
    "C02_indexed_access_safe_range",
    "C02_plain_name_alias",
    "C02_plain_name_alias_refuted"
   ],
   "note": "Indexed entries never alias each other; a plain name that contains ':digits' does alias an indexed entry (finding)."
  },
  {
   "property": "C03",
   "status": "proved",
   "theorems": [
    "C03_refines_task_queue",
    "C03_every_task_exactly_once",
    "C03_false_only_when_exhausted",
    "C03_cancel_stops_distribution",
    "C03_statistics_exact",
    "C03_cancel_overflow_refuted"
   ],
   "note": "All interleavings of calls. cancel() overflows int when called often enough (finding)."
  },
  {
   "property": "C04",
   "status": "proved",
   "theorems": [
    "C04_group_tasks_in_order",
    "C04_members_agree"
   ],
   "note": ""
  },
  {
   "property": "C09",
   "status": "proved",
   "theorems": [
    "C09_divide_contiguous_groups",
    "C09_divide_group_members"
   ],
   "note": ""
  },
  {
   "property": "C16",
   "status": "proved",
   "theorems": [
    "C16_check_true_is_conjunction",
    "C16_check_true_somewhere_is_disjunction"
   ],
   "note": ""
  },
  {
   "property": "C05",
   "status": "proved",
   "theorems": [
    "C05_int_keys",
    "C05_pair_keys",
    "C05_empty_add_keeps_content",
    "C05_no_query_leaves_values",
    "C05_negative_key_is_undefined"
   ],
   "note": "All orders of the concurrent reservations and puts. Findings: negative keys are UB; values not cleared when nobody asks."
  },
  {
   "property": "C06",
   "status": "proved",
   "theorems": [
    "C06_stored_vector_is_returned",
    "C06_bad_indices_throw",
    "C06_gap_reads_empty_refuted",
    "C06_all_empty_store_refuted"
   ],
   "note": "All orders of puts, non-empty vectors. Finding: reading an index without data is not an empty vector but an empty-range GA request (outside the GA contract)."
  },
  {
   "property": "C07",
   "status": "partial",
   "theorems": [
    "C07_values_after_upload_partial",
    "C07_bad_indices_throw_partial",
    "C07_values_after_upload_refuted",
    "C07_duplicates_throw_refuted",
    "C07_reload_replaces_exactly"
   ],
   "note": "Proved under a barrier between the two operations of each phase; the code has none, and the refuted theorems exhibit schedules where an element is lost and duplicates go unnoticed. reload is proved without condition."
  },
  {
   "property": "C08",
   "status": "proved",
   "theorems": [
    "C08_shuffler_delivers",
    "C08_nothing_lost_or_duplicated",
    "C08_bad_destination_is_undefined"
   ],
   "note": ""
  },
  {
   "property": "C10",
   "status": "proved",
   "theorems": [
    "C10_partition_distributes",
    "C10_active_exactly_once",
    "C10_one_ghost_per_bus_refuted",
    "C10_unknown_end_refuted"
   ],
   "note": "For every answer of the external partitioner, every GA block distribution and every order of the concurrent scatters. Findings: several ghost copies of one bus; a branch naming an unknown bus is attached to global bus 0."
  },
  {
   "property": "C13",
   "status": "proved",
   "theorems": [
    "C13_clean_keeps_active",
    "C13_references_preserved",
    "C13_reference_bus_preserved",
    "C13_reference_bus_refuted",
    "C13_lookup_after_clean_refuted"
   ],
   "note": "Findings: a ghost reference bus turns into local bus 0; the original-number maps are stale after clean."
  },
  {
   "property": "C14",
   "status": "proved",
   "theorems": [
    "C14_neighbour_queries"
   ],
   "note": "Self-loops appear twice, parallel branches once each."
  },
  {
   "property": "C11",
   "status": "proved",
   "theorems": [
    "C11_reset_global_indices",
    "C11_branch_ends_stale_refuted"
   ],
   "note": "For every order of the concurrent hash map operations; keys must be valid hash keys (see C05). Finding: the end indices stored with branches stay stale."
  },
  {
   "property": "C12",
   "status": "proved",
   "theorems": [
    "C12_bus_update",
    "C12_illegal_index_throws"
   ],
   "note": ""
  },
  {
   "property": "C15",
   "status": "proved",
   "theorems": [
    "C15_set_components",
    "C15_after_partition"
   ],
   "note": "Also composed with partition: every partitioned network meets the hypotheses."
  },
  {
   "property": "C41",
   "status": "partial",
   "theorems": [
    "C41_branch_update_partial",
    "C41_branch_update_refuted"
   ],
   "note": "False of the code on more than one process: initBranchUpdate writes past a one-element allocation. The copy phase itself is proved."
  },
  {
   "property": "C17",
   "status": "proved",
   "theorems": [
    "C17_full_matrix",
    "C17_every_position",
    "C17_rows_local",
    "C17_process_without_buses_refuted",
    "C17_check_refuted"
   ],
   "note": "Any order of the concurrent scatters, puts and insertions. Requires every process to own a bus (refuted otherwise) and at most one branch per bus pair. check() is refuted."
  },
  {
   "property": "C18",
   "status": "proved",
   "theorems": [
    "C18_vector",
    "C18_round_trip",
    "C18_local_offset"
   ],
   "note": "Any order of the insertions of all processes."
  },
  {
   "property": "C19",
   "status": "proved",
   "theorems": [
    "C19_index_ranges",
    "C19_after_partition",
    "C19_network_vector_network",
    "C19_vector_network_vector",
    "C19_self_loop_refuted"
   ],
   "note": "Rows, columns and vector indices share one model; self loops are refuted."
  },
  {
   "property": "C42",
   "status": "partial",
   "theorems": [
    "C42_branch_values_inserted_once_partial",
    "C42_branch_value_lost_refuted"
   ],
   "note": "False of the code for values in the branch's own columns: nobody inserts them when the row belongs to another process."
  },
  {
   "property": "C23",
   "status": "partial",
   "theorems": [
    "C23_fields_read_back",
    "C23_line_split",
    "C23_tokenizer_ends",
    "C23_separator_fields",
    "C23_section_end",
    "C23_comment_line",
    "C23_comment_keeps_prefix",
    "C23_comment_removed_partial",
    "C23_comma_in_quotes_refuted",
    "C23_last_character_lost_refuted",
    "C23_only_tabs_refuted",
    "C23_separator_trailing_refuted",
    "C23_section_end_refuted",
    "C23_comment_refuted"
   ],
   "note": "Splitting is proved for all fields, gaps and comma pieces without commas in quotes; the lines ending a section are characterised exactly. The remaining parts of the statement are false of the code and refuted."
  },
  {
   "property": "C24",
   "status": "proved",
   "theorems": [
    "C24_tag_of_spelling",
    "C24_same_tag",
    "C24_tags_distinct",
    "C24_idempotent",
    "C24_other_text_refuted"
   ],
   "note": "For identifiers without blanks, quotes and carriage returns in every spelling; other texts are refuted."
  },
  {
   "property": "C43",
   "status": "partial",
   "theorems": [
    "C43_by_number",
    "C43_by_name_partial",
    "C43_short_name_refuted"
   ],
   "note": "By name for names up to 12 characters with at least two characters between the quotes. Findings: one-character names are read as empty, blank names read outside the string."
  },
  {
   "property": "C21",
   "status": "partial",
   "theorems": [
    "C21_branch_section_33_partial",
    "C21_branch_section_34_partial",
    "C21_pairs_once",
    "C21_unknown_names_refuted",
    "C21_owner_fraction_refuted"
   ],
   "note": "Branch records of versions 33 and 34 from the text of the section to the stored values; 2-winding transformer records are not yet included. Findings: unknown names merge branches; owner fractions are truncated to int."
  },
  {
   "property": "C22",
   "status": "proved",
   "theorems": [
    "C22_load_section",
    "C22_fixed_shunt_section",
    "C22_generator_section_33",
    "C22_generator_section_34",
    "C22_generator_section_35",
    "C22_after_bus_section",
    "C22_blank_owner_refuted"
   ],
   "note": "From the text of the section to the stored values of every bus. Finding: the documented defaults of blank owner fields are never used."
  },
  {
   "property": "C44",
   "status": "proved",
   "theorems": [
    "C44_bus_section",
    "C44_negative_bus_refuted"
   ],
   "note": "Finding: nothing can be attached to a bus written with a negative number."
  },
  {
   "property": "C45",
   "status": "partial",
   "theorems": [
    "C45_section_is_its_records_partial",
    "C45_unterminated_section_refuted"
   ],
   "note": "Proved for terminated sections; termination is refuted for load, shunt and generator sections cut off by the end of the file."
  },
  {
   "property": "C26",
   "status": "partial",
   "theorems": [
    "C26_file_lines_partial",
    "C26_close_then_open",
    "C26_nothing_without_source",
    "C26_parser_lines_partial",
    "C26_last_line_refuted",
    "C26_string_vector_refuted",
    "C26_last_line_repeats_refuted"
   ],
   "note": "Proved for files whose every line ends with a newline; the unterminated last line and the string vector source are refuted."
  },
  {
   "property": "C27",
   "status": "proved",
   "theorems": [
    "C27_prints_in_global_order",
    "C27_process_without_cells_refuted",
    "C27_unsteady_component_refuted"
   ],
   "note": "Buses and branches; write, writeStrings and gatherData. Any scatter order, any earlier content, any distribution giving every process a cell. Findings: with an empty block (fewer buses than processes) the head makes an empty-range request; components must answer the same way twice."
  },
  {
   "property": "C28",
   "status": "partial",
   "theorems": [
    "C28_get_value",
    "C28_get_output",
    "C28_get_string_partial",
    "C28_cursor",
    "C28_vector",
    "C28_children",
    "C28_processes_agree",
    "C28_open_keeps_values",
    "C28_failed_get_keeps_string_refuted",
    "C28_vector_get_replaces_refuted",
    "C28_empty_prefix_refuted",
    "C28_empty_string_file_refuted",
    "C28_second_file_refuted"
   ],
   "note": "Everything is proved except that a failed get of a string leaves the output unchanged: it strips blanks from it (refuted). Further findings: vectors are appended to the output; values of a second file are hidden by the first; an empty string vector aborts."
  },
  {
   "property": "C29",
   "status": "partial",
   "theorems": [
    "C29_mean_and_rms",
    "C29_min_and_max_partial",
    "C29_mask_counts",
    "C29_column_sums",
    "C29_masked_first_entry_min_max_refuted",
    "C29_masked_base_refuted",
    "C29_column_average_refuted"
   ],
   "note": "For every order of addColumnValues calls and every order in which blocks are finished the reports equal the per-row statistics over the real numbers (rounding not modelled). Exclusion of masked entries is proved for mean, deviation and column sums; it is refuted for min/max and for the RMS difference when the first column is masked, so the min/max theorem assumes the first entry is counted. The column average divides by all rows."
  },
  {
   "property": "C30",
   "status": "proved",
   "theorems": [
    "C30_totals",
    "C30_totals_after_partition",
    "C30_on_one_bus",
    "C30_on_one_branch",
    "C30_unknown_index",
    "C30_connected_branches_refuted",
    "C30_branch_endpoints_refuted",
    "C30_branch_endpoints_single_partial"
   ],
   "note": "Counts are of in-service devices (a device without status counts); at most ten million devices per bus (key buffer). numStorage of the base interface is the constant 0. Extra queries getConnectedBranches and getBranchEndpoints mix up local, global and original indices: refuted."
  },
  {
   "property": "C31",
   "status": "proved",
   "theorems": [
    "C31_handles",
    "C31_counts",
    "C31_time",
    "C31_handles_stay_valid",
    "C31_report",
    "C31_different_categories_hang_refuted",
    "C31_stop_before_start_refuted"
   ],
   "note": "Clock readings are exact integers. The mean/RMS lines of the report are not modelled. Findings: dump hangs when the processes have different numbers of categories; a stop before its start is not noticed."
  },
  {
   "property": "C32",
   "status": "partial",
   "theorems": [
    "C32_terminates",
    "C32_on_return",
    "C32_within_tolerance_partial",
    "C32_exception",
    "C32_affine_root",
    "C32_nan_refuted",
    "C32_loose_tolerance_refuted"
   ],
   "note": "Full statement for all problems, callbacks and linear solvers, with 'within tolerance' read as 'not greater than'; for norms that are not NaN this is 'at most'. Refuted for NaN: the loop ends silently. A tolerance of 1e30 or more computes nothing."
  },
  {
   "property": "C33",
   "status": "partial",
   "theorems": [
    "C33_arrays",
    "C33_values",
    "C33_values_concatenated",
    "C33_dispatch",
    "C33_termination_partial",
    "C33_termination_refuted",
    "C33_state_index_refuted"
   ],
   "note": "Sizes, directions, flags, values and dispatching for all histories of calls; termination exactly characterised (the first triggered component of each event is asked) and equal to the statement when no event has two triggered components; refuted otherwise."
  },
  {
   "property": "C34",
   "status": "partial",
   "theorems": [
    "C34_blocks",
    "C34_transfer_function",
    "C34_within_limits_partial",
    "C34_update_within_limits",
    "C34_rate_limits",
    "C34_step",
    "C34_init_given_output",
    "C34_init_given_input",
    "C34_init",
    "C34_init_outside_limits_refuted",
    "C34_init_ignores_input_refuted",
    "C34_integrator_input_refuted",
    "C34_slow_pole_refuted",
    "C34_rate_limits_kept_refuted",
    "C34_unlimited_block_refuted",
    "C34_corrector_first_refuted"
   ],
   "note": "Over the real numbers, for all histories of calls. Limits hold from any state within them; initialisation does not apply the limits (refuted), so the statement holds for initialisations inside the limits. Further findings: the predictor/corrector contract, integrator initialisation and slow poles."
  },
  {
   "property": "C46",
   "status": "partial",
   "theorems": [
    "C46_gain_limited",
    "C46_rate_limits",
    "C46_slope",
    "C46_deadband",
    "C46_piecewise_partial",
    "C46_piecewise_inverse",
    "C46_gates",
    "C46_number_of_segments_refuted",
    "C46_decreasing_refuted",
    "C46_falling_inverse_refuted",
    "C46_setparams_twice_refuted",
    "C46_unset_refuted",
    "C46_sentinel_refuted",
    "C46_call_limits_stay_refuted"
   ],
   "note": "Over the real numbers. Piecewise blocks are proved for ascending points with the number of points given (as all callers do) up to the 1e-5 band of the code; the documented number of segments, descending points, falling values and a second setparams are refuted."
  },
  {
   "property": "C35",
   "status": "partial",
   "theorems": [
    "C35_admittance_law_partial",
    "C35_after_switching",
    "C35_set_line_status",
    "C35_isolated",
    "C35_symmetric",
    "C35_switch_on_refuted",
    "C35_shunts_refuted",
    "C35_reversed_shunts_refuted",
    "C35_isolated_end_refuted",
    "C35_status_code_refuted",
    "C35_missing_reactance_refuted"
   ],
   "note": "Over the reals, with the physical two-port and Kirchhoff laws as specification. The law fails for switching on a branch loaded out of service, for several, out of service or switched shunts, for end shunts of reversed records, for lines in service to isolated buses and for other status codes (refutations)."
  },
  {
   "property": "C47",
   "status": "partial",
   "theorems": [
    "C47_flow_partial",
    "C47_passive",
    "C47_end_shunts_refuted",
    "C47_out_of_service_refuted"
   ],
   "note": "Proved for elements in service without end shunts; end shunts and the status are ignored by the code (refutations)."
  },
  {
   "property": "C36",
   "status": "partial",
   "theorems": [
    "C36_right_hand_side_is_the_mismatch",
    "C36_no_equation_elsewhere",
    "C36_jacobian_is_the_derivative_partial",
    "C36_evaluation_keeps_the_equations",
    "C36_inactive_branch_refuted",
    "C36_stale_state_refuted"
   ],
   "note": "Over the reals, for every network without branches from a bus to itself, against V times the conjugate of Y V. Missing from the full statement: branches flagged inactive whose admittance is not zero, and Jacobians read without evaluating the right hand side first; both are refuted."
  },
  {
   "property": "C37",
   "status": "proved",
   "theorems": [
    "C37_block_sizes_agree",
    "C37_block_exactly_between_blocks",
    "C37_values_fill_the_blocks",
    "C37_vector_matches_the_matrix",
    "C37_size_not_set_refuted",
    "C37_state_vector_refuted"
   ],
   "note": "Sizes agree for all bus types and modes; values and vectors fit the blocks in the modes used to solve. Findings: diagonal sizes are left unset in the vector modes, and mode State writes more values than announced."
  },
  {
   "property": "C38",
   "status": "partial",
   "theorems": [
    "C38_converts_exactly_beyond_limits",
    "C38_injection_at_the_limit_partial",
    "C38_clear_restores_status_partial",
    "C38_no_load_refuted",
    "C38_two_loads_refuted",
    "C38_clear_keeps_loads_refuted",
    "C38_clear_unconverted_refuted",
    "C38_clear_uninitialised_refuted",
    "C38_convert_twice_refuted"
   ],
   "note": "The condition for conversion is proved in full. The injection is preserved for exactly one load in service (none or several: refuted); clearing restores statuses and the PV flag of a converted bus (loads, unconverted buses and repeated conversions: refuted)."
  },
  {
   "property": "C39",
   "status": "proved",
   "theorems": [
    "C39_angle_in_principal_range",
    "C39_inside_unchanged",
    "C39_same_phasor",
    "C39_correction"
   ],
   "note": "Over the reals, for every history of calls on a bus, with fmod as the remainder of division rounded towards zero."
  },
  {
   "property": "C40",
   "status": "partial",
   "theorems": [
    "C40_participation_partial",
    "C40_single_generator",
    "C40_scaling_within_limits",
    "C40_scaling_one",
    "C40_switching",
    "C40_reset_restores_partial",
    "C40_zero_capacity_refuted",
    "C40_no_complete_generator_refuted",
    "C40_switching_refuted",
    "C40_second_load_refuted"
   ],
   "note": "Scaling is proved for every history. Shares add up to one when the capacities in service do not add up to zero (refuted otherwise, and after switching); resetting is proved for buses loaded once (refuted after a second load)."
  },
  {
   "property": "C48",
   "status": "partial",
   "theorems": [
    "C48_takes_out_what_it_names",
    "C48_unset_restores_partial",
    "C48_duplicate_refuted",
    "C48_nested_refuted",
    "C48_found_in_network_refuted",
    "C48_lone_bus_result_refuted",
    "C48_voltage_control_refuted"
   ],
   "note": "Setting is proved in full on one process. Unsetting restores the topology for one contingency without duplicates. Findings: duplicates and nested contingencies are not undone, the result is per process, checkLoneBus answers the opposite of its documentation, a bus without generators keeps its voltage."
  },
  {
   "property": "C49",
   "status": "partial",
   "theorems": [
    "C49_voltage_check",
    "C49_voltage_check_in_area",
    "C49_line_check",
    "C49_line_check_in_area",
    "C49_ignored_lines_partial",
    "C49_reactive_check",
    "C49_listed_lines_partial",
    "C49_reported_violations_partial",
    "C49_reported_violations_refuted",
    "C49_ignore_voltage_refuted",
    "C49_ignored_lines_refuted",
    "C49_out_of_service_refuted",
    "C49_listed_lines_refuted",
    "C49_reactive_check_in_area_refuted"
   ],
   "note": "The checks over the network are proved in full, with the recorded violations. Findings: ignoring voltage violations has no effect, ignoring lines uses rating A only, the area version of the reactive check is inverted, the check of listed lines reads the wrong tags, reading violations of several processes throws."
  },
  {
   "property": "C50",
   "status": "partial",
   "theorems": [
    "C50_total_load_partial",
    "C50_selection",
    "C50_total_load_refuted",
    "C50_total_after_scaling_refuted",
    "C50_margins_partial",
    "C50_scaling_generation",
    "C50_scaling_loads",
    "C50_same_id_refuted"
   ],
   "note": "Scaling is proved in full for distinct ids. Totals count ghost buses again and ignore scaling (refuted), margins are those of one process."
  },
  {
   "property": "C20",
   "status": "proved",
   "theorems": [
    "C20_buses",
    "C20_buses_values",
    "C20_branches",
    "C20_branches_stale_refuted",
    "C20_order_refuted"
   ],
   "note": "For every order of the puts and for the double arithmetic of the chunk boundaries as it is (counts below 2^31). Arrays of values are values here. Findings: with nothing supplied anywhere branch_ids keeps its old content; two processes receive the values of one bus in different orders."
  },
  {
   "property": "C25",
   "status": "partial",
   "theorems": [
    "C25_star_partial",
    "C25_star_as_given",
    "C25_base_refuted",
    "C25_zero_base_refuted",
    "C25_unknown_bus_refuted",
    "C25_comment_refuted",
    "C25_ratings_refuted"
   ],
   "note": "Proved for whole sections of versions 33, 34, 35: star bus, three branches, pairwise impedances, ratio, shift, status and magnetizing admittance. Missing because the code does not do it: conversion of impedances given on another base, zero bases, ratings of windings 2 and 3 in versions 34 and 35, buses not in the case, comments inside a record."
  },
  {
   "property": "C51",
   "status": "partial",
   "theorems": [
    "C51_two_windings_partial",
    "C51_case_base_refuted",
    "C51_nominal_voltage_refuted",
    "C51_reversed_refuted",
    "C51_magnetizing_refuted",
    "C51_ratings_refuted"
   ],
   "note": "Proved for whole sections of versions 33, 34, 35, with the electrical behaviour at both terminals. Missing because the code does not do it: CZ = 1 with another base, CW = 2 with a default nominal voltage, CW = 3, the ratio side of a reversed pair, the magnetizing conductance, ratings of versions 34 and 35."
  },
  {
   "property": "C52",
   "status": "partial",
   "theorems": [
    "C52_programs_partial",
    "C52_linear_solve",
    "C52_matrix_solve",
    "C52_identity_stored",
    "C52_transpose_multiply",
    "C52_transpose_multiply_refuted",
    "C52_identity_refuted",
    "C52_identity_pending_refuted"
   ],
   "note": "Proved for programs of 38 kinds of calls, by simulation; scalars are reals, not doubles. Missing because the code does not do it: transposeMultiply multiplies with the conjugate transpose; identity on an assembled sparse matrix without stored diagonal breaks the block structure, and on an unassembled one keeps pending elements."
  },
  {
   "property": "C53",
   "status": "partial",
   "theorems": [
    "C53_direct",
    "C53_serial",
    "C53_serial_partial",
    "C53_zero_guess",
    "C53_guess",
    "C53_serial_refuted",
    "C53_serial_inverse_refuted",
    "C53_serial_empty_refuted",
    "C53_matrix_solver",
    "C53_matrix_solver_change_refuted"
   ],
   "note": "Proved in full for the distributed mode. For the forced serial mode the exact behaviour is proved (C53_serial); the claim holds there only for right hand sides with the same last element, since later right hand sides keep the last element of the first (refuted)."
  },
  {
   "property": "C54",
   "status": "partial",
   "theorems": [
    "C54_bus",
    "C54_branch_partial",
    "C54_currents",
    "C54_sizes",
    "C54_gradient",
    "C54_stationary",
    "C54_minimises",
    "C54_update",
    "C54_flow_shunt_refuted",
    "C54_current_charging_refuted",
    "C54_bus_type_refuted",
    "C54_to_current_refuted",
    "C54_switched_off_refuted",
    "C54_isolated_neighbour_refuted",
    "C54_unknown_circuit_refuted",
    "C54_unmeasured_bus_refuted",
    "C54_out_of_service_refuted"
   ],
   "note": "Proved over the reals for buses without isolated neighbours, and for branch measurements of types PIJ, QIJ, PJI, QJI, IIJ that name an element in service of a branch in service. Derivatives of real flows need buses without shunt conductance, those of currents lines without charging and tap; the rest is refuted."
  },
  {
   "property": "C55",
   "status": "partial",
   "theorems": [
    "C55_block_order",
    "C55_block_deterministic",
    "C55_export_import_partial",
    "C55_zero_power_load_refuted",
    "C55_lines_overwritten_refuted",
    "C55_transformer_block_refuted",
    "C55_reversed_element_refuted",
    "C55_generator_transformer_refuted",
    "C55_line_owners_refuted",
    "C55_header_refuted",
    "C55_name_comma_refuted",
    "C55_short_name_refuted"
   ],
   "note": "The order of the records is proved in full. Reading back is proved for cases of lines whose loads have constant power; owners of lines, step-up transformers of generators, reversed elements, branches of lines and transformers, and the base power when rank 0 has no bus are lost or moved (refuted). Reading back of transformers is not modelled."
  },
  {
   "property": "C56",
   "status": "partial",
   "theorems": [
    "C56_undisturbed_partial",
    "C56_exciters",
    "C56_governors",
    "C56_saturation",
    "C56_load_types_refuted",
    "C56_classical_resistance_refuted",
    "C56_classical_base_refuted",
    "C56_classical_subtransient_refuted",
    "C56_no_saturation_refuted",
    "C56_negative_generator_refuted",
    "C56_negative_twice_refuted",
    "C56_out_of_service_refuted",
    "C56_unknown_model_refuted",
    "C56_exdc1_lead_refuted",
    "C56_speed_unseen_refuted",
    "C56_hygov_default_refuted",
    "C56_sexs_limit_refuted",
    "C56_wsieg1_even_refuted",
    "C56_wsieg1_limit_refuted"
   ],
   "note": "Proved over the reals for whole networks with three machine models, three exciters and four governors whose limits admit the operating point, for every number of steps. Missing because the code does not do it: loads of constant current and admittance, classical machines with resistance, subtransient reactance or on a base other than 100, GENSAL without saturation, generators that consume or are out of service without a model, SEXS without time constant below its limits, WSIEG1 with the second shaft only. Other models, stabilizers, relays and dynamic loads are not modelled."
  },
  {
   "property": "C57",
   "status": "partial",
   "theorems": [
    "C57_matrix_partial",
    "C57_start_partial",
    "C57_run_time",
    "C57_once",
    "C57_overlapping_faults_refuted",
    "C57_fault_conductance_refuted",
    "C57_end_shunts_refuted",
    "C57_line_processes_refuted",
    "C57_line_elsewhere_refuted",
    "C57_closing_refuted",
    "C57_generator_code_refuted",
    "C57_generator_out_refuted",
    "C57_unknown_generator_refuted",
    "C57_reset_refuted",
    "C57_end_refuted",
    "C57_missed_refuted"
   ],
   "note": "Proved over the reals for every sequence of events and number of steps, with one fault at a time and without conductance, switched lines without end shunts on branches that had something in service, known generators in service at the start, and events at step times; faults and generators on any number of processes, lines on one process. The rest is refuted. Reading events from the configuration, relays and load shedding are not modelled."
  },
  {
   "property": "C58",
   "status": "partial",
   "theorems": [
    "C58_generator_parameters_partial",
    "C58_generator_first_partial",
    "C58_load_parameters_partial",
    "C58_load_first_partial",
    "C58_relays_partial",
    "C58_returns",
    "C58_rest_unchanged",
    "C58_other_generators",
    "C58_other_buses_partial",
    "C58_extern_generator_partial",
    "C58_extern_load_partial",
    "C58_extern_relay",
    "C58_getds_parameters_refuted",
    "C58_getds_first_refuted",
    "C58_external_parameters_refuted",
    "C58_distr1_zone3_refuted",
    "C58_esst4b_refuted",
    "C58_branch_relay_refuted",
    "C58_unfinished_refuted",
    "C58_comment_refuted",
    "C58_short_record_refuted",
    "C58_unmatched_load_refuted",
    "C58_unknown_load_refuted",
    "C58_long_identifier_refuted",
    "C58_gdform_limits_refuted"
   ],
   "note": "Proved for every parameter of every record type except those in the lists of DrSpec.v, and every one of those is refuted (two exceptions: the first seven PSSSIM parameters in getDSExternal are read as double and truncated, which is left open). ESST4B and branch relays are wrong in getDS. For getDSExternal: complete records, and copies for which the run is defined; distribution to the copies is C20. expandBusModels for CMLDBLU1 is not modelled."
  },
  {
   "property": "C59",
   "status": "partial",
   "theorems": [
    "C59_own_results_partial",
    "C59_columns_partial",
    "C59_fetched_partial",
    "C59_contingency_list",
    "C59_success_file_refuted",
    "C59_no_contingency_refuted",
    "C59_new_violation_refuted",
    "C59_unknown_element_refuted",
    "C59_duplicate_refuted",
    "C59_reactive_limits_refuted",
    "C59_check_limits_refuted",
    "C59_malformed_refuted",
    "C59_missing_names_refuted",
    "C59_long_name_refuted"
   ],
   "note": "Proved for every network held whole by each process (groups of one process), every power flow solver that depends on nothing but the network it is given, every list whose entries name known elements once, and every order of fetching tasks, without reactive limits. Refuted: success.txt, empty lists, violations of voltage limits that the base case does not have, unknown elements, elements named twice, reactive limits (both options), entries that do not fit, long names. Groups of several processes and the output files of the single contingencies are not modelled."
  },
  {
   "property": "C60",
   "status": "partial",
   "theorems": [
    "C60_lvshbl",
    "C60_frqtpat",
    "C60_distr1_partial",
    "C60_once",
    "C60_load_relay_partial",
    "C60_generator_relay_partial",
    "C60_network_partial",
    "C60_line_relay_partial",
    "C60_line_matrix_partial",
    "C60_frequency",
    "C60_frequency_run_partial",
    "C60_time_constant_refuted",
    "C60_zero_pick_up_refuted",
    "C60_unused_settings_refuted",
    "C60_zone_one_not_reset_refuted",
    "C60_missed_update_refuted",
    "C60_two_relays_refuted",
    "C60_stale_marks_refuted",
    "C60_undone_refuted"
   ],
   "note": "The relays by themselves: proved for all histories (LVSHBL and FRQTPAT with positive pick-up time, first stage; DISTR1 if the impedance does not leave zone 1 and zone 2 between two updates). In a run: proved for a relay if none of an earlier bus or line operates meanwhile; for the matrix if only relays of buses are present (at most one per generator), or only relays of lines operate, not in two steps one after the other. The cases left out are refuted. Line elements are taken out of the matrix with their series impedance; charging and transformers of such lines, several processes (the result of updateBranchRelay is not combined over processes) and relays together with switching events are not covered."
  },
  {
   "property": "C61",
   "status": "partial",
   "theorems": [
    "C61_table_partial",
    "C61_headers_refuted",
    "C61_last_line_refuted",
    "C61_blank_line_refuted",
    "C61_trailing_comment_refuted",
    "C61_quoted_tag_refuted",
    "C61_indented_comment_refuted",
    "C61_comments_between_refuted",
    "C61_column_refuted",
    "C61_failed_read_refuted",
    "C61_only_comments_refuted"
   ],
   "note": "Proved for every table written as in BtSpec.v on any number of processes, with comments at the start on one process only and comments between rows only as many as the last slice of the buffer takes. What is left out is refuted: comments at the start on several processes (undefined for every such table), missing last newline, blank lines, comments at the end, quoted tags with blanks, indented comments, too many comments between rows, columns out of range, and a second read that fails. The conversion of texts to numbers (atof) is a parameter."
  },
  {
   "property": "C62",
   "status": "partial",
   "theorems": [
    "C62_slab_partial",
    "C62_matrix_network_matrix",
    "C62_row_block",
    "C62_columns_checked",
    "C62_waiting_refuted",
    "C62_no_rows_refuted",
    "C62_fortran_matrix_refuted"
   ],
   "note": "Proved for all networks without self loops in which every process supplies a row. A process without rows makes the constructor fail (refuted for every such case), a failing constructor leaves all processes but one waiting, and the matrix of the Fortran interface has too many columns. Components that write fewer numbers than slabSize announces, and complex numbers held as pairs of reals (C52), are not covered here."
  },
  {
   "property": "C63",
   "status": "proved",
   "theorems": [
    "C63_ga_shuffler",
    "C63_returns",
    "C63_same_as_mpi",
    "C63_bad_destination"
   ],
   "note": "Proved for every schedule of the single puts, gets and synchronisations. The archive of Boost.Serialization is a parameter with the hypothesis that a vector can be read back from its archive followed by anything and that an archive is not empty."
  },
  {
   "property": "C64",
   "status": "partial",
   "theorems": [
    "C64_bus_buffers",
    "C64_branch_buffers_partial",
    "C64_lookups_change_nothing",
    "C64_factory",
    "C64_factory_result",
    "C64_branch_buffers_lost_refuted",
    "C64_index_past_end_refuted",
    "C64_use_after_free_refuted",
    "C64_get_before_alloc_refuted",
    "C64_set_over_own_refuted",
    "C64_add_after_alloc_refuted"
   ],
   "note": "Proved for buses. For branches the property is false: buffers allocated over others are never deleted (C64_branch_buffers_lost_refuted); proved except for what is left at the end, and in full for histories that free first. The refuted theorems show which calls outside the meant ones go wrong without an exception."
  },
  {
   "property": "C65",
   "status": "proved",
   "theorems": [
    "C65_clone",
    "C65_unlinked_throws",
    "C65_partitioned",
    "C65_copy_of_copy",
    "C65_clone_into_itself_refuted",
    "C65_clear_keeps_lookups_refuted"
   ],
   "note": "Data collections are values that are copied. The refuted theorems are findings about a network copied into itself and about clear."
  },
  {
   "property": "C66",
   "status": "proved",
   "theorems": [
    "C66_set_components",
    "C66_determined",
    "C66_again",
    "C66_after_setup",
    "C66_unlinked_throws",
    "C66_load",
    "C66_save",
    "C66_old_reference_stays_refuted",
    "C66_stale_factory_refuted",
    "C66_save_after_clean_refuted"
   ],
   "note": "The matrix indices are those gathered from the global array (C15). The refuted theorems are findings about a moved reference bus and about a factory made before the network changed."
  },
  {
   "property": "C67",
   "status": "proved",
   "theorems": [
    "C67_balance",
    "C67_zones",
    "C67_reset",
    "C67_capacity_finite",
    "C67_search_ends",
    "C67_search_up",
    "C67_search_down",
    "C67_dynamic",
    "C67_tie_lines",
    "C67_stable_rating_lowered_refuted",
    "C67_stable_rating_missed_refuted",
    "C67_negative_rating_refuted",
    "C67_insecure_rating_refuted",
    "C67_no_load_never_ends_refuted",
    "C67_ghost_loads_counted_refuted",
    "C67_processes_disagree_refuted",
    "C67_tie_line_missed_refuted"
   ],
   "note": "Groups of one process; the contingency runs are a function of the rating; ratings are exact. The refuted theorems are findings: the refinement after the dynamic simulation, ratings reported although insecure or negative, a search that does not end, totals on several processes, tie lines missed."
  },
  {
   "property": "C68",
   "status": "partial",
   "theorems": [
    "C68_generator_contingencies_partial",
    "C68_branch_contingencies_partial",
    "C68_generator_contingencies_one_process",
    "C68_branch_contingencies_one_process",
    "C68_watched_generators_partial",
    "C68_no_watched_generators_refuted",
    "C68_gathered_in_order_partial",
    "C68_gathered_in_order_refuted",
    "C68_bus_without_area_refuted",
    "C68_first_bus_without_area_refuted"
   ],
   "note": "Proved in full on one process. On several processes it is false without a barrier inside GlobalVector (C07; C68_gathered_in_order_refuted) and proved with it. Buses say which area (and zone) they are in; without that the refuted theorems are findings."
  },
  {
   "property": "C69",
   "status": "proved",
   "theorems": [
    "C69_delay_flat",
    "C69_limited_delay_flat",
    "C69_pi_flat",
    "C69_lead_lag_flat",
    "C69_limits",
    "C69_no_windup",
    "C69_delay_response",
    "C69_limited_delay",
    "C69_backlash",
    "C69_dead_band",
    "C69_bowtie",
    "C69_dead_band_parameters",
    "C69_lead_lag_time_step_refuted",
    "C69_pi_start_outside_refuted",
    "C69_backlash_falling_refuted",
    "C69_partial_hysteresis_refuted"
   ],
   "note": "Over real numbers. The refuted theorems are findings: a backlash whose input falls, a dead band with partial hysteresis, a lead-lag block when the time step shrinks, a proportional-integral block started outside of its limits."
  },
  {
   "property": "C70",
   "status": "partial",
   "theorems": [
    "C70_seeds",
    "C70_uniform",
    "C70_reproducible_partial",
    "C70_normal_pair",
    "C70_reproducible_refuted",
    "C70_neighbouring_seeds_refuted",
    "C70_seed_overflow_refuted",
    "C70_middle_refuted"
   ],
   "note": "Seeding again is not like a new object if a normal number is held back (C70_reproducible_refuted), otherwise it is. The library generator is a parameter. The other refuted theorems are findings: overlapping streams of neighbouring seeds, overflow, the point in the middle."
  },
  {
   "property": "C71",
   "status": "partial",
   "theorems": [
    "C71_law",
    "C71_low_voltage",
    "C71_admittance",
    "C71_start_partial",
    "C71_single_part",
    "C71_single_part_law",
    "C71_shares_kept_refuted",
    "C71_composite_refuted",
    "C71_normalised_refuted",
    "C71_no_shares_refuted"
   ],
   "note": "Over real numbers. The law holds with the shares that init leaves; the claim about the start is proved if they add up to one. The refuted theorems are findings: init replaces right shares by the first part alone, divides others by a sum that changes meanwhile, and a load without shares takes no power."
  },
  {
   "property": "C72",
   "status": "proved",
   "theorems": [
    "C72_flat",
    "C72_swing",
    "C72_angle",
    "C72_turbine_speed_refuted",
    "C72_two_masses_refuted",
    "C72_default_inertia_refuted"
   ],
   "note": "Over real numbers, within the limits of 1000 of the integrators. The refuted theorems are findings: the speed of the turbine never changes, a second mass and the shaft have no effect but to lower the inertia, the default inertia cannot be used."
  },
  {
   "property": "C73",
   "status": "proved",
   "theorems": [
    "C73_flat",
    "C73_limits",
    "C73_response",
    "C73_no_plant_refuted",
    "C73_no_lag_refuted",
    "C73_positive_minimum_refuted"
   ],
   "note": "Over real numbers, for lags up to 1000 s and, for the start, limits on both sides of zero. The refuted theorems are findings: no plant controller (a variable that was never set), no lag, a lowest pitch angle above zero."
  }
 ]
}