{
 "claims": [
  {
   "property": "C01",
   "status": "proved",
   "theorems": [
    "C01_log_one_entry_per_key",
    "C01_log_last_write_wins",
    "C01_log_frame",
    "C01_log_order_of_first_recording"
   ],
   "note": "Log as a keyed map, over every history of recordings."
  },
  {
   "property": "C02",
   "status": "proved",
   "theorems": [
    "C02_value_returns_last",
    "C02_parameter_returns_last"
   ],
   "note": "every history"
  },
  {
   "property": "C03",
   "status": "proved",
   "theorems": [
    "C03_sweep_is_the_grid",
    "C03_grid_is_unique"
   ],
   "note": "Over exact rationals; float rounding of the increments is not modelled."
  },
  {
   "property": "C04",
   "status": "proved",
   "theorems": [
    "C04_sweep_n_points",
    "C04_sweep_log_n_points",
    "C04_sweep_n_degenerate"
   ],
   "note": "Exact rationals; sweep_n with n < 2 and sweep_log_n stated separately."
  },
  {
   "property": "C05",
   "status": "proved",
   "theorems": [
    "C05_sweep_log_is_the_geometric_grid",
    "C05_sweep_log_equal_ends_is_empty"
   ],
   "note": "Exact rationals; equal ends yield an empty sweep (separate theorem)."
  },
  {
   "property": "C06",
   "status": "proved",
   "theorems": [
    "C06_run_all_is_the_cartesian_product",
    "C06_combinations_are_all_choices",
    "C06_combinations_once",
    "C06_combination_applied"
   ],
   "note": "all dimensions; sequences"
  },
  {
   "property": "C07",
   "status": "proved",
   "theorems": [
    "C07_total_equals_runs"
   ],
   "note": ""
  },
  {
   "property": "C08",
   "status": "proved",
   "theorems": [
    "C08_parallel_limit",
    "C08_parallel_bound",
    "C08_gate_opens"
   ],
   "note": "Every schedule; simulations started by run(). wait_resource=False starts and run_now() are outside the limit by design; the general bound counts the forced ones."
  },
  {
   "property": "C09",
   "status": "proved",
   "theorems": [
    "C09_numbers_increase",
    "C09_file_names_distinct"
   ],
   "note": "Numbers for every history, including runs given up on timeout; file names for all circuit names with the same extension."
  },
  {
   "property": "C10",
   "status": "proved",
   "theorems": [
    "C10_nothing_lost",
    "C10_completed_only_grows",
    "C10_counters_total",
    "C10_counters_exact"
   ],
   "note": "every history and schedule"
  },
  {
   "property": "C11",
   "status": "proved",
   "theorems": [
    "C11_wait_completion",
    "C11_true_is_right"
   ],
   "note": "every history and schedule"
  },
  {
   "property": "C12",
   "status": "proved",
   "theorems": [
    "C12_yields_in_order",
    "C12_yields_all_at_the_end",
    "C12_each_task_once"
   ],
   "note": "Every schedule without abandoned run_now(); at-most-once and order in every history. Failed simulations are skipped, as the property says (the class docstring says 'succeeded or not')."
  },
  {
   "property": "C13",
   "status": "proved",
   "theorems": [
    "C13_callback_when_due",
    "C13_no_callback_unless_due",
    "C13_files_without_callback"
   ],
   "note": "Decision logic of RunTask.run for all outcomes of simulator, file system and callback."
  },
  {
   "property": "C14",
   "status": "proved",
   "theorems": [
    "C14_wait_results_returns",
    "C14_wait_results_waits",
    "C14_no_results_before_the_end"
   ],
   "note": ""
  },
  {
   "property": "C15",
   "status": "proved",
   "theorems": [
    "C15_runs_belong_to_one_session",
    "C15_status_lists_own_runs",
    "C15_files_of_own_runs",
    "C15_requests_leave_others_alone",
    "C15_unknown_session_refused"
   ],
   "note": "Every history of requests by any number of sessions and of completions. status() of an unknown session answers [] while nothing has finished and KeyError afterwards; both leave the server unchanged."
  },
  {
   "property": "C16",
   "status": "proved",
   "theorems": [
    "C16_delivered_at_most_once",
    "C16_delivered_not_reported",
    "C16_reported_until_delivered",
    "C16_available_until_delivered"
   ],
   "note": "At most once, never reported afterwards, and reported and available until then."
  },
  {
   "property": "C17",
   "status": "proved",
   "theorems": [
    "C17_documented_loop"
   ],
   "note": "every interleaving with other clients"
  },
  {
   "property": "C18",
   "status": "proved",
   "theorems": [
    "C18_normal_round_trip"
   ],
   "note": "the format the library documents (first trace double)"
  },
  {
   "property": "C19",
   "status": "proved",
   "theorems": [
    "C19_fast_round_trip"
   ],
   "note": "Real data, every layout of traces the writer produces with a double axis."
  },
  {
   "property": "C20",
   "status": "proved",
   "theorems": [
    "C20_complex_normal"
   ],
   "note": ""
  },
  {
   "property": "C21",
   "status": "proved",
   "theorems": [
    "C21_header_round_trip"
   ],
   "note": "the title is the constant the writer puts"
  },
  {
   "property": "C22",
   "status": "proved",
   "theorems": [
    "C22_waves_partition",
    "C22_axis_waves",
    "C22_step_count",
    "C22_unstepped"
   ],
   "note": "axis and all traces"
  },
  {
   "property": "C23",
   "status": "proved",
   "theorems": [
    "C23_get_position",
    "C23_outside_the_range",
    "C23_get_point_at",
    "C23_stored_abscissa"
   ],
   "note": "Over exact rationals (no float rounding); any axis that starts at or below t and reaches t, sorted or not. Above the range get_position returns None."
  },
  {
   "property": "C24",
   "status": "proved",
   "theorems": [
    "C24_order_does_not_matter"
   ],
   "note": "all request histories"
  },
  {
   "property": "C25",
   "status": "proved",
   "theorems": [
    "C25_get_steps",
    "C25_no_steps"
   ],
   "note": "Every table of steps and set of conditions; nothing assumed about value equality. Data without steps answer [0]."
  },
  {
   "property": "C26",
   "status": "proved",
   "theorems": [
    "C26_steps_with_conditions",
    "C26_unknown_name",
    "C26_measure_found",
    "C26_measure_only_if_unique"
   ],
   "note": "every data set, column and set of conditions"
  },
  {
   "property": "C27",
   "status": "proved",
   "theorems": [
    "C27_statistics"
   ],
   "note": "exact rationals"
  },
  {
   "property": "C28",
   "status": "proved",
   "theorems": [
    "C28_split",
    "C28_unclosed_rejected"
   ],
   "note": ""
  },
  {
   "property": "C29",
   "status": "proved",
   "theorems": [
    "C29_nothing_lost",
    "C29_statements"
   ],
   "note": "every text; every list of well-formed statements"
  },
  {
   "property": "C30",
   "status": "proved",
   "theorems": [
    "C30_statements_kept",
    "C30_canonical_identical",
    "C30_text"
   ],
   "note": "Well-formed documents (NetSpec): comments, directives, components (CompSpec), control sections, sub-circuits nested to any depth, include statements with the contents of the file; from the lines and from the characters of the file. Include files are given by an environment."
  },
  {
   "property": "C31",
   "status": "proved",
   "theorems": [
    "C31_statement_read",
    "C31_unedited_statement_kept",
    "C31_value_edit_saved",
    "C31_edit_saved",
    "C31_document",
    "C31_only_the_named_component"
   ],
   "note": "Document level: any history of value/parameter edits by reference on a whole netlist (load, edits, read-back of every reference, save), the untouched components, and statement level for all component families. Hypothesis no_definition_named is needed: see C71."
  },
  {
   "property": "C32",
   "status": "proved",
   "theorems": [
    "C32_history",
    "C32_remove_component",
    "C32_add_component"
   ],
   "note": "History theorem over all component and instruction commands (edits, add before/after/at end, remove, add/remove instruction, remove by pattern): listing, lookup of every reference, errors for missing ones, saved text; plus what each component command does to the statements."
  },
  {
   "property": "C33",
   "status": "proved",
   "theorems": [
    "C33_one_simulation",
    "C33_adding_twice"
   ],
   "note": "After any history; placement of the command included. only_blanks: directives of the netlist hold no white space other than blank, tab, CR, LF. Where the line goes when there is .END followed by comments: C72."
  },
  {
   "property": "C34",
   "status": "proved",
   "theorems": [
    "C34_remove_instruction",
    "C34_remove_matching",
    "C34_add_then_remove"
   ],
   "note": "After any history; patterns are an arbitrary predicate on the text that matches no component statement (see C73 for components)."
  },
  {
   "property": "C35",
   "status": "proved",
   "theorems": [
    "C35_set",
    "C35_drop",
    "C35_history"
   ],
   "note": "Full: every history of commands followed by every sequence of set_parameter calls, for all names; the limits in the quantifier are the refuted C76-C78. get_parameter's conversion of the text to a number (try_value) is not modelled."
  },
  {
   "property": "C36",
   "status": "proved",
   "theorems": [
    "C36_history",
    "C36_only_that_component",
    "C36_meaning"
   ],
   "note": "C36_history: load, any sequence of value/parameter edits through paths such as X1:X2:R1, read back through the API and save; C36_only_that_component: what an edit changes; C36_meaning: the saved statements, elaborated as a simulator does (innermost enclosing definition), give at each path the edited component. Restrictions, as hypotheses: the edited components and instances are in the library's own layout; copied definitions hold no definitions, control sections or includes; for the meaning, no name of a possible copy is in use (C81 shows what happens otherwise). Names looked up in library files are an assumption about the environment (library_of)."
  },
  {
   "property": "C37",
   "status": "proved",
   "theorems": [
    "C37_denied",
    "C37_denied_parameter"
   ],
   "note": "Netlist editor: all commands incl. hierarchical references and control sections. An exception is the model's None; the checks come before any change in the code (see DESIGN.md). Sub-circuits: C75."
  },
  {
   "property": "C38",
   "status": "proved",
   "theorems": [
    "C38_print_then_read"
   ],
   "note": "C38_print_then_read: for every rational v, the text of format_eng is consumed completely by parse_value/scan_eng and gives v within 5e-6 relative, exactly v if v has at most six significant digits. Model over exact rationals: binary floating-point rounding (and a rounded math.log next to powers of 1000) is not represented."
  },
  {
   "property": "C39",
   "status": "proved",
   "theorems": [
    "C39_letter_case"
   ],
   "note": ""
  },
  {
   "property": "C40",
   "status": "proved",
   "theorems": [
    "C40_parameters_read"
   ],
   "note": "C40_parameters_read: any number of parameters, any blanks around '=' and between parameters, values made of plain, braced (not nested) and quoted pieces, comma lists; names distinct, not numbers, not the parser's reserved words (noiseless, verilog type names). Values are kept as text (float_unit prints as the text it was read from)."
  },
  {
   "property": "C41",
   "status": "proved",
   "theorems": [
    "C41_batches"
   ],
   "note": "runs_per_sim >= 1; total number of runs is last_run_number + 2."
  },
  {
   "property": "C42",
   "status": "proved",
   "theorems": [
    "C42_every_corner",
    "C42_extremes"
   ],
   "note": "Netlists as component/parameter/directive tables; exact rationals for floats; every run succeeds. From 12 elements on nothing is simulated."
  },
  {
   "property": "C43",
   "status": "proved",
   "theorems": [
    "C43_sensitivities"
   ],
   "note": "Exact rationals for floats; data complete (one result per run)."
  },
  {
   "property": "C44",
   "status": "proved",
   "theorems": [
    "C44_fast_worst_case"
   ],
   "note": "Measurement as a function of the netlist; every simulation succeeds; exact rationals. Strictly monotone measurement."
  },
  {
   "property": "C45",
   "status": "proved",
   "theorems": [
    "C45_any_layout",
    "C45_text_round_trip",
    "C45_file_round_trip"
   ],
   "note": "Trees of any nesting whose tokens are words or quoted texts, with labels; the file level covers header and newline translation; cp1252 is not modelled. Texts with \": \" are C93."
  },
  {
   "property": "C46",
   "status": "proved",
   "theorems": [
    "C46_text_after_set",
    "C46_get_after_set",
    "C46_hexadecimal"
   ],
   "note": "set_attr/get_attr on the token list; float attributes cannot be set (ValueError in the code)."
  },
  {
   "property": "C47",
   "status": "proved",
   "theorems": [
    "C47_saved",
    "C47_value",
    "C47_instruction"
   ],
   "note": "edits: component values, parameters, instructions added/removed, in any sequence, on a schematic whose tags can be written and read (QTagSpec.proper); texts without quote, CR and \": \" (C93); a simulation command where there is one already (C95); moving components is C94"
  },
  {
   "property": "C48",
   "status": "partial",
   "theorems": [
    "C48_removed_refuted"
   ],
   "note": "false: the component stays in the editor's list and in the netlist; the saved file is right (C100)"
  },
  {
   "property": "C49",
   "status": "proved",
   "theorems": [
    "C49_parameters",
    "C49_set_succeeds"
   ],
   "note": "directives with QSPICE's mark and well-formed .PARAM lines (ParSpec); else C96, C97"
  },
  {
   "property": "C50",
   "status": "proved",
   "theorems": [
    "C50_round_trip",
    "C50_same_file",
    "C50_values"
   ],
   "note": "for documents of wires, flags, symbols, upright texts and drawings with distinct references; what is lost else is C104"
  },
  {
   "property": "C51",
   "status": "proved",
   "theorems": [
    "C51_one_command",
    "C51_added_command",
    "C51_untouched"
   ],
   "note": "removal of instructions is C105, C106"
  },
  {
   "property": "C52",
   "status": "proved",
   "theorems": [
    "C52_first",
    "C52_none",
    "C52_top"
   ],
   "note": "search_file_in_containers over an abstract file system; first container, none iff none, top folder first"
  },
  {
   "property": "C53",
   "status": "proved",
   "theorems": [
    "C53_first"
   ],
   "note": "the loop over the seven encodings; acceptable is stated through what open(...).read() gives"
  },
  {
   "property": "C54",
   "status": "proved",
   "theorems": [
    "C54_touches",
    "C54_intercepts"
   ],
   "note": "over the rationals"
  },
  {
   "property": "C55",
   "status": "proved",
   "theorems": [
    "C55_timeout_number"
   ],
   "note": ""
  },
  {
   "property": "C56",
   "status": "proved",
   "theorems": [
    "C56_callback_args_bind_all",
    "C56_tuple_in_order",
    "C56_good_args_accepted"
   ],
   "note": "dict and tuple arguments."
  },
  {
   "property": "C57",
   "status": "proved",
   "theorems": [
    "C57_close_discards_finished"
   ],
   "note": ""
  },
  {
   "property": "C58",
   "status": "proved",
   "theorems": [
    "C58_binary_with_log"
   ],
   "note": ""
  },
  {
   "property": "C59",
   "status": "proved",
   "theorems": [
    "C59_export_all",
    "C59_export_selection",
    "C59_columns_aligned"
   ],
   "note": "Columns of traces; the columns with step parameters are never added by the code and are not part of the claim."
  },
  {
   "property": "C60",
   "status": "proved",
   "theorems": [
    "C60_point_of_step"
   ],
   "note": ""
  },
  {
   "property": "C61",
   "status": "proved",
   "theorems": [
    "C61_step_table"
   ],
   "note": ""
  },
  {
   "property": "C62",
   "status": "proved",
   "theorems": [
    "C62_log_tables",
    "C62_whole_log"
   ],
   "note": "C62_log_tables: step section followed by measurement tables, in the model of Log; C62_whole_log: the same for the whole reader (Ltlog), with Fourier analyses and measurements without steps in between."
  },
  {
   "property": "C63",
   "status": "partial",
   "theorems": [
    "C63_unstepped_export_refuted"
   ],
   "note": "Refuted for every such file: KeyError at the first data line."
  },
  {
   "property": "C64",
   "status": "partial",
   "theorems": [
    "C64_blank_before_comma_refuted",
    "C64_nested_braces_refuted"
   ],
   "note": "Both halves are false of the code: \"tc=1 ,2\" reads as the text \"1 2\" instead of a list (C64_blank_before_comma_refuted); nested braces split the value (C64_nested_braces_refuted)."
  },
  {
   "property": "C65",
   "status": "partial",
   "theorems": [
    "C65_last_parameter_stays_refuted"
   ],
   "note": "Refuted: rewriting with an empty parameter section keeps the old text."
  },
  {
   "property": "C66",
   "status": "partial",
   "theorems": [
    "C66_tabs_corrupt_edit_refuted",
    "C66_comment_lost_refuted"
   ],
   "note": "Refuted: tab-separated fields and comments of controlled sources. The true part (single blanks) is C31_edit_saved."
  },
  {
   "property": "C67",
   "status": "partial",
   "theorems": [
    "C67_lower_case_refuted",
    "C67_two_expressions_refuted",
    "C67_model_taken_for_node_refuted"
   ],
   "note": "Refuted by witnesses."
  },
  {
   "property": "C68",
   "status": "proved",
   "theorems": [
    "C68_duration_fields"
   ],
   "note": "Durations are natural numbers of milliseconds (the code truncates a float)."
  },
  {
   "property": "C69",
   "status": "partial",
   "theorems": [
    "C69_decimal_fraction_refuted"
   ],
   "note": "The field has four digits for a number below 1000: 1500 ms is written \"01.0500 secs\"."
  },
  {
   "property": "C70",
   "status": "partial",
   "theorems": [
    "C70_not_kept_refuted",
    "C70_after_end_refuted"
   ],
   "note": "False: see the witnesses (lower-case or indented components, .endl, unresolved include files). The full statement is C30 without its well-formedness hypotheses."
  },
  {
   "property": "C71",
   "status": "partial",
   "theorems": [
    "C71_definition_hides_component_refuted"
   ],
   "note": "Refuted: a .subckt definition of the same name standing earlier in the file hides the component from every reference operation."
  },
  {
   "property": "C72",
   "status": "partial",
   "theorems": [
    "C72_added_after_the_end_refuted"
   ],
   "note": "Refuted by witnesses: with comments after .END additions go after .END; in a two-line netlist add_component goes before the title."
  },
  {
   "property": "C73",
   "status": "partial",
   "theorems": [
    "C73_matched_by_old_text_refuted"
   ],
   "note": "Refuted: an edited component is matched by its original text."
  },
  {
   "property": "C74",
   "status": "partial",
   "theorems": [
    "C74_not_replaced_refuted"
   ],
   "note": "Refuted for all netlists: the old component stays."
  },
  {
   "property": "C75",
   "status": "partial",
   "theorems": [
    "C75_subcircuit_instruction_refuted"
   ],
   "note": "Refuted for every sub-circuit: SpiceCircuit.add_instruction asks for no permission."
  },
  {
   "property": "C76",
   "status": "partial",
   "theorems": [
    "C76_first_name_not_seen_refuted"
   ],
   "note": "Refuted: with PARAM_REGEX \".param err=1\" is read as a setting of \"param\" with value \"err\"."
  },
  {
   "property": "C77",
   "status": "partial",
   "theorems": [
    "C77_part_of_the_value_refuted"
   ],
   "note": "Refuted by witnesses: x=2*y, z=y, q='2*y', and a setting in a comment."
  },
  {
   "property": "C78",
   "status": "partial",
   "theorems": [
    "C78_removes_more_refuted"
   ],
   "note": "Refuted by witnesses: longer names and expressions are cut; None for a missing name adds \"name=None\"."
  },
  {
   "property": "C79",
   "status": "proved",
   "theorems": [
    "C79_scaled_numbers"
   ],
   "note": "Full for the factors listed, exact rational arithmetic; M/m are the subject of C39."
  },
  {
   "property": "C80",
   "status": "proved",
   "theorems": [
    "C80_end_required",
    "C80_statements"
   ],
   "note": "C80_end_required is about arbitrary lines, C80_statements about statements with and without the last line."
  },
  {
   "property": "C81",
   "status": "partial",
   "theorems": [
    "C81_copies_kept_apart_refuted",
    "C81_same_name_refuted"
   ],
   "note": "The property does not hold; the theorems give netlists."
  },
  {
   "property": "C82",
   "status": "partial",
   "theorems": [
    "C82_definition_found_refuted"
   ],
   "note": "The property does not hold; the theorem gives netlists."
  },
  {
   "property": "C83",
   "status": "proved",
   "theorems": [
    "C83_recorded"
   ],
   "note": "Same restrictions as C36_history. What a record does to the log (one entry per name and kind, last value) is C01."
  },
  {
   "property": "C84",
   "status": "proved",
   "theorems": [
    "C84_test_bench"
   ],
   "note": "No recorded edits and no .step directive in the netlist before; formula numbers written exactly (the code keeps six digits in min/max)."
  },
  {
   "property": "C85",
   "status": "partial",
   "theorems": [
    "C85_nominal_values_refuted"
   ],
   "note": "Refuted: with a recorded set_component_value, or in a second run_analysis, the corners go around another value than the nominal run."
  },
  {
   "property": "C86",
   "status": "partial",
   "theorems": [
    "C86_unprepared_refuted"
   ],
   "note": "Refuted for every set-up: the formulas of the components are recorded but not played, so all runs use nominal component values."
  },
  {
   "property": "C87",
   "status": "partial",
   "theorems": [
    "C87_insensitive_refuted"
   ],
   "note": "Refuted: ZeroDivisionError for every such measurement."
  },
  {
   "property": "C88",
   "status": "partial",
   "theorems": [
    "C88_wrong_direction_refuted"
   ],
   "note": "Refuted: for every measurement with a wrongly assumed direction the analysis ends in a TypeError (an iterator is called in line 242)."
  },
  {
   "property": "C89",
   "status": "proved",
   "theorems": [
    "C89_one_at_a_time",
    "C89_percentages"
   ],
   "note": ""
  },
  {
   "property": "C90",
   "status": "partial",
   "theorems": [
    "C90_limit_refuted"
   ],
   "note": "Refuted: the limit is raised to avoid a batch of one run (7 runs, limit 2: batches of 4)."
  },
  {
   "property": "C91",
   "status": "proved",
   "theorems": [
    "C91_local_extremes"
   ],
   "note": ""
  },
  {
   "property": "C92",
   "status": "partial",
   "theorems": [
    "C92_same_name_refuted"
   ],
   "note": "Refuted by a witness."
  },
  {
   "property": "C93",
   "status": "partial",
   "theorems": [
    "C93_colon_in_text_refuted",
    "C93_two_colons_refuted"
   ],
   "note": "Refuted for every schematic and text: once \": \" the tag stops being a text tag, twice the file cannot be read."
  },
  {
   "property": "C94",
   "status": "partial",
   "theorems": [
    "C94_position_refuted"
   ],
   "note": "false, universally: a move never marks the schematic as changed; an ERotation always fails"
  },
  {
   "property": "C95",
   "status": "partial",
   "theorems": [
    "C95_first_simulation_command_refuted"
   ],
   "note": "false, universally, for schematics without a simulation command"
  },
  {
   "property": "C96",
   "status": "partial",
   "theorems": [
    "C96_no_mark_refuted"
   ],
   "note": "false: witness"
  },
  {
   "property": "C97",
   "status": "partial",
   "theorems": [
    "C97_later_lines_refuted"
   ],
   "note": "false: witness"
  },
  {
   "property": "C98",
   "status": "partial",
   "theorems": [
    "C98_substring_refuted"
   ],
   "note": "false: witness"
  },
  {
   "property": "C99",
   "status": "proved",
   "theorems": [
    "C99_one_simulation_command"
   ],
   "note": "the number of simulation commands"
  },
  {
   "property": "C100",
   "status": "proved",
   "theorems": [
    "C100_removed_from_file"
   ],
   "note": "the saved file after remove_component"
  },
  {
   "property": "C101",
   "status": "proved",
   "theorems": [
    "C101_edits_saved",
    "C101_shown",
    "C101_value"
   ],
   "note": "components inside sub-circuits are not modelled"
  },
  {
   "property": "C102",
   "status": "proved",
   "theorems": [
    "C102_read",
    "C102_last_setting",
    "C102_set"
   ],
   "note": ".param directives as in C35"
  },
  {
   "property": "C103",
   "status": "proved",
   "theorems": [
    "C103_attribute",
    "C103_component_parameter"
   ],
   "note": "for values that str(try_convert_value(v)) writes back unchanged. C103_attribute: every plain attribute set through set_component_parameters is what is read back afterwards and written in the file."
  },
  {
   "property": "C104",
   "status": "partial",
   "theorems": [
    "C104_items_lost_refuted"
   ],
   "note": "false: witnesses"
  },
  {
   "property": "C105",
   "status": "proved",
   "theorems": [
    "C105_removed",
    "C105_exact"
   ],
   "note": ""
  },
  {
   "property": "C106",
   "status": "partial",
   "theorems": [
    "C106_other_instruction_refuted"
   ],
   "note": "false: witnesses"
  },
  {
   "property": "C107",
   "status": "proved",
   "theorems": [
    "C107_denied"
   ],
   "note": ""
  },
  {
   "property": "C108",
   "status": "partial",
   "theorems": [
    "C108_denied_refuted"
   ],
   "note": "false, universally: the denial is ignored"
  },
  {
   "property": "C109",
   "status": "proved",
   "theorems": [
    "C109_recorded"
   ],
   "note": ""
  },
  {
   "property": "C110",
   "status": "partial",
   "theorems": [
    "C110_not_recorded_refuted"
   ],
   "note": "false, universally: neither call is recorded"
  },
  {
   "property": "C111",
   "status": "partial",
   "theorems": [
    "C111_truncated_refuted",
    "C111_never_saved_refuted"
   ],
   "note": "false, universally for the rotations by 45 degrees"
  },
  {
   "property": "C112",
   "status": "partial",
   "theorems": [
    "C112_component_parameters_refuted"
   ],
   "note": "false: witnesses"
  },
  {
   "property": "C113",
   "status": "proved",
   "theorems": [
    "C113_scaled"
   ],
   "note": ""
  },
  {
   "property": "C114",
   "status": "partial",
   "theorems": [
    "C114_ports_refuted"
   ],
   "note": "false, universally: a label with a port is scaled twice"
  },
  {
   "property": "C115",
   "status": "proved",
   "theorems": [
    "C115_straight"
   ],
   "note": "SpecFloat binary64 arithmetic, horizontal and vertical lines; coordinates of any size"
  },
  {
   "property": "C116",
   "status": "partial",
   "theorems": [
    "C116_crossing_refuted"
   ],
   "note": "refuted: only ends are tried: two wires crossing in their middles"
  },
  {
   "property": "C117",
   "status": "partial",
   "theorems": [
    "C117_rounding_refuted"
   ],
   "note": "refuted: (0,0)-(49,1) does not touch its own end (49,1) in binary64"
  },
  {
   "property": "C118",
   "status": "partial",
   "theorems": [
    "C118_zip_refuted"
   ],
   "note": "refuted in its three parts: entries in folders of a zip are never found by plain name, an unreadable zip raises, the first of two names that differ in case wins"
  },
  {
   "property": "C119",
   "status": "proved",
   "theorems": [
    "C119_utf8",
    "C119_utf16_bom",
    "C119_utf16le",
    "C119_cp1252"
   ],
   "note": "decoders proved inverse to encoders written from the RFCs"
  },
  {
   "property": "C120",
   "status": "partial",
   "theorems": [
    "C120_index_refuted"
   ],
   "note": "refuted: a one-character file raises IndexError"
  },
  {
   "property": "C121",
   "status": "partial",
   "theorems": [
    "C121_cp1252_refuted"
   ],
   "note": "refuted: an even-length cp1252 text is taken as UTF-16-LE"
  },
  {
   "property": "C122",
   "status": "partial",
   "theorems": [
    "C122_parameter_mixed_refuted"
   ],
   "note": "refuted: a parameter recorded under two kinds gives a stale value"
  },
  {
   "property": "C123",
   "status": "partial",
   "theorems": [
    "C123_one_shot_iterables_refuted"
   ],
   "note": "refuted: an inner one-shot iterable is exhausted after the first pass"
  },
  {
   "property": "C124",
   "status": "partial",
   "theorems": [
    "C124_empty_sweep_refuted"
   ],
   "note": "refuted: an empty sweep is announced as one simulation more or less than run"
  },
  {
   "property": "C125",
   "status": "partial",
   "theorems": [
    "C125_join_timeout_refuted"
   ],
   "note": "refuted: the give-up counts the run as failed although it returns 0"
  },
  {
   "property": "C126",
   "status": "partial",
   "theorems": [
    "C126_timeout_argument_refuted"
   ],
   "note": "refuted: False although all completed successfully"
  },
  {
   "property": "C127",
   "status": "partial",
   "theorems": [
    "C127_return_code_refuted"
   ],
   "note": "refuted: -1 (POSIX: killed by signal 1) waits for ever"
  },
  {
   "property": "C128",
   "status": "partial",
   "theorems": [
    "C128_next_before_download_refuted",
    "C128_crashed_run_refuted",
    "C128_refused_run_never_stops_refuted"
   ],
   "note": "refuted in three ways"
  },
  {
   "property": "C129",
   "status": "partial",
   "theorems": [
    "C129_single_precision_first_trace_refuted"
   ],
   "note": "refuted by a witness"
  },
  {
   "property": "C130",
   "status": "partial",
   "theorems": [
    "C130_complex_fast_refuted"
   ],
   "note": "refuted: the header says fastaccess but the data are interleaved"
  },
  {
   "property": "C131",
   "status": "partial",
   "theorems": [
    "C131_utf8_text_refuted"
   ],
   "note": "refuted"
  },
  {
   "property": "C132",
   "status": "partial",
   "theorems": [
    "C132_trace_get_len_refuted",
    "C132_first_step_partial"
   ],
   "note": "right for the first step, refuted from the second on"
  },
  {
   "property": "C133",
   "status": "partial",
   "theorems": [
    "C133_axis_available_partial",
    "C133_axis_reread_refuted"
   ],
   "note": "proved for requests that do not name it again, refuted for those that do and before the first request"
  },
  {
   "property": "C134",
   "status": "partial",
   "theorems": [
    "C134_no_conditions_refuted"
   ],
   "note": "refuted: the answer is None"
  },
  {
   "property": "C135",
   "status": "partial",
   "theorems": [
    "C135_single_step_refuted",
    "C135_capitals_refuted"
   ],
   "note": "refuted: TypeError, and capitals are not found"
  },
  {
   "property": "C136",
   "status": "partial",
   "theorems": [
    "C136_stray_brackets_refuted"
   ],
   "note": "refuted by witnesses"
  },
  {
   "property": "C137",
   "status": "partial",
   "theorems": [
    "C137_continuation_glued_refuted",
    "C137_stray_bracket_refuted"
   ],
   "note": "refuted: continuation lines are glued without a blank; a stray bracket joins all later lines"
  },
  {
   "property": "C138",
   "status": "partial",
   "theorems": [
    "C138_mega_milli_refuted"
   ],
   "note": "refuted: 2meg reads as 0.002, 1F as 1, 1e3E raises"
  },
  {
   "property": "C139",
   "status": "partial",
   "theorems": [
    "C139_timeout_none_refuted"
   ],
   "note": "refuted: timeout=None raises TypeError in run()"
  },
  {
   "property": "C140",
   "status": "partial",
   "theorems": [
    "C140_late_result_stays_refuted"
   ],
   "note": "refuted: a run that finishes later stays for ever"
  },
  {
   "property": "C141",
   "status": "partial",
   "theorems": [
    "C141_without_log_refuted",
    "C141_text_format_refuted"
   ],
   "note": "refuted for all such data: loading always raises"
  },
  {
   "property": "C142",
   "status": "partial",
   "theorems": [
    "C142_past_the_end_refuted"
   ],
   "note": "refuted: the sample of the next step is returned"
  },
  {
   "property": "C143",
   "status": "partial",
   "theorems": [
    "C143_last_line_refuted"
   ],
   "note": "refuted: the last character is lost"
  },
  {
   "property": "C144",
   "status": "proved",
   "theorems": [
    "C144_documented",
    "C144_spelling",
    "C144_words",
    "C144_unknown"
   ],
   "note": "The tables of switches are those of the code; documented lists the doc strings. -big, -max, -norm, -PCBnetlist, -ascii of Qspice are accepted but not documented."
  },
  {
   "property": "C145",
   "status": "partial",
   "theorems": [
    "C145_documented_refuted"
   ],
   "note": "Refuted for eight switches: -normal and -PCBnetlistBatch (LTspice), -local_variation (Xyce) raise; -nox, -linsolv, -o (Xyce) are dropped; -ini is written \"- ini\"; ngbehavior cannot be defined (ngspice)."
  },
  {
   "property": "C146",
   "status": "proved",
   "theorems": [
    "C146_command",
    "C146_files"
   ],
   "note": "Qspice makes the netlist path absolute first; the file theorem asks that the path given is absolute already. LTspice takes the log and raw names from the netlist itself."
  },
  {
   "property": "C147",
   "status": "proved",
   "theorems": [
    "C147_own_files"
   ],
   "note": "Netlist names have a stem and an extension of at least one character, or no dot at all."
  },
  {
   "property": "C148",
   "status": "proved",
   "theorems": [
    "C148_switches"
   ],
   "note": "Switches are added before the run starts; a started task shares the runner's list object."
  },
  {
   "property": "C149",
   "status": "partial",
   "theorems": [
    "C149_empty_refuted"
   ],
   "note": "The default parameter '' is an empty argument; an empty list means the runner's switches."
  },
  {
   "property": "C150",
   "status": "proved",
   "theorems": [
    "C150_random_netlists"
   ],
   "note": "Numbers are exact rationals (binary64 rounding of the products is left out); what the random generators return is a parameter of the model (in [0,1] for uniform draws), so no statement about frequencies is made. A failing simulator run, timeouts and callbacks are in the Runner area."
  },
  {
   "property": "C151",
   "status": "proved",
   "theorems": [
    "C151_text_of_number"
   ],
   "note": "The text is read back with scan_eng as modelled for C38; the simulator's own number reader is outside the model."
  },
  {
   "property": "C152",
   "status": "proved",
   "theorems": [
    "C152_test_bench"
   ],
   "note": "The meaning of the .func definitions in the simulators (mc, flat, gauss, random) is part of the specification and trusted. Nominal values and formula numbers with at most six digits, tolerances from 0.0001 to 1; analyses without recorded edits (prepare_testbench reads the values before they are played, cf. C85). Values are written without their unit."
  },
  {
   "property": "C153",
   "status": "partial",
   "theorems": [
    "C153_formulas_refuted"
   ],
   "note": "Refuted by witnesses: a normal min/max deviation of a component uses nrng without defining it; for parameters nrng multiplies the deviation with the mean again; the Qspice urng text lacks a closing parenthesis; a tolerance of 10 is written as 1."
  },
  {
   "property": "C154",
   "status": "partial",
   "theorems": [
    "C154_unprepared_refuted"
   ],
   "note": "Refuted for all setups: the component values of every netlist simulated are nominal (the formulas are recorded after the recorded edits were played)."
  },
  {
   "property": "C155",
   "status": "proved",
   "theorems": [
    "C155_collected"
   ],
   "note": "The heap of list objects is modelled (addresses), since add_log_data stores references; logs read from different files share no lists (separate)."
  },
  {
   "property": "C156",
   "status": "proved",
   "theorems": [
    "C156_rows"
   ],
   "note": "Corollary for logs of the same shape; without it see C157."
  },
  {
   "property": "C157",
   "status": "partial",
   "theorems": [
    "C157_missing_measure_refuted"
   ],
   "note": "Refuted by a witness: three logs, the second without the measurement."
  },
  {
   "property": "C158",
   "status": "partial",
   "theorems": [
    "C158_first_log_changed_refuted"
   ],
   "note": "Refuted for every two logs with a common step variable: the first log's own list of step values is extended."
  },
  {
   "property": "C159",
   "status": "proved",
   "theorems": [
    "C159_export",
    "C159_rectangular"
   ],
   "note": "Split at line feeds and separators the file is the table of ColSpec; the table is rectangular."
  },
  {
   "property": "C160",
   "status": "partial",
   "theorems": [
    "C160_export_refuted"
   ],
   "note": "Refuted: the line_terminator argument is unused for all inputs; a longer column is cut silently; a shorter one raises after part of the file was written."
  },
  {
   "property": "C161",
   "status": "proved",
   "theorems": [
    "C161_steps",
    "C161_order"
   ],
   "note": "Lines that mention \"steps:\" in another form are excluded (QlogSpec.qline_ok); values pass through an arbitrary conversion."
  },
  {
   "property": "C162",
   "status": "proved",
   "theorems": [
    "C162_measures"
   ],
   "note": "Column titles of different measurements must differ (else C166) and no blank lines (C164); rows are the pieces of C28, all of the same width."
  },
  {
   "property": "C163",
   "status": "partial",
   "theorems": [
    "C163_upper_case_refuted"
   ],
   "note": "Refuted for all names: the type is taken for the name; with two such measurements the first is lost (Example)."
  },
  {
   "property": "C164",
   "status": "partial",
   "theorems": [
    "C164_blank_line_refuted"
   ],
   "note": "Refuted for all files: IndexError."
  },
  {
   "property": "C165",
   "status": "partial",
   "theorems": [
    "C165_step_set_refuted"
   ],
   "note": "Refuted for all step sets and logs: AssertionError, since the count starts at the number of variables given."
  },
  {
   "property": "C166",
   "status": "partial",
   "theorems": [
    "C166_overwritten_refuted"
   ],
   "note": "Refuted by two witnesses: v_1 replaces the second column of v; \"step\" is that of the last measurement only."
  },
  {
   "property": "C167",
   "status": "proved",
   "theorems": [
    "C167_operating_points",
    "C167_value"
   ],
   "note": "For every layout of kinds, groups, devices and quantities described in OpSpec: distinct titles (in lower case), distinct devices in a kind, distinct quantities in a group, and a value for each device."
  },
  {
   "property": "C168",
   "status": "proved",
   "theorems": [
    "C168_none"
   ],
   "note": "For every log without the heading."
  },
  {
   "property": "C169",
   "status": "partial",
   "theorems": [
    "C169_dropped_refuted"
   ],
   "note": "Refuted: a line with a blank at its end, or with a value missing, leaves the dictionary as it was, for every name, row and state."
  },
  {
   "property": "C170",
   "status": "partial",
   "theorems": [
    "C170_repeated_title_refuted"
   ],
   "note": "Refuted: the title line empties the entry of an equal title, for every state."
  },
  {
   "property": "C171",
   "status": "proved",
   "theorems": [
    "C171_measures"
   ],
   "note": "For every log of measurement lines (distinct titles in lower case), analyses and other lines; names of letters, digits and \"_\" not beginning with \"Harmonic\" (see C175)."
  },
  {
   "property": "C172",
   "status": "proved",
   "theorems": [
    "C172_analyses"
   ],
   "note": "For every log described in LtlogSpec, with and without steps; float() and int() are arbitrary functions defined on the texts of the log."
  },
  {
   "property": "C173",
   "status": "partial",
   "theorems": [
    "C173_mout",
    "C173_count_refuted"
   ],
   "note": "The steps and tables are proved for every step set without empty columns; the number of steps is refuted: it is the number of step variables, for every step set of one variable."
  },
  {
   "property": "C174",
   "status": "partial",
   "theorems": [
    "C174_circuit_refuted"
   ],
   "note": "Refuted: the line with the name of the circuit becomes a measurement for every path with an equal sign followed by a value."
  },
  {
   "property": "C175",
   "status": "partial",
   "theorems": [
    "C175_harmonic_refuted"
   ],
   "note": "Refuted: the measurement and the next line are lost, for all lines."
  },
  {
   "property": "C176",
   "status": "partial",
   "theorems": [
    "C176_not_read",
    "C176_unstepped_refuted"
   ],
   "note": "Proved for logs whose measurements are in tables (stepped simulations); refuted for logs without steps: the result is the same as with read_measures=True."
  },
  {
   "property": "C177",
   "status": "proved",
   "theorems": [
    "C177_table"
   ],
   "note": "For both spellings of the step line; runs with the same parameter names in the same order; the texts of rows are arbitrary (not starting with \"Step Information:\")."
  },
  {
   "property": "C178",
   "status": "partial",
   "theorems": [
    "C178_own_run_refuted"
   ],
   "note": "Universal counterexample: for any character outside the class of the expression (and without parenthesis) the rows of the second run appear under the number and values of the first; C178_nonvacuous shows the file with \"Temp=85\u00b0C\"."
  },
  {
   "property": "C179",
   "status": "proved",
   "theorems": [
    "C179_columns"
   ],
   "note": "try_convert_value is an arbitrary function."
  },
  {
   "property": "C180",
   "status": "partial",
   "theorems": [
    "C180_last_column_refuted"
   ],
   "note": "Universal: for every file of C179 whose header line ends with a line feed."
  },
  {
   "property": "C181",
   "status": "partial",
   "theorems": [
    "C181_step_word_refuted"
   ],
   "note": "Universal: the first row of data raises KeyError, because the lists of the columns are only created by a recognised step line."
  },
  {
   "property": "C182",
   "status": "proved",
   "theorems": [
    "C182_summary",
    "C182_order"
   ],
   "note": "C182_summary for logs whose analyses are in the order of the steps, C182_order shows that every log that is read is like that, apart from analyses before the first step line (C186). Texts of numbers are arbitrary functions."
  },
  {
   "property": "C183",
   "status": "proved",
   "theorems": [
    "C183_harmonics"
   ],
   "note": "As the code does, all periods appear as -1 in this table and as \"all\" in the first one."
  },
  {
   "property": "C184",
   "status": "partial",
   "theorems": [
    "C184_header_refuted"
   ],
   "note": "Universal: nine titles (the first empty), eight fields."
  },
  {
   "property": "C185",
   "status": "partial",
   "theorems": [
    "C185_periods_refuted"
   ],
   "note": ""
  },
  {
   "property": "C186",
   "status": "partial",
   "theorems": [
    "C186_before_first_step_refuted"
   ],
   "note": "Universal: both tables have no rows."
  },
  {
   "property": "C187",
   "status": "proved",
   "theorems": [
    "C187_nodes"
   ],
   "note": "The places of the pins are given by an arbitrary function (the code computes them with floating point sines)."
  },
  {
   "property": "C188",
   "status": "proved",
   "theorems": [
    "C188_open_pins_stay_apart"
   ],
   "note": "Names that begin with the yen sign aside."
  },
  {
   "property": "C189",
   "status": "partial",
   "theorems": [
    "C189_label_without_wire_refuted"
   ],
   "note": "A label N01 with no wire: an open pin elsewhere gets the same node."
  },
  {
   "property": "C190",
   "status": "proved",
   "theorems": [
    "C190_component_lines"
   ],
   "note": "For Verilog modules and components without pins only what C191 says. The text of an embedded library is an arbitrary function."
  },
  {
   "property": "C191",
   "status": "proved",
   "theorems": [
    "C191_names"
   ],
   "note": "Every line of a component begins with its name; references hold no acute sign."
  },
  {
   "property": "C192",
   "status": "proved",
   "theorems": [
    "C192_texts",
    "C192_editor"
   ],
   "note": "For the schematic whose netlist is written; the texts of sub-circuit schematics the same, by C194 (write_sheet)."
  },
  {
   "property": "C193",
   "status": "proved",
   "theorems": [
    "C193_libraries"
   ],
   "note": "The path written for a library is an arbitrary function."
  },
  {
   "property": "C194",
   "status": "proved",
   "theorems": [
    "C194_subcircuits"
   ],
   "note": "Universal over nesting: the lines of the schematic are those write_spice_to_file writes for it (write_sheet, without Verilog modules)."
  },
  {
   "property": "C195",
   "status": "partial",
   "theorems": [
    "C195_second_instance_refuted"
   ],
   "note": "Universal: whatever the schematic of the later instance is, the lines are the same. C190_nonvacuous shows a case."
  },
  {
   "property": "C196",
   "status": "proved",
   "theorems": [
    "C196_brackets"
   ],
   "note": "Values without line breaks."
  },
  {
   "property": "C197",
   "status": "partial",
   "theorems": [
    "C197_two_brackets_refuted"
   ],
   "note": "\"W=<5u> L=<2u>\" becomes \"W=5u> L=<2u\"."
  },
  {
   "property": "C198",
   "status": "proved",
   "theorems": [
    "C198_same_axis",
    "C198_first"
   ],
   "note": "Exact samples; a first import into an empty writer is the second theorem."
  },
  {
   "property": "C199",
   "status": "proved",
   "theorems": [
    "C199_aligned"
   ],
   "note": "For any number of merges, by an invariant on the pending axis (increasing, inside the range of every axis merged). Existing traces only when the number of points changed (C200). Exact rational arithmetic instead of float32/64; step 0 (C203); the same trace not twice (C207)."
  },
  {
   "property": "C200",
   "status": "partial",
   "theorems": [
    "C200_same_length_refuted"
   ],
   "note": "Refuted: witness where five points become five other points."
  },
  {
   "property": "C201",
   "status": "partial",
   "theorems": [
    "C201_last_point_refuted"
   ],
   "note": "Refuted for every axis: identical axes of n points give n-1."
  },
  {
   "property": "C202",
   "status": "proved",
   "theorems": [
    "C202_merged_axis"
   ],
   "note": "One merge (histories: C199). The end of the axes is excluded by the statement (C201)."
  },
  {
   "property": "C203",
   "status": "partial",
   "theorems": [
    "C203_step_refuted"
   ],
   "note": "Refuted by a witness."
  },
  {
   "property": "C204",
   "status": "partial",
   "theorems": [
    "C204_source_renamed_refuted"
   ],
   "note": "Refuted for every aligned merge with a renaming."
  },
  {
   "property": "C205",
   "status": "partial",
   "theorems": [
    "C205_other_axis_refuted"
   ],
   "note": "Refuted: acceptance proved for every axis of the same length."
  },
  {
   "property": "C206",
   "status": "proved",
   "theorems": [
    "C206_tag",
    "C206_format"
   ],
   "note": "The format function is arbitrary."
  },
  {
   "property": "C207",
   "status": "partial",
   "theorems": [
    "C207_twice_refuted"
   ],
   "note": "Refuted by a witness."
  },
  {
   "property": "C208",
   "status": "proved",
   "theorems": [
    "C208_other_kind"
   ],
   "note": "The number type is the first of the flags real/complex, as stated in MrgSpec."
  },
  {
   "property": "C209",
   "status": "partial",
   "theorems": [
    "C209_rest_refuted"
   ],
   "note": "Refuted for every pair of names V(a)..."
  },
  {
   "property": "C210",
   "status": "proved",
   "theorems": [
    "C210_component_parameters",
    "C210_denied",
    "C210_recorded",
    "C210_new_text"
   ],
   "note": "For symbols whose texts stand before the pins (as QSPICE writes them), whose parameter texts are settings name=value or single words without settings, and values without quotes. The integer keys of the doc string cannot be used through keyword arguments."
  },
  {
   "property": "C211",
   "status": "partial",
   "theorems": [
    "C211_set_and_get_twice_refuted"
   ],
   "note": "The name in two texts: the first is changed, the last is read."
  },
  {
   "property": "C212",
   "status": "partial",
   "theorems": [
    "C212_case_refuted"
   ],
   "note": "The name in another case is added as a second parameter."
  },
  {
   "property": "C213",
   "status": "partial",
   "theorems": [
    "C213_in_the_value_refuted"
   ],
   "note": "A setting inside the value text is changed there; get_parameters does not read the value text."
  },
  {
   "property": "C214",
   "status": "proved",
   "theorems": [
    "C214_texts_by_number"
   ],
   "note": "Same symbols as C210."
  },
  {
   "property": "C215",
   "status": "proved",
   "theorems": [
    "C215_parameter_names"
   ],
   "note": "Directives as in C49."
  },
  {
   "property": "C216",
   "status": "proved",
   "theorems": [
    "C216_symbol_read"
   ],
   "note": "read_asy of the text of any sym_ok file; attributes through dget, everything else through Forall2 or equality with the items in order."
  },
  {
   "property": "C217",
   "status": "partial",
   "theorems": [
    "C217_pin_attribute_with_blank_refuted"
   ],
   "note": "Universal in name and value."
  },
  {
   "property": "C218",
   "status": "proved",
   "theorems": [
    "C218_symbol_converted"
   ],
   "note": "symbol_drawn (AsySpec) says where each item is; symbols with arcs are not convertible in the sense of the theorem (C226)."
  },
  {
   "property": "C219",
   "status": "proved",
   "theorems": [
    "C219_on_the_grid"
   ],
   "note": "truncated and nearest are the two roundings used by the code."
  },
  {
   "property": "C220",
   "status": "partial",
   "theorems": [
    "C220_lines_and_pins_part_refuted"
   ],
   "note": "Witness: a pin and a line end at (6,0)."
  },
  {
   "property": "C221",
   "status": "proved",
   "theorems": [
    "C221_converted",
    "C221_reopened"
   ],
   "note": "Arcs on the sheet are not modelled; the library is any function from symbol names to symbol files."
  },
  {
   "property": "C222",
   "status": "partial",
   "theorems": [
    "C222_second_component_lost_refuted"
   ],
   "note": "Universal: for any two components with the same symbol the later one is not among the components of the opened file."
  },
  {
   "property": "C223",
   "status": "partial",
   "theorems": [
    "C223_more_texts_refuted"
   ],
   "note": "Universal."
  },
  {
   "property": "C224",
   "status": "partial",
   "theorems": [
    "C224_comments_refuted"
   ],
   "note": "Universal for the flag of the text; a witness for the netlist."
  },
  {
   "property": "C225",
   "status": "partial",
   "theorems": [
    "C225_all_wires_are_ground_refuted"
   ],
   "note": "Universal, with C187's description of the nets; a concrete netlist is in C225_nonvacuous."
  },
  {
   "property": "C226",
   "status": "partial",
   "theorems": [
    "C226_arcs_refuted"
   ],
   "note": "Universal in radius and centre."
  },
  {
   "property": "C227",
   "status": "partial",
   "theorems": [
    "C227_symbol_not_found_refuted"
   ],
   "note": "Witness: the schematic rc with an empty library."
  },
  {
   "property": "C228",
   "status": "partial",
   "theorems": [
    "C228_no_prefix_refuted"
   ],
   "note": "Universal."
  },
  {
   "property": "C229",
   "status": "proved",
   "theorems": [
    "C229_kind_of_symbol"
   ],
   "note": "first_with is the specification of 'the first that is present'."
  },
  {
   "property": "C230",
   "status": "proved",
   "theorems": [
    "C230_grid_pins"
   ],
   "note": "Trigonometry over the reals of the standard library: atan2, square root and the factor 1.414 come to the whole-number turn; bounded by 100000 because 1.414 is not the square root of 2. Floating-point rounding is not modelled: it matters only next to the middle between two multiples of 100, where no grid pin is."
  },
  {
   "property": "C231",
   "status": "partial",
   "theorems": [
    "C231_off_grid_refuted"
   ],
   "note": "Universal counter-example: every pin within 50 of the origin collapses onto the component."
  },
  {
   "property": "C232",
   "status": "proved",
   "theorems": [
    "C232_exact_nodes"
   ],
   "note": "Combined with C187 this gives the connectivity of the schematic."
  },
  {
   "property": "C233",
   "status": "proved",
   "theorems": [
    "C233_converted_pins"
   ],
   "note": "With C219 (the converted coordinates of grid points are exact and injective). LTspice's own turns are specified in PinSpec (lt_turns), checked by hand against the example schematics of the repository."
  },
  {
   "property": "C234",
   "status": "proved",
   "theorems": [
    "C234_cleanup"
   ],
   "note": "Over event histories (run, output of a simulator, end, collection, cleanup). The hypotheses name exactly the cases refuted in C235-C238."
  },
  {
   "property": "C235",
   "status": "partial",
   "theorems": [
    "C235_failed_run_refuted"
   ],
   "note": "For every circuit name, simulator, folder and return code the waveform is still there after cleanup_files: raw_file is None for a failed task."
  },
  {
   "property": "C236",
   "status": "partial",
   "theorems": [
    "C236_other_netlists_refuted"
   ],
   "note": "For .cir, .sp and .ckt none of the three side files is deleted."
  },
  {
   "property": "C237",
   "status": "partial",
   "theorems": [
    "C237_no_place_refuted"
   ],
   "note": "For every circuit: the netlist was written before the wait, and no task is recorded that could be cleaned."
  },
  {
   "property": "C238",
   "status": "partial",
   "theorems": [
    "C238_named_run_refuted"
   ],
   "note": "Without an output folder a run_filename equal to the user's file overwrites it, and cleanup deletes it, for all names."
  },
  {
   "property": "C239",
   "status": "partial",
   "theorems": [
    "C239_nothing_killed_refuted"
   ],
   "note": "The process name looked for is the class attribute of the abstract Simulator, which is empty; no process whose name is not empty is killed."
  },
  {
   "property": "C240",
   "status": "proved",
   "theorems": [
    "C240_last_limit"
   ],
   "note": "Times are rational numbers."
  },
  {
   "property": "C241",
   "status": "proved",
   "theorems": [
    "C241_delivered",
    "C241_available"
   ],
   "note": "Invariant over all histories (`reached`); what was written and the return code are read off the history, not off the server's state."
  },
  {
   "property": "C242",
   "status": "proved",
   "theorems": [
    "C242_once_and_gone"
   ],
   "note": "The side files LTspice writes besides are C244."
  },
  {
   "property": "C243",
   "status": "proved",
   "theorems": [
    "C243_own_netlist"
   ],
   "note": "The excluded names are C247."
  },
  {
   "property": "C244",
   "status": "partial",
   "theorems": [
    "C244_leftovers_refuted"
   ],
   "note": "Counterexample for all texts: after fetch, close and stop the .op.raw of the run and the circuit sent are still there."
  },
  {
   "property": "C245",
   "status": "partial",
   "theorems": [
    "C245_stop_refuted"
   ],
   "note": "For all texts: the manager has moved the run to its own list, which is never cleaned; netlist, log, waveform and archive all stay."
  },
  {
   "property": "C246",
   "status": "partial",
   "theorems": [
    "C246_shared_sources_refuted"
   ],
   "note": "Two clients sending a file of the same name: the second one's text is on disk while the first one's run goes on."
  },
  {
   "property": "C247",
   "status": "partial",
   "theorems": [
    "C247_overwritten_refuted"
   ],
   "note": "A client running a circuit named amp_1.net replaces the netlist of run 1 of another client's amp.net."
  },
  {
   "property": "C248",
   "status": "proved",
   "theorems": [
    "C248_db_and_degrees"
   ],
   "note": "Over the real numbers; the degree sign is U+00B0; phases are read in (-180,180], the range of ph."
  },
  {
   "property": "C249",
   "status": "proved",
   "theorems": [
    "C249_other_forms"
   ],
   "note": "Over the real numbers."
  },
  {
   "property": "C250",
   "status": "proved",
   "theorems": [
    "C250_whole_numbers",
    "C250_numerals",
    "C250_words"
   ],
   "note": "C250_whole_numbers, C250_numerals, C250_words.  A numeral with neither point nor exponent is a whole number."
  },
  {
   "property": "C251",
   "status": "proved",
   "theorems": [
    "C251_columns"
   ],
   "note": "Hypothesis: no column is named as one of the new columns (otherwise C252)."
  },
  {
   "property": "C252",
   "status": "partial",
   "theorems": [
    "C252_replaced_refuted"
   ],
   "note": "A measurement named k_mag beside a complex measurement k is replaced by the magnitudes of k, for all k, values and columns."
  },
  {
   "property": "C253",
   "status": "partial",
   "theorems": [
    "C253_failed_refuted"
   ],
   "note": "One text (FAILED) anywhere after a first complex value makes the call raise AttributeError ('str' has no mag)."
  },
  {
   "property": "C254",
   "status": "partial",
   "theorems": [
    "C254_trailing_refuted"
   ],
   "note": "LTComplex uses match, not fullmatch: whatever follows \")\" is ignored."
  },
  {
   "property": "C255",
   "status": "proved",
   "theorems": [
    "C255_one_at_a_time"
   ],
   "note": "The functions satol and sammx are given the meaning of the simulators' if() and ==; numbers as format_eng and %g write them; the recorded list of edits is empty (see C257)."
  },
  {
   "property": "C256",
   "status": "partial",
   "theorems": [
    "C256_parameters_refuted"
   ],
   "note": "For every set-up analysis all parameters but \"run\" keep their values in all netlists, and only components are elements."
  },
  {
   "property": "C257",
   "status": "partial",
   "theorems": [
    "C257_unprepared_refuted"
   ],
   "note": "The formulas are recorded after the recorded edits were played, so all components keep their values in all netlists."
  },
  {
   "property": "C258",
   "status": "proved",
   "theorems": [
    "C258_extremes"
   ],
   "note": "Values are rationals; the logs are collected as in C155."
  },
  {
   "property": "C259",
   "status": "partial",
   "theorems": [
    "C259_failed_refuted"
   ],
   "note": "Any log missing makes the call return None (with a warning), although the values of the others are collected."
  },
  {
   "property": "C260",
   "status": "proved",
   "theorems": [
    "C260_alias_value"
   ],
   "note": "for all formulas (any size) written with the usual precedence over names of letters, digits and \"_\" without a digit followed by a unit, all headers with distinct parameters and aliases and all files whose traces are X(name), time/frequency, or have a character no formula has; equality of the rational values at a point; casefold is lower; division by zero leaves the value undefined."
  },
  {
   "property": "C261",
   "status": "partial",
   "theorems": [
    "C261_blank_refuted"
   ],
   "note": "refuted: for every header with an alias line with a blank in the formula reading fails, also for ordinary traces."
  },
  {
   "property": "C262",
   "status": "partial",
   "theorems": [
    "C262_unit_name_refuted"
   ],
   "note": "refuted: V(1ohm,1) of the nodes 1ohm (5 V) and 1 (2 V) is 0 instead of 3, silently."
  },
  {
   "property": "C263",
   "status": "partial",
   "theorems": [
    "C263_node_name_refuted"
   ],
   "note": "refuted: for all values, a formula with V(x1:a,b) raises; the positive statement for plain names is C260."
  },
  {
   "property": "C264",
   "status": "partial",
   "theorems": [
    "C264_types_refuted"
   ],
   "note": "refuted: for every header and formula an alias that does not begin with I( or V( raises; Freq and Omega of the repository's own QSPICE AC files are examples."
  },
  {
   "property": "C265",
   "status": "partial",
   "theorems": [
    "C265_parameters_refuted"
   ],
   "note": "refuted: for every header one parameter whose value is no number makes every alias raise; a parameter named lambda (a Python keyword) cannot be used in formulas."
  },
  {
   "property": "C266",
   "status": "proved",
   "theorems": [
    "C266_table_of_a_session"
   ],
   "note": "run_all with its recording (composed with the proof of C06) and csv.DictWriter are modelled; the reader is an RFC 4180 reader in the specification."
  },
  {
   "property": "C267",
   "status": "proved",
   "theorems": [
    "C267_table_of_recorded_runs"
   ],
   "note": "The CSV writer of Python with QUOTE_NONNUMERIC, any texts."
  },
  {
   "property": "C268",
   "status": "partial",
   "theorems": [
    "C268_names_set_later_refuted"
   ],
   "note": "Refuted universally: a name that a later simulation has and the first has not gives ValueError with part of the file written."
  },
  {
   "property": "C269",
   "status": "partial",
   "theorems": [
    "C269_same_name_refuted"
   ],
   "note": "Refuted: both are recorded under the same key."
  },
  {
   "property": "C270",
   "status": "partial",
   "theorems": [
    "C270_no_simulation_refuted"
   ],
   "note": "Refuted for every such session: rows[0] raises IndexError."
  },
  {
   "property": "C271",
   "status": "partial",
   "theorems": [
    "C271_parameter_runno_refuted"
   ],
   "note": "Refuted: the values of the run are put over the run number."
  },
  {
   "property": "C272",
   "status": "proved",
   "theorems": [
    "C272_all_runs"
   ],
   "note": "Exact rational samples. The case of a common axis that happens to have as many points as the first run's is the known gap C200."
  },
  {
   "property": "C273",
   "status": "proved",
   "theorems": [
    "C273_distinct_names"
   ],
   "note": "The names that lose characters when tagged are those of C209."
  },
  {
   "property": "C274",
   "status": "partial",
   "theorems": [
    "C274_no_run_refuted"
   ],
   "note": "Refuted: `next` of the exhausted iterator raises StopIteration."
  },
  {
   "property": "C275",
   "status": "partial",
   "theorems": [
    "C275_first_missing_refuted"
   ],
   "note": "Refuted: if the first matching run has none, nothing is made, whatever the others have."
  },
  {
   "property": "C276",
   "status": "partial",
   "theorems": [
    "C276_steps_refuted"
   ],
   "note": "Refuted: what is made is the same for all runs that agree in their first step."
  },
  {
   "property": "C277",
   "status": "partial",
   "theorems": [
    "C277_last_points_refuted"
   ],
   "note": "Refuted: each run after the first takes one point off the end of the axis."
  },
  {
   "property": "C278",
   "status": "proved",
   "theorems": [
    "C278_words"
   ],
   "note": "The first word is taken in a tidy form (no empty parts and parts \".\"); both directions of the splitting are proved."
  },
  {
   "property": "C279",
   "status": "proved",
   "theorems": [
    "C279_one_path"
   ],
   "note": "PureWindowsPath is a given function."
  },
  {
   "property": "C280",
   "status": "partial",
   "theorems": [
    "C280_second_refuted"
   ],
   "note": "Refuted: create_from sets the attributes of the class it is called on and returns that class."
  },
  {
   "property": "C281",
   "status": "partial",
   "theorems": [
    "C281_working_directory_refuted"
   ],
   "note": "Refuted: the text goes through Path, which drops \"./\": the word left has no slash and is searched on the PATH when it is run."
  },
  {
   "property": "C282",
   "status": "proved",
   "theorems": [
    "C282_available"
   ],
   "note": ""
  },
  {
   "property": "C283",
   "status": "proved",
   "theorems": [
    "C283_library_directory"
   ],
   "note": "expandvars and expanduser are given functions."
  },
  {
   "property": "C284",
   "status": "proved",
   "theorems": [
    "C284_library_paths"
   ],
   "note": ""
  },
  {
   "property": "C285",
   "status": "proved",
   "theorems": [
    "C285_process"
   ],
   "note": ""
  },
  {
   "property": "C286",
   "status": "proved",
   "theorems": [
    "C286_by_run_number"
   ],
   "note": "Every log read has one value of runm (all real or all complex, within 1/2 of an integer) and names in lower case, as the readers write them."
  },
  {
   "property": "C287",
   "status": "proved",
   "theorems": [
    "C287_by_order"
   ],
   "note": "Every log has the same measurements, one value each."
  },
  {
   "property": "C288",
   "status": "partial",
   "theorems": [
    "C288_failed_run_refuted"
   ],
   "note": "Universally: under the number of the failed simulation stands the value of the next one."
  },
  {
   "property": "C289",
   "status": "partial",
   "theorems": [
    "C289_step_count_refuted",
    "C289_stepped_logs"
   ],
   "note": "len(stepset), the number of step variables, is assigned to step_count. C289_stepped_logs: for logs with steps of their own the count and the columns are all there."
  },
  {
   "property": "C290",
   "status": "partial",
   "theorems": [
    "C290_later_runs_refuted"
   ],
   "note": "Universally, for every state in which the results were read once and not cleared since."
  },
  {
   "property": "C291",
   "status": "proved",
   "theorems": [
    "C291_further_runs",
    "C291_failed"
   ],
   "note": "Same logs as C287, none with a measurement named run."
  },
  {
   "property": "C292",
   "status": "proved",
   "theorems": [
    "C292_printed_text",
    "C292_printed_number"
   ],
   "note": ""
  },
  {
   "property": "C293",
   "status": "proved",
   "theorems": [
    "C293_unit_read_back"
   ],
   "note": "The ohm sign is written \"ohm\" in the model, on both sides."
  },
  {
   "property": "C294",
   "status": "partial",
   "theorems": [
    "C294_unit_lost_refuted",
    "C294_number_changed_refuted"
   ],
   "note": "Universal counter-examples: r.m.s. units and degrees for all numbers, kelvin, per cent, ppm and radians for all numbers between 1 and 1000."
  },
  {
   "property": "C295",
   "status": "proved",
   "theorems": [
    "C295_unit_by_name"
   ],
   "note": ""
  },
  {
   "property": "C296",
   "status": "partial",
   "theorems": [
    "C296_rms_names_refuted"
   ],
   "note": "Universal: ARMS and VRMS print alike for every number."
  },
  {
   "property": "C297",
   "status": "partial",
   "theorems": [
    "C297_units_ignored_refuted"
   ],
   "note": "The numbers are proved right; the unit of every result is missing (universal)."
  },
  {
   "property": "C298",
   "status": "proved",
   "theorems": [
    "C298_equal_to_text"
   ],
   "note": ""
  },
  {
   "property": "C299",
   "status": "proved",
   "theorems": [
    "C299_none_lost",
    "C299_none_lost_at_rest"
   ],
   "note": "Every schedule at the granularity of single list accesses; run_now is not among the calls."
  },
  {
   "property": "C300",
   "status": "proved",
   "theorems": [
    "C300_one_thread"
   ],
   "note": "Every schedule; justifies the atomic update_completed of the other runner models."
  },
  {
   "property": "C301",
   "status": "proved",
   "theorems": [
    "C301_pass_complete"
   ],
   "note": "Every schedule."
  },
  {
   "property": "C302",
   "status": "partial",
   "theorems": [
    "C302_running_reported_refuted",
    "C302_wrong_task_refuted"
   ],
   "note": "Two schedules: the manager updates while a client call is between append and start; two updates at once."
  },
  {
   "property": "C303",
   "status": "partial",
   "theorems": [
    "C303_manager_dies_refuted"
   ],
   "note": "A schedule that ends the manager, and from there universally: nothing is ever collected again."
  },
  {
   "property": "C304",
   "status": "partial",
   "theorems": [
    "C304_counters_refuted"
   ],
   "note": "One simulation counted twice; two simulations counted once."
  },
  {
   "property": "C305",
   "status": "proved",
   "theorems": [
    "C305_nodes_of_statements",
    "C305_list_determined"
   ],
   "note": "The nodes are those of the statements as CompSpec lays them out; definitions of sub-circuits contribute none."
  },
  {
   "property": "C306",
   "status": "proved",
   "theorems": [
    "C306_list_grows"
   ],
   "note": "For all entries, with no assumption on their texts."
  },
  {
   "property": "C307",
   "status": "partial",
   "theorems": [
    "C307_every_component_counts_refuted"
   ],
   "note": "R1 a b {x+ / + y} parses, but b is not listed."
  },
  {
   "property": "C308",
   "status": "partial",
   "theorems": [
    "C308_one_entry_per_node_refuted"
   ],
   "note": "OUT and out are both listed."
  },
  {
   "property": "C309",
   "status": "partial",
   "theorems": [
    "C309_ports_followed_refuted"
   ],
   "note": "Ports set make no difference; a component without a text raises an error."
  },
  {
   "property": "C310",
   "status": "proved",
   "theorems": [
    "C310_added_and_removed",
    "C310_removal"
   ],
   "note": "For texts the command lookup accepts (EditModel.line_command); an instruction that becomes a plain text cannot be removed by remove_instruction, so removal is claimed for directives and components. C310_removal: first equal line in any list of lines, nothing if absent or denied."
  },
  {
   "property": "C311",
   "status": "proved",
   "theorems": [
    "C311_matching_removed"
   ],
   "note": "The pattern is any decidable set of texts (regular expression matching is not restated)."
  },
  {
   "property": "C312",
   "status": "partial",
   "theorems": [
    "C312_control_section_added_refuted"
   ],
   "note": "Refuted for every control section accepted: ControlEditor is made without the named argument obj, so that its text is None."
  },
  {
   "property": "C313",
   "status": "partial",
   "theorems": [
    "C313_instance_instruction_refuted",
    "C313_copy_lines"
   ],
   "note": "Refuted for every instance without earlier changes."
  },
  {
   "property": "C314",
   "status": "partial",
   "theorems": [
    "C314_absent_instruction_refuted"
   ],
   "note": "Refuted for every instance with a reference."
  },
  {
   "property": "C315",
   "status": "partial",
   "theorems": [
    "C315_definition_stays_refuted"
   ],
   "note": "Refuted with a pattern that matches everything."
  },
  {
   "property": "C316",
   "status": "proved",
   "theorems": [
    "C316_control_sections",
    "C316_added_again"
   ],
   "note": "Control sections read from a file, i.e. with a text (C312 for those added). C316_added_again: a section already there is not added again."
  },
  {
   "property": "C317",
   "status": "proved",
   "theorems": [
    "C317_info_of_every_run",
    "C317_value_of_run"
   ],
   "note": "Netlist file, edits and return code; the other fields are copied from the task in the same way."
  },
  {
   "property": "C318",
   "status": "proved",
   "theorems": [
    "C318_item_by_name"
   ],
   "note": "Item access by a name; an int or slice is passed on to the list."
  },
  {
   "property": "C319",
   "status": "partial",
   "theorems": [
    "C319_latest_edit_refuted"
   ],
   "note": "Refuted for every name and value."
  },
  {
   "property": "C320",
   "status": "partial",
   "theorems": [
    "C320_described_partial",
    "C320_instruction_updates_refuted"
   ],
   "note": "C320_instruction_updates_refuted: updates of instructions (recorded when add_instruction replaces a simulation directive) have the text of an invalid update."
  },
  {
   "property": "C321",
   "status": "partial",
   "theorems": [
    "C321_cleared_parameters_refuted"
   ],
   "note": "Refuted for every dictionary of parameters (text written), and on a whole statement."
  },
  {
   "property": "C322",
   "status": "partial",
   "theorems": [
    "C322_clearing_unknown_refuted"
   ],
   "note": "Refuted for every component and name (attributes), and on a whole statement."
  }
 ]
}