{"claims": [
 {"property": "C01", "status": "proved", "theorems": ["C01_winning_set_exact", "C01_no_goal_crashes"], "note": ""},
 {"property": "C02", "status": "proved", "theorems": ["C02_terminates", "C02_bound_irrelevant", "C02_winning_set_bound", "C02_sublevels_terminate", "C02_sublevels_bound_irrelevant"], "note": ""},
 {"property": "C03", "status": "proved", "theorems": ["C03_all_init", "C03_documented_reading_refuted", "C03_C05_total", "C03_C05_result"], "note": "the documented reading (no initial state needed) is refuted"},
 {"property": "C04", "status": "proved", "theorems": ["C04_all_env_exist_sys", "C04_general", "C04_unsat_sysinit_refuted", "C03_C05_total"], "note": "refuted for unsatisfiable SYSINIT"},
 {"property": "C05", "status": "proved", "theorems": ["C05_one_side", "C03_C05_total"], "note": ""},
 {"property": "C06", "status": "proved", "theorems": ["C06_safe", "C06_never_stuck", "C06_envtrans_no_env_refuted"], "note": "Boolean specifications (integers already expanded, see C19-C22). With no environment variable the transitions need not obey ENVTRANS (refuted variant with witness)."},
 {"property": "C07", "status": "proved", "theorems": ["C07_live"], "note": "With no environment variable the path is required to obey ENVTRANS."},
 {"property": "C08", "status": "proved", "theorems": ["C08_all_init", "C08_one_side", "C08_all_env_exist_sys", "C08_initial_flag_refuted"], "note": "The stronger claim that every such node carries the initial flag is refuted with a witness. ALL_ENV_EXIST_SYS under the separation that check_gr1c_form enforces."},
 {"property": "C09", "status": "proved", "theorems": ["C09_all_init", "C09_one_side", "C09_all_env_exist_sys", "C09_no_env_refuted", "C09_unsat_sysinit_refuted", "C09_no_initial_state_refuted"], "note": "Corner cases outside the hypotheses are refuted with witnesses."},
 {"property": "C10", "status": "proved", "theorems": ["C10_well_formed", "C10_deterministic"], "note": ""},
 {"property": "C11", "status": "proved", "theorems": ["C11_modes", "C11_reach_annotation", "C11_annotation_zero"], "note": ""},
 {"property": "C12", "status": "proved", "theorems": ["C12_existsmodal_exact"], "note": "compute_existsmodal is the controllable predecessor"},
 {"property": "C13", "status": "proved", "theorems": ["C13_env_moves_exact", "C13_generator_exists"], "note": "for every cube generator meeting the stated contract"},
 {"property": "C14", "status": "proved", "theorems": ["C14_enumeration_exact", "C14_enumeration_any_bound"], "note": ""},
 {"property": "C15", "status": "proved", "theorems": ["C15_state_to_BDD_exact", "C15_state_to_cof_exact"], "note": ""},
 {"property": "C16", "status": "proved", "theorems": ["C16_formula_to_BDD", "C16_unknown_variable"], "note": ""},
 {"property": "C17", "status": "proved", "theorems": ["C17_rpn_builds_tree", "C17_rpn_stack"], "note": ""},
 {"property": "C18", "status": "proved", "theorems": ["C18_merge_and", "C18_merge_or", "C18_merge_implies", "C18_merge_empty"], "note": ""},
 {"property": "C19", "status": "proved", "theorems": ["C19_expansion_meaning", "C19_ne0_refuted"], "note": "Every formula of the specification language, every domain, every value in the domain. The crash of != 0 on a variable with domain [0,0] is the excluded case and is shown by C19_ne0_refuted. Integer logarithms replace the floating-point ones."},
 {"property": "C20", "status": "proved", "theorems": ["C20_unreachable_values", "C20_only_in_domain"], "note": "For every specification whose bit names are distinct; all three initial-condition modes."},
 {"property": "C21", "status": "proved", "theorems": ["C21_int_round_trip", "C21_bits_round_trip"], "note": "Widths 1..31; truncation to x mod 2^k included."},
 {"property": "C22", "status": "proved", "theorems": ["C22_state_expansion", "C22_expand_compact", "C22_compact_expand", "C22_prefix_refuted"], "note": "For prefix-free names; the defect for other names is C22_prefix_refuted."},
 {"property": "C23", "status": "proved", "theorems": ["C23_reads_back", "C23_clash", "C23_refuted"], "note": "the statement as first written (all formulas) is refuted by C23_refuted; the statement was narrowed to the exact condition"},
 {"property": "C24", "status": "proved", "theorems": ["C24_round_trip", "C24_versions", "C24_no_version", "C24_short", "C24_delete_refuted", "C24_version_refuted", "C24_malformed_refuted", "C24_initial_refuted"], "note": "Round trip for both format versions. The _refuted theorems record defects nearby: uninitialised trans of nodes without transitions, unsupported versions accepted, undefined behaviour on malformed files, truncated initial field."},
 {"property": "C25", "status": "partial", "theorems": ["C25_in_order_partial", "C25_refuted", "C25_crash_refuted"], "note": "Holds for lines in the order of their IDs, with comments and blank lines anywhere; the documented claim for any order is false (C25_refuted, C25_crash_refuted). What happens instead is C44."},
 {"property": "C26", "status": "proved", "theorems": ["C26_prune_deadends_exact"], "note": "exact: the result is the sub-automaton of nodes with an infinite path"},
 {"property": "C27", "status": "proved", "theorems": ["C27_forward_prune", "C27_reachable_kept"], "note": "candidates must be NULL or nodes of the automaton, as at every call"},
 {"property": "C28", "status": "proved", "theorems": ["C28_find_first", "C28_find_index", "C28_anode_index", "C28_delete", "C28_replace", "C28_append", "C28_insert_pop_size"], "note": "append with a missing source dereferences NULL and delete of a missing target returns NULL (documented); both are part of the theorems"},
 {"property": "C29", "status": "proved", "theorems": ["C29_append", "C29_get", "C29_get_last", "C29_get_none", "C29_find", "C29_remove", "C29_remove_last", "C29_remove_last_single", "C29_remove_invalid", "C29_remove_front_refuted"], "note": "Lists of items of any type; every index. C29_remove_front_refuted shows the documented hazard: the returned pointer is not the list for index >= 2."},
 {"property": "C30", "status": "proved", "theorems": ["C30_accepts_iff", "C30_result", "C30_scoped", "C30_list_restored_refuted"], "note": "Exact for every specification whose trees come from formulas; the list is as before after success; after a failure it may be left chained (C30_list_restored_refuted)."},
 {"property": "C31", "status": "proved", "theorems": ["C31_prefix", "C31_unique", "C31_read_back", "C31_in_range"], "note": "Values outside of int are truncated (to_int); strtol modelled by its textbook meaning."},
 {"property": "C32", "status": "proved", "theorems": ["C32_env_moves", "C32_sys_moves", "C32_loaded_env", "C32_loaded_sys", "C32_alive"], "note": "Commands of src/interactive.c on Boolean specifications; moves as listed by envnext/sysnexta before and after each command."},
 {"property": "C33", "status": "proved", "theorems": ["C33_winning", "C33_envnext", "C33_sysnexta", "C33_sysnext", "C33_getindex", "C33_sublevels", "C33_answered", "C33_session", "C33_sysnexta_winning_refuted", "C33_no_such_goal", "C33_too_few"], "note": "The statement originally said that sysnexta lists only winning answers; doc/interaction.md says otherwise and so does the code (refuted theorem), the statement was corrected."},
 {"property": "C34", "status": "proved", "theorems": ["C34_bounds_state", "C34_bounds_state_empty", "C34_bounds_DDset", "C34_bounds_DDset_empty", "C34_get_offsets", "C34_minmax", "C34_horizon", "C34_prefix_names_refuted"], "note": "Distances as exact integers (the code uses double; exact below 2^53). Also: offsets found for variable names hold the values of these variables when no other name starts with them (refuted without that condition), bounds of all levels (compute_minmax; writes out of bounds when no state is winning), and the horizon."},
 {"property": "C35", "status": "proved", "theorems": ["C35_min", "C35_max", "C35_rmin", "C35_rmax", "C35_own", "C35_sentinel_refuted", "C35_exact_name_refuted"], "note": "Without the hypothesis on the sentinel the claim is false; rmin/rmax match by prefix of the variable name."},
 {"property": "C36", "status": "proved", "theorems": ["C36_all_init", "C36_all_env_exist_sys", "C36_all_env_exist_sys_general", "C36_one_side"], "note": "Preparation as in main.c followed by check_realizable; every specification with distinct bit names and without != 0 on a one-valued variable."},
 {"property": "C37", "status": "proved", "theorems": ["C37_sublevels_are_ladders"], "note": ""},
 {"property": "C38", "status": "proved", "theorems": ["C38_rg_safe", "C38_rg_reaches", "C38_rg_strategy", "C38_rg_exact", "C38_lists_strategy", "C38_lists_exact", "C38_target_outside_refuted", "C38_no_egoal_refuted", "C38_no_env_refuted", "C38_never_initial"], "note": "rg on Boolean specifications and the function on arrays of states with any set N containing the target; findings: target outside N, empty goal list, ENVTRANS without environment variables, no node marked initial"},
 {"property": "C39", "status": "proved", "theorems": ["C39_copy", "C39_canonical", "C39_size", "C39_check_vars"], "note": "copy_ptree is the identity on all trees the constructors can build."},
 {"property": "C40", "status": "proved", "theorems": ["C40_modereach_exact", "C40_same_mode_diverges"], "note": "the second theorem shows why the modes must differ"},
 {"property": "C41", "status": "proved", "theorems": ["C41_nodes_winning"], "note": ""},
 {"property": "C42", "status": "proved", "theorems": ["C42_all_init", "C42_one_side", "C42_all_env_exist_sys", "C42_realizable"], "note": "Termination of synthesis is proved if there are environment variables or no ENVTRANS rule, and (for the interpretations other than ALL_INIT) some initial state exists; names must be prefix-free (see C22_prefix_refuted)."},
 {"property": "C43", "status": "proved", "theorems": ["C43_reached"], "note": "For ALL_ENV_EXIST_SYS_INIT the initial conditions must be separated, as the form check demands."},
 {"property": "C44", "status": "proved", "theorems": ["C44_any_order"], "note": "Instances: C25_refuted and C25_crash_refuted show both cases."},
 {"property": "C45", "status": "proved", "theorems": ["C45_formula", "C45_derivable", "C45_unambiguous", "C45_accepts", "C45_only", "C45_unique", "C45_ends", "C45_only_refuted"], "note": "the condition that the text does not begin with a formula is needed (C45_only_refuted)"},
 {"property": "C46", "status": "proved", "theorems": ["C46_written", "C46_sections"], "note": "the text is built by the specification (file_text) with print_formula for the formulas; gr1c has no writer for whole specifications that can be re-read"},
 {"property": "C47", "status": "proved", "theorems": ["C47_bad_text", "C47_bad_form", "C47_all_init", "C47_all_env_exist_sys", "C47_one_side", "C47_realizable"], "note": "same assumptions as C42"},
 {"property": "C48", "status": "proved", "theorems": ["C48_answer", "C48_reaches", "C48_two_goals_refuted"], "note": "With two environment goals the claim fails (refuted theorem)."},
 {"property": "C49", "status": "proved", "theorems": ["C49_tokens", "C49_one_answer", "C49_layout", "C49_same_parse", "C49_layout_refuted"], "note": "scanner = maximal munch over the regular expressions of gr1c_scan.l; positions (yylloc) and NUL bytes are not modelled"},
 {"property": "C50", "status": "proved", "theorems": ["C50_written", "C50_one_value", "C50_determines", "C50_references"], "note": "%p and the time stamp are parameters: any injective plain text for addresses, any plain time stamp"},
 {"property": "C51", "status": "proved", "theorems": ["C51_written", "C51_determines"], "note": ""},
 {"property": "C52", "status": "proved", "theorems": ["C52_written", "C52_graph", "C52_determines", "C52_cut", "C52_truncated_refuted"], "note": "C52_truncated_refuted is the finding that main.c ignores the value -1"},
 {"property": "C53", "status": "proved", "theorems": ["C53_written", "C53_one_element", "C53_determines", "C53_all_kept_refuted"], "note": "C53_all_kept_refuted: initial flags, and modes without rank, are not in the format"},
 {"property": "C54", "status": "proved", "theorems": ["C54_synthesis", "C54_realizable", "C54_syntax", "C54_bad_text", "C54_bad_form", "C54_no_file", "C54_stops"], "note": "Runs with -v, -l are outside (outcome Other of the model); -i and -P: C65, C66; -p: C67. Termination for synthesis under can_start."},
 {"property": "C55", "status": "proved", "theorems": ["C55_accepted", "C55_version", "C55_commands", "C55_rejected", "C55_defined", "C55_dash_refuted", "C55_prefix_refuted"], "note": "C55_dash_refuted: gr1c - reads argv[1][2], outside of the argument. C55_prefix_refuted: names are compared by prefix"},
 {"property": "C56", "status": "proved", "theorems": ["C56_sound", "C56_synthesized", "C56_range", "C56_skip_refuted", "C56_overflow_refuted", "C56_free_refuted"], "note": "Soundness under the condition that the goal is not skipped; C56_skip_refuted shows that it is needed. C56_overflow_refuted, C56_free_refuted: undefined behaviour on strategies of synthesize"},
 {"property": "C57", "status": "proved", "theorems": ["C57_total", "C57_overflow", "C57_synthesized"], "note": "C57_total and C57_overflow together: on strategies as stated, exits_fit decides between success and an out-of-bounds write"},
 {"property": "C58", "status": "proved", "theorems": ["C58_written", "C58_correct", "C58_gr1c", "C58_no_env_refuted"], "note": "PromelaSpec.v defines how the Promela and LTL texts are read and what they mean (written for this purpose from the Promela reference, part of what has to be believed); executing atomic is one step"},
 {"property": "C59", "status": "proved", "theorems": ["C59_convert", "C59_convert_plain", "C59_check", "C59_model", "C59_passes", "C59_gr1c_file", "C59_refused", "C59_no_reference", "C59_no_input", "C59_no_nodes", "C59_stops", "C59_lines", "C59_instance", "C59_usage_refuted"], "note": "the options -v and -l, which add output on stderr or in log files, are parsed but their output is not modelled; files whose nodes are not in the order 0, 1, 2, ... are covered by C44 only"},
 {"property": "C60", "status": "proved", "theorems": ["C60_sound", "C60_synthesized", "C60_place", "C60_not_reached", "C60_not_passed", "C60_single", "C60_dangling_refuted", "C60_reached_refuted", "C60_stuck_refuted", "C60_initial_refuted", "C60_instance"], "note": "Boolean variables only; soundness of what is returned, not when something is returned (see the refuted theorems: often freed memory is read, a Crash in the model)"},
 {"property": "C61", "status": "proved", "theorems": ["C61_sound", "C61_synthesized", "C61_outside", "C61_unaffected", "C61_instance", "C61_outside_instance", "C61_unaffected_instance", "C61_goal_in_N_refuted", "C61_entered_refuted", "C61_init_lost_refuted", "C61_no_entry_refuted", "C61_wrong_arguments_refuted"], "note": "Boolean variables only; soundness of what is returned, not when something is returned; the environment must be able to move under the changed rules"},
 {"property": "C62", "status": "proved", "theorems": ["C62_synthesis", "C62_modes", "C62_syntax", "C62_bad_text", "C62_bad_form", "C62_no_file", "C62_accepted", "C62_version", "C62_rejected", "C62_defined", "C62_stops", "C62_exit_codes"], "note": "options that add output (-v, -l, -p) are left out; specifications with distinct bit names"},
 {"property": "C63", "status": "proved", "theorems": ["C63_remove", "C63_remove_exact", "C63_remove_range", "C63_add", "C63_bad_goal", "C63_change", "C63_change_outside", "C63_change_unaffected", "C63_no_spec", "C63_no_strategy", "C63_no_changes", "C63_bad_text", "C63_bad_form", "C63_accepted", "C63_version", "C63_rejected", "C63_stops", "C63_exit_codes", "C63_gr1c"], "note": "options that add output (-v, -l, -p) are left out; specifications with distinct bit names; -e for Boolean variables; the strategy file without comments"},
 {"property": "C64", "status": "proved", "theorems": ["C64_play", "C64_refused", "C64_stuck", "C64_legal_refuted", "C64_goals_refuted"], "note": "Boolean variables; rand() is any sequence of numbers; log output left out"},
 {"property": "C65", "status": "proved", "theorems": ["C65_session", "C65_integers", "C65_addvar_refuted"], "note": "Goals shown by printgoal and printegoals are those C23 says can be read back; lines have less than 256 bytes"},
 {"property": "C66", "status": "proved", "theorems": ["C66_verified", "C66_ignored"], "note": "The Promela semantics is PromelaSpec.v (C58); without environment variables only if nothing is assumed (quiet, C58_no_env_refuted)"},
 {"property": "C67", "status": "proved", "theorems": ["C67_echo", "C67_nothing", "C67_without", "C67_refuted"], "note": "C67_echo assumes that the DOT files can be written (else C68_stopped) and that nodes have different addresses"},
 {"property": "C68", "status": "proved", "theorems": ["C68_drawn", "C68_stopped", "C68_names"], "note": "True and False are labelled 1 and 0"},
 {"property": "C69", "status": "proved", "theorems": ["C69_echo", "C69_drawn", "C69_stopped", "C69_names", "C69_nothing", "C69_without", "C69_rules_refuted"], "note": "C69_rules_refuted: the claim that the rules can be told from the echo is false"},
 {"property": "C70", "status": "proved", "theorems": ["C70_echo", "C70_drawn", "C70_stopped", "C70_early", "C70_names", "C70_without", "C70_domains_refuted", "C70_apart_refuted"], "note": "C70_domains_refuted: the domains shown are not those of the variables; C70_apart_refuted: file names must not collide"},
 {"property": "C71", "status": "proved", "theorems": ["C71_format", "C71_session", "C71_only", "C71_exit", "C71_one", "C71_close_refuted", "C71_aside_refuted", "C71_percent_refuted", "C71_instance"], "note": "The log after closelogfile, formats that end in a percent sign and texts for another stream without a log: see the three refutations"},
 {"property": "C72", "status": "proved", "theorems": ["C72_log", "C72_stream", "C72_readable", "C72_line", "C72_nolog_refuted", "C72_once_refuted", "C72_instance"], "note": "C72_nolog_refuted: undefined without a log; C72_once_refuted: X must be about the first state_len variables only"},
 {"property": "C73", "status": "proved", "theorems": ["C73_state", "C73_environment", "C73_system", "C73_readable", "C73_edge", "C73_move", "C73_expanded", "C73_expanded_refuted", "C73_block", "C73_block_refuted", "C73_instance"], "note": "C73_block_refuted: blocksys -v reads behind the end of the state; C73_expanded_refuted: part of an edge is not shown if there are integer variables"},
 {"property": "C74", "status": "proved", "theorems": ["C74_stdout", "C74_file", "C74_only", "C74_no_input", "C74_bad_text", "C74_bad_form", "C74_failed", "C74_no_log", "C74_size", "C74_instance"], "note": "verbosity level 1; higher levels add messages of other files, which are not modelled"},
 {"property": "C75", "status": "proved", "theorems": ["C75_same", "C75_only", "C75_no_reference", "C75_bad_reference", "C75_no_input", "C75_not_loaded", "C75_loaded", "C75_no_log", "C75_instance"], "note": "messages on stderr are not modelled; a run that only fails for want of fuel is set against one with the same fuel"}
]}
