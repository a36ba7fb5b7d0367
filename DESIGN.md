# Formal model of gr1c in Rocq: design

Source under study: /repo (tulip-control/gr1c, C). The model lives in
`rocq/theories/`. It is plain Gallina, Coq 8.16.1, standard library only.

## 1. How the code is modelled

* **State vectors and cubes** are `list Z`. A C array passed with a length is a
  list of that length. A *bit vector* has every entry 0 or 1.
* **BDDs** are modelled by complete decision trees over the `2n` manager
  variables (`n` unprimed, then `n` primed), which are canonical like CUDD
  nodes: two trees of the same depth are equal iff they denote the same
  function. Every CUDD operation used by the code (And, Or, Not, ExistAbstract,
  UnivAbstract, VarMap, Cofactor by a cube, CubeArrayToBdd, Eval, Leq) is a
  function on these trees defined by its textbook meaning. CUDD itself,
  reference counting and dynamic reordering are *not* modelled.
* **Cube enumeration** (`Cudd_ForeachCube`, `Cudd_FirstCube`) is an *oracle*: the
  theorems quantify over every function that, at every call, returns some list
  of pairwise disjoint cubes covering exactly the onset, with don't-cares in
  the positions the function does not depend on. A concrete oracle satisfying
  this (`robdd_oracle`, the paths of the reduced diagram) shows that the
  assumption can be met.
* **malloc** in automata is an allocation function `alloc` that returns an
  address not in use (`tools_ok`); `tools_exist` gives one. Failure of malloc is
  not modelled.
* **Loops** are fuelled; a function returns `Fuel` if fuel runs out. Theorems
  state both that enough fuel exists (termination) and that any result
  obtained satisfies the specification.
* **Undefined behaviour** (NULL dereference, out-of-bounds access, use of
  uninitialised memory) is the separate outcome `Crash`. A value of `Ok` is
  always a result of the code without undefined behaviour.
* **Automata** are lists of nodes with a unique address each; transitions are
  lists of addresses.
* **Text** is a Coq string. No NUL characters. Input and output streams are the
  whole text; failures of stdio are not modelled.

## 2. Where the code is modelled

| C source | Theory | Remarks |
|---|---|---|
| solve_support.c | Support.v, ReadState.v | all functions; strtol by its textbook meaning with saturation at the range of long, conversion to int explicit (`to_int`) |
| solve_operators.c | Ops.v (loops), Solve.v (entry points) | all functions, with the sublevel sets |
| solve.c synthesize, check_realizable | Synth.v, Solve.v | complete; logging left out |
| solve_metric.c | Metric.v | complete; distances as exact integers instead of double (exact below 2^53) |
| automaton.c | Automaton.v, Nonbool.v | complete; delete_aut (free) is not a function of the model |
| automaton_io.c:21-366 | AutIO.v | gr1c automaton format (both versions); fgets with its 4096-byte buffer; no NUL characters |
| automaton_io.c:367-866 | AutWrite.v | DOT, TuLiP, list and JSON writers; `%p` and the time stamp are parameters |
| ptree.c | Ptree.v, FormPrint.v, PtDump.v | all functions except delete_tree; addresses of nodes are a parameter |
| util.c | Nonbool.v, FormCheck.v, PtDump.v | all; print_support (745-798) in Statesets.v; `ceil(log2 x)` computed exactly instead of in double |
| main.c | Options.v, Main.v, TextSpec.v, Output.v, Program.v | parse, form check, expansion, realizability or synthesis, compaction of the result, output format, exit code; command line; interactive mode; -P; -p (PtDump.v) |
| gr1c_scan.l, gr1c_parse.y | Lex.v, Parse.v | flex and bison are replaced by a hand-written longest-match scanner and a precedence parser that run the semantic actions of the grammar; char is signed |
| patching_support.c | Reach.v | complete |
| rg_parse.y | RgParse.v | as gr1c_parse.y, from which it differs in the rule for SYSGOAL only |
| rg_main.c | Reach.v, Rg.v, RgDump.v | complete but for -v, -l and messages on stderr |
| interactive.c | Interactive.v | all commands; no readline (infp given), autoreorder commands have no effect |
| exp/grpatch.c:50-731 | GrPatch.v, PatchDump.v | complete but for -v, -l and messages on stderr; what is left of a formula with a syntax error (-f) is a parameter |
| patching_hotswap.c:37-560 | AddGoal.v | add_metric_sysgoal on Boolean variables |
| patching_hotswap.c:562-912 | Hotswap.v | rm_sysgoal on Boolean variables |
| automaton_io.c:869-1178, main.c -P | Spin.v | Promela writer |
| aux/autman.c:47-324 | Autman.v, AutmanLog.v | main of gr1c-autman; Autman.v without -v and -l, AutmanLog.v with both at every level |
| patching.c:69-1069 | Patch.v | localfixpoint_goalmode and patch_localfixpoint on Boolean variables |
| patching.c:24-66, 766-788, 944 | Pprint.v | pprint_state; the other log output of patching.c is left out |
| sim.c:23-417 | Sim.v | complete but for log output; rand() and the addresses of nodes are parameters |
| util.c:745-798 | Statesets.v | print_support |
| main.c:313-323, 339-345, 592-619, 652-653, 728-729 | Verbose.v | -v once and -l; no other level, and not with -p, -i or -P |
| logging.c | Logging.v | complete; fclose, time and strftime do not fail (but for its room); a double is its text |

Each definition cites the file and lines it models, and its simplifications.

## 3. Trusted base

* The Coq 8.16.1 kernel (with vm_compute, used for the concrete examples).
* **No axioms.** `Print Assumptions` beneath every property theorem prints "Closed
  under the global context". `coqchk -o` lists seven constants of the standard
  library, `Coq.ssr.ssrunder.Under_rel.{Over_rel, Under_rel_from_rel, over_rel,
  over_rel_done, Under_rel, Under_relE, under_rel_done}`: parameters of a module
  type of the ssreflect part of the standard library, which is loaded but on
  which no theorem depends.
* That the definitions listed in section 2 describe the C code. This was checked by
  reading only; nothing was extracted or run against the C program.
* The behaviour of CUDD, libc, flex and bison as described in section 1 and in
  the comments.
* The specifications: Game.v (games, strategies, winning), Levels.v, FSpec.v and
  RSpec.v (meaning of a specification), Form.v (formulas), TextSpec.v, Syntax.v
  and FileSpec.v (grammar), AutIOSpec.v, ReadSpec.v, ReachSpec.v, SynthSpec.v, InteractSpec.v …

Hypotheses that occur in the theorems, all with an instance beside the theorem:

* `oracle_ok m orc`: the cube generator returns disjoint cubes that cover the onset.
* `tools_ok F orc alloc` / `tools R orc alloc`: additionally, new nodes get new addresses.
* `well_scoped F`: variables are declared, primes only where allowed. This is what
  check_gr1c_form tests (C30).
* `all_boolean F`: every variable is Boolean (integers have been expanded, C19–C22, C36).
* `usable R`: the specification is well typed (in particular no `!= 0` on a one-valued
  variable), names are distinct, bit names are distinct and prefix-free, domains fit into int.
* `int_ok`: numbers fit into int.
* `keys_ok key`: `%p` prints different plain texts for different addresses; the time stamp is plain text.
* bounds on fuel.

## 4. Per property

* **C01 Winning set is exact** (proved). Ops.v; fixpoints on finite sets (Fix.v), soundness by an explicit strategy (GameSound.v), completeness by the attractor argument (GameComplete.v), transfer to BDDs (BGame.v, OpsProofs.v). Theorems: C01_winning_set_exact, C01_no_goal_crashes.
* **C02 Winning-set and sublevel computations terminate** (proved). measure on the finite lattice of sets (Fix.v). Theorems: C02_terminates, C02_bound_irrelevant, C02_winning_set_bound, C02_sublevels_terminate, C02_sublevels_bound_irrelevant.
* **C03 Realizability verdict, ALL_INIT** (proved). Solve.v; exactness of C01 and quantification over the initial states. Theorems: C03_all_init, C03_documented_reading_refuted, C03_C05_total, C03_C05_result. the documented reading (no initial state needed) is refuted
* **C04 Realizability verdict, ALL_ENV_EXIST_SYS_INIT** (proved). as C03. Theorems: C04_all_env_exist_sys, C04_general, C04_unsat_sysinit_refuted, C03_C05_total. refuted for unsatisfiable SYSINIT
* **C05 Realizability verdict, ONE_SIDE_INIT** (proved). as C03. Theorems: C05_one_side, C03_C05_total.
* **C06 Synthesized strategy never breaks the safety rules and never gets stuck** (proved). Synth.v; invariant of the construction loop (SynthInv.v), certificate (SynthCert.v). Theorems: C06_safe, C06_never_stuck, C06_envtrans_no_env_refuted. Boolean specifications (integers already expanded, see C19-C22). With no environment variable the transitions need not obey ENVTRANS (refuted variant with witness).
* **C07 Synthesized strategy meets the liveness goals** (proved). rank (mode, level) decreases along the automaton (SynthCert.v). Theorems: C07_live. With no environment variable the path is required to obey ENVTRANS.
* **C08 Synthesized strategy covers the initial conditions** (proved). initial loops of synthesize (SynthInit.v). Theorems: C08_all_init, C08_one_side, C08_all_env_exist_sys, C08_initial_flag_refuted. The stronger claim that every such node carries the initial flag is refuted with a witness. ALL_ENV_EXIST_SYS under the separation that check_gr1c_form enforces.
* **C09 synthesize terminates and succeeds on realizable specifications** (proved). progress of the construction loop, measure on (state, mode) pairs (SynthProg.v). Theorems: C09_all_init, C09_one_side, C09_all_env_exist_sys, C09_no_env_refuted, C09_unsat_sysinit_refuted, C09_no_initial_state_refuted. Corner cases outside the hypotheses are refuted with witnesses.
* **C10 Strategy automaton is a well-formed deterministic transducer** (proved). invariant of SynthInv.v. Theorems: C10_well_formed, C10_deterministic.
* **C11 Goal mode and reach annotation are meaningful** (proved). invariant of SynthInv.v. Theorems: C11_modes, C11_reach_annotation, C11_annotation_zero.
* **C12 Controllable predecessor operator is exact** (proved). Support.v, algebra of BDDs. Theorems: C12_existsmodal_exact. compute_existsmodal is the controllable predecessor
* **C13 Environment moves are enumerated exactly once** (proved). invariant over the loop on the cubes (EnumProofs.v). Theorems: C13_env_moves_exact, C13_generator_exists. for every cube generator meeting the stated contract
* **C14 Cube enumeration idiom visits every completion once** (proved). induction on the increments. Theorems: C14_enumeration_exact, C14_enumeration_any_bound.
* **C15 Cofactor and characteristic function of a state are exact** (proved). induction on the state vector. Theorems: C15_state_to_BDD_exact, C15_state_to_cof_exact.
* **C16 Formula to BDD translation preserves meaning** (proved). Ptree.v, induction on formulas. Theorems: C16_formula_to_BDD, C16_unknown_variable.
* **C17 Reverse-Polish tree building reconstructs the formula** (proved). stack machine, induction. Theorems: C17_rpn_builds_tree, C17_rpn_stack.
* **C18 Merging trees means n-ary conjunction/disjunction** (proved). induction on the array. Theorems: C18_merge_and, C18_merge_or, C18_merge_implies, C18_merge_empty.
* **C19 Integer variables are expanded to bits without changing meaning** (proved). induction on formulas and on bits (ExpProofs.v). Theorems: C19_expansion_meaning, C19_ne0_refuted. Every formula of the specification language, every domain, every value in the domain. The crash of != 0 on a variable with domain [0,0] is the excluded case and is shown by C19_ne0_refuted. Integer logarithms replace the floating-point ones.
* **C20 Out-of-domain bit patterns are excluded exactly** (proved). NonboolProofs.v. Theorems: C20_unreachable_values, C20_only_in_domain. For every specification whose bit names are distinct; all three initial-condition modes.
* **C21 Integer/bit-vector conversion round trip** (proved). arithmetic. Theorems: C21_int_round_trip, C21_bits_round_trip. Widths 1..31; truncation to x mod 2^k included.
* **C22 State vectors survive expansion and compaction** (proved). NbStateProofs.v. Theorems: C22_state_expansion, C22_expand_compact, C22_compact_expand, C22_prefix_refuted. For prefix-free names; the defect for other names is C22_prefix_refuted.
* **C23 Printed formulas read back as the same formula** (proved). FormPrint.v, Lex.v, Parse.v: the printed text is scanned and parsed again (PrintProofs.v). Theorems: C23_reads_back, C23_clash, C23_refuted. the statement as first written (all formulas) is refuted by C23_refuted; the statement was narrowed to the exact condition
* **C24 Automaton file round trip** (proved). AutIO.v: loader run on the dumped text (AutIOProofs.v). Theorems: C24_round_trip, C24_versions, C24_no_version, C24_short, C24_delete_refuted, C24_version_refuted, C24_malformed_refuted, C24_initial_refuted. Round trip for both format versions. The _refuted theorems record defects nearby: uninitialised trans of nodes without transitions, unsupported versions accepted, undefined behaviour on malformed files, truncated initial field.
* **C25 Automaton file lines may come in any order** (partial). only for ordered lines; the documented claim is false. Theorems: C25_in_order_partial, C25_refuted, C25_crash_refuted. Holds for lines in the order of their IDs, with comments and blank lines anywhere; the documented claim for any order is false (C25_refuted, C25_crash_refuted). What happens instead is C44.
* **C26 Dead-end pruning is exact** (proved). Automaton.v: invariant of the pruning loop. Theorems: C26_prune_deadends_exact. exact: the result is the sub-automaton of nodes with an infinite path
* **C27 Forward pruning only removes unreachable nodes** (proved). as C26. Theorems: C27_forward_prune, C27_reachable_kept. candidates must be NULL or nodes of the automaton, as at every call
* **C28 Automaton list primitives** (proved). induction on lists. Theorems: C28_find_first, C28_find_index, C28_anode_index, C28_delete, C28_replace, C28_append, C28_insert_pop_size. append with a missing source dereferences NULL and delete of a missing target returns NULL (documented); both are part of the theorems
* **C29 Variable-list primitives** (proved). induction on lists. Theorems: C29_append, C29_get, C29_get_last, C29_get_none, C29_find, C29_remove, C29_remove_last, C29_remove_last_single, C29_remove_invalid, C29_remove_front_refuted. Lists of items of any type; every index. C29_remove_front_refuted shows the documented hazard: the returned pointer is not the list for index >= 2.
* **C30 Specification form check accepts exactly well-scoped specifications** (proved). FormCheck.v. Theorems: C30_accepts_iff, C30_result, C30_scoped, C30_list_restored_refuted. Exact for every specification whose trees come from formulas; the list is as before after success; after a failure it may be left chained (C30_list_restored_refuted).
* **C31 State string reader** (proved). ReadState.v against a relational specification (ReadSpec.v). Theorems: C31_prefix, C31_unique, C31_read_back, C31_in_range. Values outside of int are truncated (to_int); strtol modelled by its textbook meaning.
* **C32 Interactive restrict/relax/block/clear edit exactly the intended rules** (proved). Interactive.v: representation invariant of the edited BDDs (InteractProofs.v, InteractRun.v). Theorems: C32_env_moves, C32_sys_moves, C32_loaded_env, C32_loaded_sys, C32_alive. Commands of src/interactive.c on Boolean specifications; moves as listed by envnext/sysnexta before and after each command.
* **C33 Interactive answers are those of the game** (proved). as C32, with C01, C37 for the sets; text layer in InteractText.v. Theorems: C33_winning, C33_envnext, C33_sysnexta, C33_sysnext, C33_getindex, C33_sublevels, C33_answered, C33_session, C33_sysnexta_winning_refuted, C33_no_such_goal, C33_too_few. The statement originally said that sysnexta lists only winning answers; doc/interaction.md says otherwise and so does the code (refuted theorem), the statement was corrected.
* **C34 Distance bounds are true minima and maxima** (proved). Metric.v. Theorems: C34_bounds_state, C34_bounds_state_empty, C34_bounds_DDset, C34_bounds_DDset_empty, C34_get_offsets, C34_minmax, C34_horizon, C34_prefix_names_refuted. Distances as exact integers (the code uses double; exact below 2^53). Also: offsets found for variable names hold the values of these variables when no other name starts with them (refuted without that condition), bounds of all levels (compute_minmax; writes out of bounds when no state is winning), and the horizon.
* **C35 Tree value extrema** (proved). induction on trees. Theorems: C35_min, C35_max, C35_rmin, C35_rmax, C35_own, C35_sentinel_refuted, C35_exact_name_refuted. Without the hypothesis on the sentinel the claim is false; rmin/rmax match by prefix of the variable name.
* **C36 Whole-pipeline correctness for integer variables** (proved). expansion (C19, C20) is an isomorphism of games (GameIso.v), then C03–C05. Theorems: C36_all_init, C36_all_env_exist_sys, C36_all_env_exist_sys_general, C36_one_side. Preparation as in main.c followed by check_realizable; every specification with distinct bit names and without != 0 on a one-valued variable.
* **C37 Sublevel sets form a ladder from goal to winning set** (proved). LevelProofs.v, SubProofs.v. Theorems: C37_sublevels_are_ladders.
* **C38 Reachability-game strategies reach the goal** (proved). Reach.v: as C06/C07 for the reachability construction. Theorems: C38_rg_safe, C38_rg_reaches, C38_rg_strategy, C38_rg_exact, C38_lists_strategy, C38_lists_exact, C38_target_outside_refuted, C38_no_egoal_refuted, C38_no_env_refuted, C38_never_initial. rg on Boolean specifications and the function on arrays of states with any set N containing the target; findings: target outside N, empty goal list, ENVTRANS without environment variables, no node marked initial
* **C39 Copying and printing do not alter trees; sizes add up** (proved). induction on trees. Theorems: C39_copy, C39_canonical, C39_size, C39_check_vars. copy_ptree is the identity on all trees the constructors can build.
* **C40 Marking the forward-reachable set** (proved). graph reachability invariant. Theorems: C40_modereach_exact, C40_same_mode_diverges. the second theorem shows why the modes must differ
* **C41 Every node of a synthesized strategy is winning** (proved). invariant of SynthInv.v. Theorems: C41_nodes_winning.
* **C42 gr1c prints a correct strategy over the declared integer variables** (proved). Main.v: C36, C06–C11 and C22 composed. Theorems: C42_all_init, C42_one_side, C42_all_env_exist_sys, C42_realizable. Termination of synthesis is proved if there are environment variables or no ENVTRANS rule, and (for the interpretations other than ALL_INIT) some initial state exists; names must be prefix-free (see C22_prefix_refuted).
* **C43 A strategy visits only states that plays reach** (proved). invariant of the construction loop. Theorems: C43_reached. For ALL_ENV_EXIST_SYS_INIT the initial conditions must be separated, as the form check demands.
* **C44 Exact behaviour of the automaton loader on lines in any order** (proved). AutIO.v: exact description of what the loader does. Theorems: C44_any_order. Instances: C25_refuted and C25_crash_refuted show both cases.
* **C45 The parser accepts exactly the documented syntax and always ends** (proved). Lex.v, Parse.v against the grammar (Syntax.v, FileSpec.v): soundness, completeness, unambiguity. Theorems: C45_formula, C45_derivable, C45_unambiguous, C45_accepts, C45_only, C45_unique, C45_ends, C45_only_refuted. the condition that the text does not begin with a formula is needed (C45_only_refuted)
* **C46 Every specification can be written down and is read back** (proved). parse of file_text. Theorems: C46_written, C46_sections. the text is built by the specification (file_text) with print_formula for the formulas; gr1c has no writer for whole specifications that can be re-read
* **C47 gr1c answers right from the text of the specification** (proved). C45/C46, C30 and C42 composed. Theorems: C47_bad_text, C47_bad_form, C47_all_init, C47_all_env_exist_sys, C47_one_side, C47_realizable. same assumptions as C42
* **C48 Following sysnext reaches the goal** (proved). rank = level of the state; C33. Theorems: C48_answer, C48_reaches, C48_two_goals_refuted. With two environment goals the claim fails (refuted theorem).
* **C49 The scanner splits a text exactly as its rules say; layout does not matter** (proved). Lex.v against regular expressions (LexSpec.v): every matching function finds the longest match (LexRegex.v); induction on layout (LexLayout.v). Theorems: C49_tokens, C49_one_answer, C49_layout, C49_same_parse, C49_layout_refuted. scanner = maximal munch over the regular expressions of gr1c_scan.l; positions (yylloc) and NUL bytes are not modelled
* **C50 The JSON output is valid JSON and loses nothing** (proved). AutWrite.v; JsonSpec.v gives the grammar of JSON as a relation; a reader shown complete for the grammar gives uniqueness (JsonProofs.v); derivation of the written text (JsonWrite.v). Theorems: C50_written, C50_one_value, C50_determines, C50_references. %p and the time stamp are parameters: any injective plain text for addresses, any plain time stamp
* **C51 The plain list has one line per node and loses nothing** (proved). AutWrite.v; FormatSpec.v gives the layout; the loops are computed by induction (WriteProofs.v), injectivity by splitting at separators. Theorems: C51_written, C51_determines.
* **C52 The DOT output is the graph of the strategy** (proved). AutWrite.v; FormatSpec.v gives graphs as lists of statements; both printers of identifiers are shown equal to one text (DotProofs.v); injectivity (DotInj.v). Theorems: C52_written, C52_graph, C52_determines, C52_cut, C52_truncated_refuted. C52_truncated_refuted is the finding that main.c ignores the value -1
* **C53 The TuLiP output is well-formed XML that describes the strategy** (proved). AutWrite.v; FormatSpec.v gives a grammar of XML as a relation; every text has at most one element (XmlProofs.v); injectivity of the element (FormatProofs.v). Theorems: C53_written, C53_one_element, C53_determines, C53_all_kept_refuted. C53_all_kept_refuted: initial flags, and modes without rank, are not in the format
* **C54 A run of gr1c does what its command line asks** (proved). Program.v composes Options.v and Output.v; ProgramSpec.v says what a run should do; from C55, C47, C36, C24, C50-C53 and the fact that names in a text are identifiers (ProgramProofs.v). Theorems: C54_synthesis, C54_realizable, C54_syntax, C54_bad_text, C54_bad_form, C54_no_file, C54_stops. Runs with -v, -l are outside (outcome Other of the model); -i and -P: C65, C66; -p: C67. Termination for synthesis under can_start.
* **C55 The command line is read as documented** (proved). Options.v; OptSpec.v gives the lines as a relation between arguments and options; both directions by induction on the arguments (OptProofs.v). Theorems: C55_accepted, C55_version, C55_commands, C55_rejected, C55_defined, C55_dash_refuted, C55_prefix_refuted. C55_dash_refuted: gr1c - reads argv[1][2], outside of the argument. C55_prefix_refuted: names are compared by prefix
* **C56 A system goal can be removed from a strategy** (proved). Hotswap.v; the loops of rm_sysgoal in closed form (HotProofs.v, HotForm.v), the new automaton as an image of the old one and the substrategy (HotSem.v: gaps between modes, liveness by cutting lassos, Lasso.v), the reachability game from C38 (HotCore.v), file round trip from C24 (HotLoad.v). Theorems: C56_sound, C56_synthesized, C56_range, C56_skip_refuted, C56_overflow_refuted, C56_free_refuted. Soundness under the condition that the goal is not skipped; C56_skip_refuted shows that it is needed. C56_overflow_refuted, C56_free_refuted: undefined behaviour on strategies of synthesize
* **C57 When removing a system goal succeeds** (proved). the old strategy wins the reachability game from the entries (HotFollow.v), so each loop finds what it looks for (HotTotal.v); renaming of addresses by the file round trip (HotLoad.v). Theorems: C57_total, C57_overflow, C57_synthesized. C57_total and C57_overflow together: on strategies as stated, exits_fit decides between success and an out-of-bounds write
* **C58 The verification model for Spin** (proved). Spin.v; the written text is the text of an explicit file (SpinText.v, SpinDump.v), formulas keep their meaning (SpinForm.v); runs of the Promela program proceed in laps of constant length, one per transition (SpinRuns.v), so runs and paths correspond and the formula says what the specification says (SpinPath.v); SpinFinal.v for gr1c. Theorems: C58_written, C58_correct, C58_gr1c, C58_no_env_refuted. PromelaSpec.v defines how the Promela and LTL texts are read and what they mean (written for this purpose from the Promela reference, part of what has to be believed); executing atomic is one step
* **C59 gr1c-autman reads, checks, converts and exports strategy files** (proved). Autman.v; AutmanProofs.v: the arguments against the relation of the usage message by induction, loading through C44, a strategy file and its relabelling agree up to node addresses, the writers through C50-C53; AutmanModel.v: -P through C58 applied to the relabelled strategy. Theorems: C59_convert, C59_convert_plain, C59_check, C59_model, C59_passes, C59_gr1c_file, C59_refused, C59_no_reference, C59_no_input, C59_no_nodes, C59_stops, C59_lines, C59_instance, C59_usage_refuted. the options -v and -l, which add output on stderr or in log files, are parsed but their output is not modelled; files whose nodes are not in the order 0, 1, 2, ... are covered by C44 only
* **C60 A system goal can be added to a strategy** (proved). AddGoal.v; place of the goal from the distances of C34 (AddLoad.v), the loops in closed form (AddMerge.v), the result as seen through the old strategy and the two substrategies (AddView.v, AddSem.v: liveness by cutting paths at the two joints), pruning (AddEnd.v), labels (AddOrder.v), the reachability games from C38 (AddCore.v), file round trip from C24 (AddLoad.v); runs in AddExamples.v. Theorems: C60_sound, C60_synthesized, C60_place, C60_not_reached, C60_not_passed, C60_single, C60_dangling_refuted, C60_reached_refuted, C60_stuck_refuted, C60_initial_refuted, C60_instance. Boolean variables only; soundness of what is returned, not when something is returned (see the refuted theorems: often freed memory is read, a Crash in the model)
* **C61 A strategy can be patched after changes of the rules** (proved). Patch.v; the local game: relevant parts of the rules agree with the whole rules on N (PatchRules.v), its strategies from C38 (PatchCore.v); the loops in closed form (PatchMerge.v), one mode preserves an invariant that says which of the nodes are old, copied or new (PatchView.v, PatchSem.v), all modes (PatchEnd.v); commands (PatchCommands.v), change file (PatchText.v), the whole function (PatchLoad.v), strategies of gr1c (PatchSynth.v); runs in PatchExamples.v. Theorems: C61_sound, C61_synthesized, C61_outside, C61_unaffected, C61_instance, C61_outside_instance, C61_unaffected_instance, C61_goal_in_N_refuted, C61_entered_refuted, C61_init_lost_refuted, C61_no_entry_refuted, C61_wrong_arguments_refuted. Boolean variables only; soundness of what is returned, not when something is returned; the environment must be able to move under the changed rules
* **C62 gr1c-rg solves reachability games from the command line** (proved). Rg.v (with Reach.v, RgParse.v, Output.v, Options.v); the options by induction on the command line (RgOpts.v); the reachability game over bits and the one over integers are isomorphic (RgIso.v, RgChain.v), so that C38 carries over; preparation (RgPrep.v); texts as in C45 (RgParseProofs.v); output as in C54 (RgProofs.v). Theorems: C62_synthesis, C62_modes, C62_syntax, C62_bad_text, C62_bad_form, C62_no_file, C62_accepted, C62_version, C62_rejected, C62_defined, C62_stops, C62_exit_codes. options that add output (-v, -l, -p) are left out; specifications with distinct bit names
* **C63 gr1c-patch changes strategies from the command line** (proved). GrPatch.v (with Hotswap.v, AddGoal.v, Patch.v, Metric.v, Output.v); the options by induction on the command line (GrPatchOpts.v); preparation (GrPatchPrep.v); C56 and C60 carried over to states encoded in bits (HotInt.v, IntPatch.v); the rules that the Boolean solver gets are those of the text (GrPatchSame.v); output as in C54 (GrPatchProofs.v, GrPatchRuns.v); strategies of gr1c (GrPatchMade.v). Theorems: C63_remove, C63_remove_exact, C63_remove_range, C63_add, C63_bad_goal, C63_change, C63_change_outside, C63_change_unaffected, C63_no_spec, C63_no_strategy, C63_no_changes, C63_bad_text, C63_bad_form, C63_accepted, C63_version, C63_rejected, C63_stops, C63_exit_codes, C63_gr1c. options that add output (-v, -l, -p) are left out; specifications with distinct bit names; -e for Boolean variables; the strategy file without comments
* **C64 Receding horizon simulation: the plays sim_rhc produces** (proved). Sim.v; the lists hstacks are levels of a search: invariant over the candidates, each list linked to the one before and covered by the next (SimProofs.v); one iteration, then all of them: the lists hold what can be reached within so many steps, MEM holds the aims since the last goal (SimLoop.v); carried over to specifications by C01 (SimUse.v); the bound by counting the states in the lists. Theorems: C64_play, C64_refused, C64_stuck, C64_legal_refuted, C64_goals_refuted. Boolean variables; rand() is any sequence of numbers; log output left out
* **C65 A session of gr1c -i prints what the typed lines ask for** (proved). Program.v runs Interactive.v on the prepared specification; SessionSpec.v says what is to be printed; the lines one by one (SessionProofs.v), with the session of commands alone from C32/C33 (InteractRun.v) and the rules of the prepared specification equivalent to those written (GrPatchSame.v); runs in SessionRun.v. Theorems: C65_session, C65_integers, C65_addvar_refuted. Goals shown by printgoal and printegoals are those C23 says can be read back; lines have less than 256 bytes
* **C66 A run of gr1c -P delivers a strategy and a model that passes** (proved). Program.v composes Spin.v and Output.v; C54 with C58 (VerifyRun.v). Theorems: C66_verified, C66_ignored. The Promela semantics is PromelaSpec.v (C58); without environment variables only if nothing is assumed (quiet, C58_no_env_refuted)
* **C67 gr1c -p echoes the specification and changes nothing else** (proved). PtDump.v composes the dump phase of main() with Program.v; DumpSpec.v says what is printed; the text of the eight lines is read back with the lexer and parser results of C46 (DumpProofs.v), runs in DumpRun.v. Theorems: C67_echo, C67_nothing, C67_without, C67_refuted. C67_echo assumes that the DOT files can be written (else C68_stopped) and that nodes have different addresses
* **C68 The DOT files of gr1c -p show the parse trees** (proved). Induction over the tree for the statements written by inorder_trav (DumpProofs.v), runs in DumpRun.v. Theorems: C68_drawn, C68_stopped, C68_names. True and False are labelled 1 and 0
* **C69 gr1c-rg -p echoes conditions and goals, draws all formulas and changes nothing else** (proved). RgDump.v, with the functions of PtDump.v; RgDumpSpec.v says what is printed; proofs as for C67 and C68 (RgDumpProofs.v, RgDumpRun.v). Theorems: C69_echo, C69_drawn, C69_stopped, C69_names, C69_nothing, C69_without, C69_rules_refuted. C69_rules_refuted: the claim that the rules can be told from the echo is false
* **C70 gr1c-patch -p echoes the specification, draws all formulas and, if file names do not collide, changes nothing else** (proved). PatchDump.v, with the functions of PtDump.v; DOT files that are written are in the file system when later files are opened; PatchDumpSpec.v says what is printed; proofs as for C67 and C68 (PatchDumpRun.v). Theorems: C70_echo, C70_drawn, C70_stopped, C70_early, C70_names, C70_without, C70_domains_refuted, C70_apart_refuted. C70_domains_refuted: the domains shown are not those of the variables; C70_apart_refuted: file names must not collide
* **C71 The log gets exactly the texts that are logged, at the place the log is at, with their arguments and times** (proved). Logging.v models all of logging.c; LogSpec.v gives the abstract log and what each call writes; LogProofs.v: simulation in both directions, call by call, and the formats by induction on their length. Theorems: C71_format, C71_session, C71_only, C71_exit, C71_one, C71_close_refuted, C71_aside_refuted, C71_percent_refuted, C71_instance. The log after closelogfile, formats that end in a percent sign and texts for another stream without a log: see the three refutations
* **C72 print_support lists the states of a set, each exactly once, on readable lines** (proved). Statesets.v models print_support on top of Logging.v and the cube loops of Support.v; StatesetSpec.v says what a line is; the enumeration lemmas of C13 and C14 give the states, StatesetProofs.v the text. Theorems: C72_log, C72_stream, C72_readable, C72_line, C72_nolog_refuted, C72_once_refuted, C72_instance. C72_nolog_refuted: undefined without a log; C72_once_refuted: X must be about the first state_len variables only
* **C73 pprint_state names exactly the variables that are not 0** (proved). Pprint.v models pprint_state and its calls for the commands in a file of changes, with reads outside of the state as crashes; PprintSpec.v gives the text; induction over the variables. Theorems: C73_state, C73_environment, C73_system, C73_readable, C73_edge, C73_move, C73_expanded, C73_expanded_refuted, C73_block, C73_block_refuted, C73_instance. C73_block_refuted: blocksys -v reads behind the end of the state; C73_expanded_refuted: part of an edge is not shown if there are integer variables
* **C74 -v and -l add the log to a run of gr1c and change nothing else** (proved). Verbose.v is main() with the log of Logging.v; VerboseSpec.v says which messages go with which exit code; simulation of the run of Program.v step by step (VerboseProofs.v); the size from C47/C54. Theorems: C74_stdout, C74_file, C74_only, C74_no_input, C74_bad_text, C74_bad_form, C74_failed, C74_no_log, C74_size, C74_instance. verbosity level 1; higher levels add messages of other files, which are not modelled
* **C75 -v and -l add the log to a run of gr1c-autman and change nothing else** (proved). AutmanLog.v is main() of gr1c-autman with the log of Logging.v; AutmanLogSpec.v lists the messages with the level each needs; simulation of the run of Autman.v stage by stage (AutmanLogProofs.v). Theorems: C75_same, C75_only, C75_no_reference, C75_bad_reference, C75_no_input, C75_not_loaded, C75_loaded, C75_no_log, C75_instance. messages on stderr are not modelled; a run that only fails for want of fuel is set against one with the same fuel

## 5. Findings about the code

Each is a theorem or an example in the file of the property.

* C03/C04/C09: a specification without initial state is reported unrealizable under
  ALL_INIT although the documentation's reading makes it trivially realizable; an
  unsatisfiable SYSINIT under ALL_ENV_EXIST_SYS_INIT is reported realizable, and synthesize then
  reads outside of its arrays or returns NULL.
* C06/C09: without environment variables, ENVTRANS is ignored when moves are enumerated.
* C08: nodes that were created before they were found to be initial keep the flag 0.
* C19: `x != 0` on a variable with domain [0,0] dereferences NULL.
* C22: compaction of states goes wrong if one variable's name followed by digits is another's.
* C23: a formula with the variable `x` printed next to a constant such as `(x|1)` cannot be
  read back; `a|b&c` is read as `(a|b)&c`; `->` associates to the left; `3.7` is read as 3.
* C24/C25/C44: the loader of automata uses uninitialised `trans` pointers on nodes
  without transitions, accepts unsupported versions, has undefined behaviour on malformed
  files, and mixes up nodes if the lines are not in the order of their IDs although the
  documentation allows any order.
* C29: removing list item 2 or later returns a pointer that is not the list.
* C30: a failing form check leaves the two variable lists chained together.
* C34: compute_minmax writes out of bounds when no state is winning; offsets are found by prefix.
* C38: the reachability synthesizer needs the target inside N and a nonempty goal list.
* C45: a file that starts with a bare formula leaves the parser's tree pointer dirty, so that
  this formula ends up in the next section; a byte >= 128 outside of a comment silently ends
  the input; a comment on the last line without a newline is a syntax error; an empty SYSGOAL
  resets the goals to True.
* C33: sysnext at a state outside of all levels, with no answer back, reads `Y[num_sublevels]`,
  outside of the array. Without system variables, sysnext prints garbage (excluded by
  `ready`). Arguments that are not 0 or 1 are not checked. Lines of 256 or more
  characters are split.
* C49: `&` and `[]` on different lines are two tokens (a syntax error in the transition sections), on one
  line they are one; section words count only as the first word of a line.
* C56: rm_sysgoal assumes that a strategy enters goal i + 1 only from nodes seeking i. If two
  goals can be reached at once, synthesize skips a mode, and the patched strategy leaves a legal
  move of the environment unanswered. The array Exit has as many elements as there are nodes to
  delete, but there can be more exits: out-of-bounds write. Nodes without transitions
  (environment blocked) have an uninitialised field trans after loading: deleting them calls free
  on it. Initial nodes among the deleted ones are lost.
* C55: `gr1c -` reads argv[1][2], which is behind the end of the argument. Names of options
  are compared up to their length only: `-t dotty` and `--helpless` are accepted. `gr1c help x`
  exits with 1 and prints no help.
* C52: a node whose label has 4096 characters or more makes dot_aut_dump stop and return -1;
  main.c ignores this and exits 0 with half a graph.
* C53: the TuLiP format has no initial flags, and no mode if the rank is -1.
* C73: gr1c-patch -v with a blocksys command (patching.c:944) calls pprint_state with num_env = -1, which makes it
  start at index num_env, but with an array of num_sys entries: with environment variables it reads behind the end
  (C73_block_refuted). restrict and relax pass num_read-(2*num_env+num_sys) (patching.c:785), where num_read counts
  integers and the others bits: with integer variables the second state is not shown in full (C73_expanded_refuted).
* C72: print_support with outf NULL and no log set calls fputc with NULL (C72_nolog_refuted). For a BDD that is also
  about primed variables it may list a state more than once (C72_once_refuted).
* C71: closelogfile leaves logfp as it is, so that a later logprint or openlogfile uses a stream after fclose
  (C71_close_refuted; the programs only call it at their end). setlogstream(NULL) means stdout, so print_GR1_spec and
  print_support with outf and no log before leave stdout as the log (C71_aside_refuted). The loop over fmt steps over
  the end if it ends in a percent sign (C71_percent_refuted; no format in the code does).
* C70: gr1c-patch -p takes value == 0 for Boolean (grpatch.c:440, 467), where the parser gives -1: Boolean variables
  are shown as {0..-1} and variables with domain [0,0] as bool (C70_domains_refuted). The DOT file of the -f formula is
  written before the specification is opened, and the others before the strategy is, so a file with such a name is
  overwritten before it is read (C70_apart_refuted).
* C69: gr1c-rg -p prints spc.env_trans and spc.sys_trans (rg_main.c:361, 365) before they are set (402-414); they are
  still NULL, so the echo shows "ENV TRANS:  [] " and "SYS TRANS:  [] " with no rules, and print_formula warns on stderr
  (C69_rules_refuted).
* C67: the echo of -p looks like a specification file but is not one: the labels are "ENV INIT:", "ENV GOALS:" etc. with
  blanks, "(none)" stands for an empty list, and the domains of integer variables are left out (C67_refuted).
* C65: "addvar env (sys) VARIABLE" is documented in doc/interaction.md and listed by help, but command_loop has
  no such command; the line is answered with "Unrecognized command" (C65_addvar_refuted).
* exp/grjit.c does not compile against the headers of this commit: it uses EXIST_SYS_INIT, which is nowhere
  defined, and calls expand_nonbool_GR1 without the argument init_flags.
* C64: sim_rhc never empties hstacks between iterations, and next_state keeps its value when no candidate
  is found. So each state is a candidate only as long as it comes closer than ever before, and the play stops
  for good after at most horizon * 2^n changes, also where stopping is forbidden by SYSTRANS
  (C64_legal_refuted) and where the next goal is one step away (C64_goals_refuted). If the environment has no
  move, `rand() % 0` is computed (C64_stuck). sim.h itself calls the code "possibly temporarily defunct".
* C63: main() of gr1c-patch ignores the return value of yyparse for the formula of -f: after a
  syntax error the last formula reduced is taken. -r takes its number by strtol without a check and keeps
  32 bits: "goal" and 4294967296 remove goal 0. `-a -name` reads stdin (C63_instance_other).
* C62: gr1c-rg never exits with 3: lines 627-632 are reached with a strategy only, an unwinnable game
  exits with -1 (C62_exit_codes, C62_instance_other). Input files after the first are ignored.
* C61: patch_localfixpoint treats a node of N as an exit of the local game if its successors are
  outside of N or seek another goal; if a goal holds in a state of N, the goal mode ends inside of N,
  and forbidden transitions can stay (C61_goal_in_N_refuted). A node of N entered only from nodes
  seeking another goal is deleted without replacement (C61_entered_refuted). Initial nodes in N are
  not entries: they get lost (C61_init_lost_refuted). If all nodes are in N there is no entry, and
  NULL is returned (C61_no_entry_refuted). blocksys with a wrong number of arguments after another
  command frees the state of the earlier command (already freed) instead of its own: double free
  (C61_wrong_arguments_refuted). A strategy with two nodes of the same state and mode can have more
  exits than the array Exit has room for.
* C60: add_metric_sysgoal keeps the successors of the nodes where goal i is passed (Gi_succ) for
  forward_prune, although connecting the second substrategy frees those among them where the next
  goal is passed; forward_prune then reads `(*(U+i))->initial` of freed nodes. If the new goal holds
  where goal i is passed, freed nodes are read too. In an enumeration of 4000 two-bit specifications
  without metric variables the model stops there in 3300. If the new goal can hold together with
  the goal after it, the second reachability game has entries that are exits, and the result has
  nodes without transitions. An unsatisfiable goal has distance -1 and so counts as nearest. The
  initial mark of a node where the next goal is passed is lost: the result can have no initial node.
* C59: -s of gr1c-autman never prints -1 (errors print nothing and exit with 3); FILE `-` reads
  argv[i][2] past the end of the argument; a line that is no node crashes the loader before -s can
  report it; -ss cannot be given (refused as invalid although the code handles it); unlike gr1c,
  the specification is not checked to be of GR(1) form.
* C58: without environment variables the LTL formula omits ENVINIT, ENVTRANS and ENVGOAL, so
  right strategies fail. Names that Promela does not accept (with `.`, keywords) or that clash with
  the macros of the model or with another name followed by _next are written as they are. A
  strategy that leaves a move of the environment unanswered violates the formula only if the
  environment can go on legally, so passing does not show that all moves are answered.
* C48: with two environment goals, following sysnext may circle for ever.

## 6. Not modelled

* CUDD, libc, flex and bison themselves; memory management; dynamic reordering.
* Integer overflow outside of the stated ranges, floating-point rounding in
  `log2` and in distances.
* Log output apart from C71-C75: -vv and more of gr1c, -v and -l of gr1c with -p, -i or -P, and of gr1c-rg and
  gr1c-patch (apart from pprint_state). Messages on stderr.
* exp/grjit.c: does not compile (section 5).

## 7. Testing the theorems

`seeded/LOG.jsonl` lists edits of the model as realistic bugs would make, with the
theorems that failed: the first lemma that no longer compiles, and the files of theorems that
cannot be built for that reason. A lemma may fail because its proof follows the text of the model, so a
failure alone does not show that the property is false of the edited model. Entries with a note `void`
did not type-check and tested nothing. `checks/` contains longer computations in the model that
are not part of the build (the example session of doc/interaction.md).
