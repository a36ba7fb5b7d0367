{"id": "C01", "title": "Winning set is exact", "statement": "compute_winning_set(_BDD) returns the characteristic function of exactly those states from which the system has a strategy (a function of the whole play so far and of the environment's next move) that always answers every environment move allowed by ENVTRANS with a move allowed by SYSTRANS, and whose every infinite play visits all SYSGOALs infinitely often whenever it visits all ENVGOALs infinitely often. An environment with no allowed move loses.", "quantifier": "every number of environment/system variables, every ENVTRANS/SYSTRANS/goal functions (at least one goal on each side after defaulting), every state, every system strategy and every environment behaviour", "why_tests_cant": "Quantifies over all specifications and over all infinite plays against all history-dependent strategies; no finite test suite decides an infinite game.", "anchors": ["src/solve_operators.c: compute_winning_set, compute_winning_set_BDD", "src/solve_support.c: compute_existsmodal", "include/solve.h"]}
{"id": "C02", "title": "Winning-set and sublevel computations terminate", "statement": "The nested do/while fixpoint loops of compute_winning_set_BDD and compute_sublevel_sets stop after finitely many iterations on every specification, and their result does not depend on how long one is willing to wait.", "quantifier": "every specification over finitely many variables", "why_tests_cant": "Termination for all inputs cannot be observed by running particular inputs.", "anchors": ["src/solve_operators.c: compute_winning_set_BDD, compute_sublevel_sets"]}
{"id": "C03", "title": "Realizability verdict, ALL_INIT", "statement": "With init_flags ALL_INIT, check_realizable returns non-NULL if and only if some state satisfies ENVINIT and SYSINIT and every such state is one from which the system can win. (solve.h documents only the second half: an unsatisfiable initial condition is vacuously realizable according to the documentation but is reported unrealizable.)", "quantifier": "every specification and every pair of initial formulas", "why_tests_cant": "All specifications, all plays; a single example cannot establish an iff over an infinite family.", "anchors": ["src/solve.c: check_realizable, check_realizable_internal", "include/solve.h: ALL_INIT"]}
{"id": "C04", "title": "Realizability verdict, ALL_ENV_EXIST_SYS_INIT", "statement": "With init_flags ALL_ENV_EXIST_SYS_INIT, ENVINIT over environment variables only and SYSINIT over system variables only and satisfiable, check_realizable returns non-NULL iff for every environment initialization allowed by ENVINIT there is a system initialization allowed by SYSINIT such that the system wins from the combined state. When SYSINIT is unsatisfiable the documented meaning is violated (the tool answers realizable).", "quantifier": "every specification with separated initial formulas", "why_tests_cant": "All specifications and all plays.", "anchors": ["src/solve.c: check_realizable_internal", "include/solve.h: ALL_ENV_EXIST_SYS_INIT"]}
{"id": "C05", "title": "Realizability verdict, ONE_SIDE_INIT", "statement": "With init_flags ONE_SIDE_INIT, if SYSINIT is empty check_realizable returns non-NULL iff the system wins from every state satisfying ENVINIT (True when empty); if SYSINIT is f it returns non-NULL iff the system wins from at least one state satisfying f.", "quantifier": "every specification in which at most one initial formula is present", "why_tests_cant": "All specifications and all plays.", "anchors": ["src/solve.c: check_realizable_internal", "include/solve.h: ONE_SIDE_INIT"]}
{"id": "C06", "title": "Synthesized strategy never breaks the safety rules and never gets stuck", "statement": "In the automaton returned by synthesize, every transition goes from a state to a successor that satisfies SYSTRANS (and whose environment part satisfies ENVTRANS), and at every node, for every environment move that ENVTRANS allows there, there is a transition whose target has exactly that environment part.", "quantifier": "every specification, every order in which the BDD package enumerates cubes, every node reachable or not in the returned automaton, every environment move", "why_tests_cant": "Ranges over every realizable specification and over nondeterministic cube orders of the BDD library.", "anchors": ["src/solve.c: synthesize", "src/solve_support.c: get_env_moves, state_to_cof"]}
{"id": "C07", "title": "Synthesized strategy meets the liveness goals", "statement": "Every infinite path in the automaton returned by synthesize that visits every ENVGOAL infinitely often also visits every SYSGOAL infinitely often.", "quantifier": "every specification, every cube order, every infinite path in the strategy", "why_tests_cant": "A statement about infinite runs of every synthesized automaton.", "anchors": ["src/solve.c: synthesize", "src/solve_operators.c: compute_sublevel_sets"]}
{"id": "C08", "title": "Synthesized strategy covers the initial conditions", "statement": "When synthesize succeeds, its automaton contains a node for every state from which play may start: for ALL_INIT (and ONE_SIDE with no SYSINIT) one for every initial state; for ALL_ENV_EXIST_SYS one for every environment initialization completed by an allowed system initialization; for ONE_SIDE with SYSINIT one satisfying it. Every node marked initial satisfies the initial condition. (The stronger claim that each such node is marked initial is false of the code: the mark is lost when the node is merged.)", "quantifier": "every specification, every cube order and every init_flags value", "why_tests_cant": "All specifications; the marking defect appears only for particular goal combinations that the test suite does not contain.", "anchors": ["src/solve.c: synthesize (initial node enumeration, delete/insert on mode change)"]}
{"id": "C09", "title": "synthesize terminates and succeeds on realizable specifications", "statement": "If check_realizable answers realizable and at least one initial state exists, synthesize terminates and returns a non-NULL automaton without reading outside its level-set arrays.", "quantifier": "every specification with at least one environment variable (and the deterministic case with a satisfiable environment rule), every cube order", "why_tests_cant": "Termination and absence of out-of-bounds access for all inputs.", "anchors": ["src/solve.c: synthesize"]}
{"id": "C10", "title": "Strategy automaton is a well-formed deterministic transducer", "statement": "In the automaton returned by synthesize no two nodes have the same state and goal mode, every transition points to a node of the automaton, every mode is a valid goal index, and no node has two transitions for the same environment move.", "quantifier": "every specification and every cube order", "why_tests_cant": "Structural invariant of a worklist algorithm over all inputs.", "anchors": ["src/solve.c: synthesize", "src/automaton.c"]}
{"id": "C11", "title": "Goal mode and reach annotation are meaningful", "statement": "Along each transition of a synthesized automaton: if the goal mode changes from m to m', the target state satisfies every goal from m up to but excluding m' (cyclically); if the mode does not change and the source has positive reach annotation then the annotation of the target is not larger.", "quantifier": "every specification, every cube order, every transition", "why_tests_cant": "Annotation semantics relied on by patching tools, for all automata.", "anchors": ["src/solve.c: synthesize (rgrad, next_mode)", "doc/formats.md"]}
{"id": "C12", "title": "Controllable predecessor operator is exact", "statement": "compute_existsmodal(C) holds in a state s iff for every next environment valuation permitted by ENVTRANS from s there is a next system valuation permitted by SYSTRANS leading into C.", "quantifier": "every set C, every ENVTRANS that does not constrain next system values, every SYSTRANS, every state", "why_tests_cant": "All functions over arbitrarily many variables.", "anchors": ["src/solve_support.c: compute_existsmodal, cube_prime_env, cube_prime_sys"]}
{"id": "C13", "title": "Environment moves are enumerated exactly once", "statement": "get_env_moves returns every next environment valuation permitted by ENVTRANS from the given state, each exactly once, and nothing else, whatever cube decomposition the BDD library yields.", "quantifier": "every ENVTRANS, state, number of variables and cube order", "why_tests_cant": "Cube order and shape are chosen by an external library with dynamic reordering.", "anchors": ["src/solve_support.c: get_env_moves"]}
{"id": "C14", "title": "Cube enumeration idiom visits every completion once", "statement": "The initialize_cube / saturated_cube / increment_cube loop terminates and yields every 0/1 vector that agrees with the cube on its non-don't-care positions, each exactly once.", "quantifier": "every cube of every length", "why_tests_cant": "All cubes of all lengths (exponentially many, unbounded length).", "anchors": ["src/solve_support.c: initialize_cube, increment_cube, saturated_cube"]}
{"id": "C15", "title": "Cofactor and characteristic function of a state are exact", "statement": "state_to_BDD(state, offset) is true exactly at valuations agreeing with the state at that offset; state_to_cof(trans, state, offset) evaluated anywhere equals trans evaluated with the state substituted at that offset, and no longer depends on those variables.", "quantifier": "every function, state, offset and valuation", "why_tests_cant": "All functions over unboundedly many variables.", "anchors": ["src/solve_support.c: state_to_BDD, state_to_cof, state_to_cube"]}
{"id": "C16", "title": "Formula to BDD translation preserves meaning", "statement": "For a formula tree whose variables all occur in the variable list, ptree_BDD yields the Boolean function that is the usual truth-table meaning of the formula, with unprimed variable i at index i and its primed version at index n+i.", "quantifier": "every formula tree over True/False, variables, primed variables, !, &, |, ->, <->, and every variable list", "why_tests_cant": "All formulas of unbounded size.", "anchors": ["src/ptree.c: ptree_BDD, find_list_item, tree_size"]}
{"id": "C17", "title": "Reverse-Polish tree building reconstructs the formula", "statement": "Feeding the postfix sequence of any formula to pusht_terminal/pusht_operator (as the parser actions do) produces exactly that formula's tree, on top of any previously pushed operands.", "quantifier": "every formula and every pending operand stack", "why_tests_cant": "All formulas, all nesting depths.", "anchors": ["src/ptree.c: pusht_terminal, pusht_operator", "src/gr1c_parse.y"]}
{"id": "C18", "title": "Merging trees means n-ary conjunction/disjunction", "statement": "merge_ptrees(heads,len,PT_AND/PT_OR) with len>=1 yields a tree equivalent to the conjunction/disjunction of the inputs, and NULL for len<=0; PT_IMPLIES is left-associated.", "quantifier": "every list of formula trees and every valuation", "why_tests_cant": "Any number of trees.", "anchors": ["src/ptree.c: merge_ptrees"]}
{"id": "C19", "title": "Integer variables are expanded to bits without changing meaning", "statement": "For a variable with domain [0,maxval], expand_to_bool turns every comparison (=,!=,<,>,<=,>=) of that variable, primed or not, with a number written to the right into a Boolean formula over its bits that is true under the binary encoding of a value v in the domain iff the comparison is true of v; other subformulas are unchanged in meaning. maxval=0 with != crashes.", "quantifier": "every formula, every maxval, every value in the domain, every number compared with", "why_tests_cant": "Unbounded formulas, domains and constants.", "anchors": ["src/ptree.c: expand_to_bool, expand_nonbool_varnum, var_to_bool"]}
{"id": "C20", "title": "Out-of-domain bit patterns are excluded exactly", "statement": "unreach_expanded_bool(name,lower,upper) holds for a value iff it is not in [lower,upper]; the constraints that expand_nonbool_GR1 adds hold under an encoding of k bits iff the encoded value is within the declared domain, so the expanded initial and transition formulas admit exactly the in-domain values.", "quantifier": "every domain size and every bit pattern", "why_tests_cant": "All domain sizes.", "anchors": ["src/ptree.c: unreach_expanded_bool", "src/util.c: expand_nonbool_GR1"]}
{"id": "C21", "title": "Integer/bit-vector conversion round trip", "statement": "bitvec_to_int(int_to_bitvec(x,k),k) = x for 0 <= x < 2^k (k <= 31), and int_to_bitvec(bitvec_to_int(v,k),k) = v for every 0/1 vector v; the least significant bit comes first. int_to_bitvec with larger x silently truncates to x mod 2^k.", "quantifier": "every width below the word size and every value", "why_tests_cant": "Whole value range.", "anchors": ["src/util.c: bitvec_to_int, int_to_bitvec"]}
{"id": "C22", "title": "State vectors survive expansion and compaction", "statement": "expand_nonbool_state writes each integer component as its bits and copies the others; compacting all integer variables in an expanded strategy (aut_compact_nonbool) and expanding it again (aut_expand_bool) restores every state vector. When one variable's name is a prefix of a neighbour's name the neighbour is swallowed (defect).", "quantifier": "every list of variables with prefix-free names, every state vector within the domains", "why_tests_cant": "Any number of variables in any arrangement.", "anchors": ["src/util.c: expand_nonbool_state, get_offsets_list", "src/automaton.c: aut_compact_nonbool, aut_expand_bool"]}
{"id": "C23", "title": "Printed formulas read back as the same formula", "statement": "The text written by print_formula (gr1c syntax) for a parser-produced tree is derivable in the grammar, every derivation of it leads the parser actions to rebuild the same tree, and the scanner and parser indeed read it as that tree, exactly when no connective of the formula joins a constant directly with a variable. Otherwise the constant is written as a number and the text is no formula at all.", "quantifier": "every formula over identifiers and numbers that fit an int", "why_tests_cant": "All formulas; ambiguity must be excluded for every derivation.", "anchors": ["src/ptree.c: print_formula", "src/gr1c_parse.y", "src/gr1c_scan.l"]}
{"id": "C24", "title": "Automaton file round trip", "statement": "Loading the text produced by aut_aut_dump (version 1) for an automaton yields an automaton with the same nodes in the same order: same states, initial marks, modes, reach annotations and transitions.", "quantifier": "every well-formed automaton with state values, modes and annotations in the int range and lines below the reader's buffer size", "why_tests_cant": "All automata of unbounded size.", "anchors": ["src/automaton_io.c: aut_aut_dumpver, aut_aut_loadver"]}
{"id": "C25", "title": "Automaton file lines may come in any order", "statement": "doc/formats.md says node IDs 0..N-1 need not appear in order in the file: loading a permuted file gives the same automaton. (Refuted: transitions are taken from the wrong line.)", "quantifier": "every permutation of the lines of every dumped automaton", "why_tests_cant": "All permutations.", "anchors": ["src/automaton_io.c: aut_aut_loadver", "doc/formats.md"]}
{"id": "C26", "title": "Dead-end pruning is exact", "statement": "aut_prune_deadends removes exactly the nodes from which no infinite path exists: what is left has no dead ends, keeps every node lying on or leading to a cycle, keeps relative order, and no remaining transition points to a removed node.", "quantifier": "every finite automaton", "why_tests_cant": "All graphs.", "anchors": ["src/automaton.c: aut_prune_deadends, replace_anode_trans, delete_anode"]}
{"id": "C27", "title": "Forward pruning only removes unreachable nodes", "statement": "forward_prune never deletes an initial node or a node reachable by a path from an initial node (or from a node outside the candidate set that is kept), terminates, leaves no transition pointing to a deleted node, and on return every candidate left has a predecessor or is initial.", "quantifier": "every automaton and every candidate array, redundant or not", "why_tests_cant": "All graphs and candidate arrays.", "anchors": ["src/automaton.c: forward_prune, delete_anode"]}
{"id": "C28", "title": "Automaton list primitives", "statement": "insert/pop/find/find-index/index/delete/append-transition/replace-transition behave as the corresponding operations on a list of nodes: lookups return the first match, delete removes exactly the target and keeps order, replacing a target by another (or by nothing) rewrites exactly the transitions to it.", "quantifier": "every sequence of operations from the empty automaton", "why_tests_cant": "All operation histories.", "anchors": ["src/automaton.c"]}
{"id": "C29", "title": "Variable-list primitives", "statement": "append/get/find/remove on variable lists agree with the list of items they hold; removing any item other than the first returns a pointer to its predecessor (so a caller storing the result as the list loses the front).", "quantifier": "every list and every index including -1", "why_tests_cant": "All lists, indices.", "anchors": ["src/ptree.c: append_list_item, get_list_item, find_list_item, remove_list_item"]}
{"id": "C30", "title": "Specification form check accepts exactly well-scoped specifications", "statement": "check_gr1c_form returns 0 iff some variable is declared and every unprimed variable used is declared, primed variables appear only in transition rules, ENVTRANS primes only environment variables, initial formulas respect the selected init_flags; and after success the variable lists are as before.", "quantifier": "every specification and init_flags", "why_tests_cant": "All specifications.", "anchors": ["src/util.c: check_gr1c_form", "src/ptree.c: check_vars"]}
{"id": "C31", "title": "State string reader", "statement": "read_state_str returns the longest prefix of integers (up to max_len) in a whitespace separated string, in order, and reading back a printed state returns it.", "quantifier": "every string and max_len", "why_tests_cant": "All strings.", "anchors": ["src/solve_support.c: read_state_str"]}
{"id": "C32", "title": "Interactive restrict/relax/block/clear edit exactly the intended rules", "statement": "In interaction mode, restrict (x,y) removes exactly that transition, relax adds exactly it, blockenv/blocksys remove exactly the transitions into the given valuation, clear returns to the rules as loaded; other transitions are never affected.", "quantifier": "every command history", "why_tests_cant": "All command sequences.", "anchors": ["src/interactive.c: levelset_interactive"]}
{"id": "C33", "title": "Interactive answers are those of the game", "statement": "In interaction mode, after any command history: winning reports membership in the winning set of the rules as of the last computation of that set; envnext lists exactly the environment moves and sysnexta exactly the system answers allowed by the rules in force (sysnexta also those that leave the winning set, as doc/interaction.md says); sysnext lists only system answers that are legal and winning, namely those into the level below that of the state or else, if there are none, into its own level; getindex prints the number of the first level that contains the state, or Inf. The only command that can fail is sysnext at a state outside of all levels from which no answer leads back.", "quantifier": "every specification, state and command history", "why_tests_cant": "All command sequences and specifications.", "anchors": ["src/interactive.c: levelset_interactive", "doc/interaction.md"]}
{"id": "C34", "title": "Distance bounds are true minima and maxima", "statement": "bounds_state returns the minimum and maximum 1-norm distance over all states of a nonempty set; bounds_DDset returns the least and greatest distance-to-goal-set over all states of a set.", "quantifier": "every set, reference state, list of metric variables and cube order", "why_tests_cant": "All sets and cube orders.", "anchors": ["src/solve_metric.c: bounds_state, bounds_DDset"]}
{"id": "C35", "title": "Tree value extrema", "statement": "min_tree_value/max_tree_value return the least/greatest constant of a tree with at least one constant (none equal to the sentinel -9999).", "quantifier": "every tree", "why_tests_cant": "All trees.", "anchors": ["src/ptree.c: min_tree_value, max_tree_value, rmin_tree_value, rmax_tree_value"]}
{"id": "C36", "title": "Whole-pipeline correctness for integer variables", "statement": "For a specification with integer-domain variables, the verdict computed on the bit-expanded specification equals the truth about the game played directly on the integer-valued states.", "quantifier": "every specification with any number of Boolean and integer variables", "why_tests_cant": "All specifications and all plays.", "anchors": ["src/util.c: expand_nonbool_variables, expand_nonbool_GR1", "src/solve.c: check_realizable"]}
{"id": "C37", "title": "Sublevel sets form a ladder from goal to winning set", "statement": "compute_sublevel_sets returns for each goal an increasing chain of sets starting at the empty set and ending at the winning set, in which every state of level j+1 either satisfies the goal inside the winning set, can force level j, or can stay in its X set while some environment goal is false.", "quantifier": "every specification", "why_tests_cant": "All specifications.", "anchors": ["src/solve_operators.c: compute_sublevel_sets"]}
{"id": "C38", "title": "Reachability-game strategies reach the goal", "statement": "Every maximal run of a strategy produced by the one-shot reachability synthesizer (rg) in which the environment keeps satisfying its goals reaches a goal state, obeying the transition rules on the way.", "quantifier": "every reachability specification and cube order", "why_tests_cant": "All specifications, all infinite runs.", "anchors": ["src/patching_support.c: synthesize_reachgame_BDD, synthesize_reachgame"]}
{"id": "C39", "title": "Copying and printing do not alter trees; sizes add up", "statement": "copy_ptree returns a tree equal to its argument; tree_size of a variable list is its length; check_vars reports a violation iff one exists and names a really offending variable.", "quantifier": "every tree", "why_tests_cant": "All trees.", "anchors": ["src/ptree.c: copy_ptree, tree_size, check_vars"]}
{"id": "C40", "title": "Marking the forward-reachable set", "statement": "forward_modereach changes the mode of exactly the nodes reachable from the start through nodes of the given mode and allowed states, to the magic mode, and terminates when the magic mode differs from the mode.", "quantifier": "every automaton, state set and mode pair", "why_tests_cant": "All graphs.", "anchors": ["src/automaton.c: forward_modereach"]}
{"id": "C41", "title": "Every node of a synthesized strategy is winning", "statement": "Every node of the automaton returned by synthesize, reachable or not, carries a state from which the system can win the GR(1) game.", "quantifier": "every specification, every cube order, every init_flags value, every node", "why_tests_cant": "Winning is a statement about infinite plays; tests can only check that synthesis returned something.", "anchors": ["src/solve.c: synthesize"]}
{"id": "C42", "title": "gr1c prints a correct strategy over the declared integer variables", "statement": "For a specification with Boolean and integer variables, gr1c in synthesis mode ends with a strategy exactly if the specification is realizable, and otherwise reports that it is not. The printed strategy is over the declared variables: each value is within its declared domain, every transition obeys ENVTRANS and SYSTRANS, every allowed environment move is answered, the goals are guaranteed, all required initial states are covered, and every node is reachable in the game.", "quantifier": "every well-formed specification, every order of cube enumeration, the three interpretations of initial conditions", "why_tests_cant": "Correctness of the strategy is a statement about all infinite plays of all specifications; the interplay of expansion, blocking of unused values, synthesis on bits and compaction only fails for particular domains and names.", "anchors": ["src/main.c: main", "src/solve.c: synthesize", "src/automaton.c: aut_compact_nonbool", "src/util.c: expand_nonbool_GR1"]}
{"id": "C43", "title": "A strategy visits only states that plays reach", "statement": "Every node of the automaton returned by synthesize carries a state that some play of the game, started in a state admitted by the interpretation of the initial conditions, reaches by legal moves.", "quantifier": "every specification, every cube order, every init_flags value, every node", "why_tests_cant": "Reachability is an inductive property of all strategies of all specifications.", "anchors": ["src/solve.c: synthesize"]}
{"id": "C44", "title": "Exact behaviour of the automaton loader on lines in any order", "statement": "For a well-formed version 1 file with comments and blank lines anywhere and node lines in any order, aut_aut_loadver either returns the nodes in ID order, each with the fields of the line carrying its ID but with the transitions taken from the line at that position (as many as its own line has), or its behaviour is undefined, and the latter only if an ID is missing or the line at that position has fewer transitions.", "quantifier": "every well-formed file", "why_tests_cant": "All files, all permutations.", "anchors": ["src/automaton_io.c: aut_aut_loadver"]}
{"id": "C45", "title": "The parser accepts exactly the documented syntax and always ends", "statement": "The parser accepts a sequence of symbols as a formula iff the grammar derives it, and then returns the one tree given by binding strength ('!' before '&' and '|' on one level, before '->', before '<->', all grouping to the left). A text that does not begin with a formula is accepted iff its symbols spell sections without duplicate declarations or duplicate initial conditions, and the tables filled are those of the specification the sections add up to, which is unique. Parsing ends on every text.", "quantifier": "every text, every sequence of symbols", "why_tests_cant": "All texts and all formulas, of any size; ambiguity must be resolved the same way everywhere.", "anchors": ["src/gr1c_parse.y", "src/gr1c_scan.l", "doc/spc_format.md"]}
{"id": "C46", "title": "Every specification can be written down and is read back", "statement": "For every specification whose names are identifiers and whose formulas can be printed (C23), the file made of its declarations and of its formulas as print_formula writes them is parsed into exactly that specification.", "quantifier": "every specification, every list of sections", "why_tests_cant": "All specifications.", "anchors": ["src/gr1c_parse.y", "src/gr1c_scan.l", "src/ptree.c: print_formula"]}
{"id": "C47", "title": "gr1c answers right from the text of the specification", "statement": "Run on a text, gr1c reports a syntax error if the text is no specification file, a form error if variables are used where the chosen interpretation of initial conditions forbids it, and otherwise the right verdict or a strategy that is right for the specification the text means.", "quantifier": "every text, every mode, every interpretation of initial conditions", "why_tests_cant": "All texts; the answer quantifies over all plays.", "anchors": ["src/main.c: main", "src/gr1c_parse.y", "src/gr1c_util.c: check_gr1c_form"]}
{"id": "C48", "title": "Following sysnext reaches the goal", "statement": "In interaction mode with up-to-date level sets and at most one environment goal, a play that starts in the winning set and in which the system always picks one of the answers listed by sysnext for goal i stays in the winning set and reaches goal i, provided the environment moves legally and meets its goal infinitely often; until then sysnext never lists nothing. (With two or more environment goals this is false.)", "quantifier": "every specification with at most one environment goal, every command history, every infinite play", "why_tests_cant": "Liveness over infinite plays, all specifications.", "anchors": ["src/interactive.c: levelset_interactive", "src/solve.c: compute_sublevel_sets", "doc/interaction.md"]}
{"id": "C49", "title": "The scanner splits a text exactly as its rules say; layout does not matter", "statement": "For every text the scanner returns the tokens obtained by repeatedly taking, among the regular expressions of gr1c_scan.l (those marked ^ only at the beginning of a line), the longest match and on ties the earliest rule; this token sequence exists and is unique. Any sequence of correctly written tokens separated by arbitrary spaces, tabs, carriage returns, line ends and comments (nothing at all where two neighbours cannot run into each other) is read as exactly these tokens and hence parsed alike, provided section words stand first on their line and '&' is not split from '[]' by layout.", "quantifier": "every text; every token sequence with every layout", "why_tests_cant": "All texts and all layouts: infinitely many, and matches of unbounded length.", "anchors": ["src/gr1c_scan.l"]}
{"id": "C50", "title": "The JSON output is valid JSON and loses nothing", "statement": "json_aut_dump writes, for every automaton over variables with plain names, a text that conforms to the JSON grammar; its value is the object with the declared variables and domains and with one member per node (state, mode, rgrad, initial, transitions as keys of nodes). A text is JSON in at most one way, so every JSON reader gets this value; two automata with equal output are equal, names and domains included. Keys of different nodes differ and every transition names the key of a node.", "quantifier": "every automaton, every list of variables, every time stamp without quotation marks, backslashes and control characters", "why_tests_cant": "All automata of any size; commas and brackets go wrong at the edges (no nodes, no variables, no transitions).", "anchors": ["src/automaton_io.c: json_aut_dump", "doc/formats.md"]}
{"id": "C51", "title": "The plain list has one line per node and loses nothing", "statement": "list_aut_dump writes, for every automaton whose states have the given length and whose transitions lead to its nodes, exactly one line per node in the documented layout: position, (init) if initial, values, mode, rgrad, positions of the successors. Two automata with the same output are the same up to the addresses of nodes.", "quantifier": "every automaton, every number of variables (also none)", "why_tests_cant": "All automata; field widths and separators could make two automata print alike.", "anchors": ["src/automaton_io.c: list_aut_dump", "doc/formats.md"]}
{"id": "C52", "title": "The DOT output is the graph of the strategy", "statement": "dot_aut_dump writes the DOT graph with one node per node of the strategy (identifiers differ), one edge per transition between these identifiers, and one edge from the empty node to each initial node; with the flags the program uses, automata with equal output are the same up to addresses. If the quoted identifier of a node has 4096 characters or more, it returns -1 and the text stops before that node. (The program ignores this: refuted that its output is always a graph.)", "quantifier": "every automaton, every list of variables, every combination of flags", "why_tests_cant": "The identifier of a node is built twice by different code (buffered as a source, printed as a target); they must agree for all states.", "anchors": ["src/automaton_io.c: dot_aut_dump", "src/main.c:655-671"]}
{"id": "C53", "title": "The TuLiP output is well-formed XML that describes the strategy", "statement": "tulip_aut_dump writes a well-formed XML document; its element lists the variables with domains and, per node, position, mode and rgrad (if neither is -1), positions of successors and the value of each variable by name. A text is XML in at most one way; equal outputs have equal variables, domains, states, transitions and annotations. (Initial nodes are lost; so are modes of nodes without rank: refuted that all is kept.)", "quantifier": "every automaton, every list of variables with identifiers as names", "why_tests_cant": "All automata of any size; an XML reader must get the same element whatever the names.", "anchors": ["src/automaton_io.c: tulip_aut_dump", "doc/formats.md"]}
{"id": "C55", "title": "The command line is read as documented", "statement": "For arguments that write down options and at most one input file, main continues with the settings of the last option of each kind (mode, output format, interpretation of initial conditions, output file), defaults otherwise; it prints the usage message if help is asked for, refuses interactive mode without a file and -P without -o, prints the version whatever follows, and hands rg/patch/autman to another program with the remaining arguments. Every other list of arguments is rejected with exit code 1. No undefined behaviour, unless an argument is a lone dash (read outside of the argument: finding) or has bytes above 127.", "quantifier": "every list of arguments", "why_tests_cant": "All lists of arguments of any length; the rejection of everything else.", "anchors": ["src/main.c:93-311"]}
{"id": "C54", "title": "A run of gr1c does what its command line asks", "statement": "For every command line that gives options and an input file (or none) and asks to synthesize: if the input is the text of a usable specification, a run that ends either finds that the specification is not realizable under the chosen interpretation of initial conditions, prints nothing and exits with 3; or the specification is realizable and the description of a correct strategy in the chosen format (JSON, plain list, AUT, TuLiP XML, or DOT if no identifier is too long) is on stdout or in the file given with -o, exit code 0, or it exits with an error; when there is a state to start with, it ends and the only possible error is that the output file cannot be opened. With -r it prints the verdict and exits 0 or 3. With -s it exits with 0. Texts that are not specifications, or not in the required form, give exit code 2 in all modes; an input file that cannot be read gives -1; other command lines stop with the message C55 says.", "quantifier": "every command line, file system, text, specification, cube generator and allocator", "why_tests_cant": "It is about all specifications and all files; composition of all stages.", "anchors": ["src/main.c: main"]}
{"id": "C56", "title": "A system goal can be removed from a strategy", "statement": "rm_sysgoal reads a strategy from a file, deletes the nodes that seek goal i or the goal after it and replaces them by a strategy for a reachability game. If the goals are sought in order and goal i is never skipped (for a strategy of synthesize: goal i and the goal before it never hold at the same time), then whatever it returns, unless NULL, is a strategy for the specification without goal i: addresses are distinct, transitions are closed and obey ENVTRANS and SYSTRANS, each legal move is answered, and along every infinite path with all environment goals infinitely often every remaining system goal holds infinitely often. The nodes that seek other goals stay, with state, mode, annotation and initial mark; no other state becomes initial. Indices out of range and specifications with fewer than three goals give NULL. Findings: if goals can be reached at the same time the result can leave a legal move unanswered; the array Exit can overflow; freeing a node without transitions that was read from a file reads an uninitialised pointer.", "quantifier": "every Boolean specification with three or more system goals, every strategy for it with at most 2^31 nodes and lines below 4095 characters, every goal, every fuel", "why_tests_cant": "All strategies and infinite paths; the counterexamples need particular shapes of the strategy.", "anchors": ["src/patching_hotswap.c:562-912", "src/patching_support.c", "src/automaton_io.c", "include/patching.h:75-95"]}
{"id": "C57", "title": "When removing a system goal succeeds", "statement": "rm_sysgoal, given a strategy for the specification in which the next goal is sought exactly when the present one holds, terminates without undefined behaviour if the environment can always move, the two goals after goal i never hold at the same time, and the nodes that seek other goals than i and the next and follow nodes that seek one of these two are not more than the latter. The result is NULL exactly if goal i never becomes the one sought along a transition. If there are more such following nodes, the array Exit overflows on every run. For strategies of synthesize, if in addition goal i and the goal before it never hold at the same time and goal i is taken up, the patch succeeds and its result is a strategy for the specification without the goal.", "quantifier": "every Boolean specification with three or more system goals, every strategy for it with at most 2^31 nodes and lines below 4095 characters, every goal", "why_tests_cant": "That the reachability game between entries and exits is won from every strategy cannot be enumerated.", "anchors": ["src/patching_hotswap.c:562-912", "src/solve_support.c", "src/automaton.c"]}
{"id": "C58", "title": "The verification model for Spin", "statement": "spin_aut_dump writes a Promela model and an LTL formula such that the model satisfies the formula if every infinite path of the strategy from an initial node satisfies the specification and every node answers every environment move that ENVTRANS allows; conversely, if the model satisfies the formula, every such path satisfies the specification. Strategies for the specification whose initial nodes satisfy SYSINIT therefore pass. gr1c -P writes, for the strategy it synthesizes, a model that passes. Without environment variables the formula leaves out what is assumed of the environment, and the right strategy found by gr1c need not pass.", "quantifier": "every well-typed specification (Boolean and integer variables) with names that Promela accepts and that do not clash with those of the model, every strategy, all interpretations of initial conditions, every infinite run of the model", "why_tests_cant": "Spin checks one written model by exhaustive search; that all models written are right about their strategies is a statement over all strategies and all infinite runs.", "anchors": ["src/automaton_io.c:869-1178", "src/main.c:361-388", "src/main.c:482-508", "src/main.c:675-684"]}
{"id": "C59", "title": "gr1c-autman reads, checks, converts and exports strategy files", "statement": "For a strategy file with nodes 0, 1, 2, ... gr1c-autman -t TYPE writes the same nodes in the format asked for, -s prints the version of the file, and -P writes a Promela model and LTL formula that hold together just if the strategy is right in the sense of C58; the text goes to the file of -o, else to stdout, and the last of several options of one kind counts. Files that gr1c -t aut writes are such files. Missing options, specifications, strategy files and files without nodes end with the error codes 1, -1 or 2, -1 and 3. Every command line is of one of these kinds. Contrary to the usage message, -s never prints -1, and a FILE of a single dash reads past the end of an argument.", "quantifier": "all command lines, all contents of files and stdin, all specifications and strategies", "why_tests_cant": "A test runs one command line on one file; that every strategy file is carried over unchanged into every format is a statement over all files and option orders.", "anchors": ["aux/autman.c:47-324", "src/automaton_io.c:36-228", "src/automaton_io.c:869-1178"]}
{"id": "C60", "title": "A system goal can be added to a strategy", "statement": "add_metric_sysgoal reads a strategy from a file and inserts a new goal after the goal i of least distance to it (the last goal if no metric variables are given), replacing the nodes where goal i and the goal after it are passed by strategies for two reachability games. If goals are sought in order, the strategy does not seek one goal for ever, and neither goal i nor the new goal can hold together with the goal after i, then whatever it returns, unless NULL, is a strategy for the specification with the new goal at number i + 1: addresses are distinct, transitions are closed and obey ENVTRANS and SYSTRANS, each legal move is answered, and along every infinite path with all environment goals infinitely often every system goal, old or new, holds infinitely often. Its initial states are initial states of the old strategy, and initial nodes that are not entered by passing the goal after i stay initial. If the environment can always move, the modes of the result are numbers of its goals, sought in order, except that nodes seeking the goal after the new one may lead to nodes seeking the new one. Nothing is returned if the new goal already holds at a node where goal i is passed, if no transition passes goal i, and hence never for a single system goal. Findings: freed nodes are read if a node passing goal i is followed by one passing the next goal, or if the new goal holds at such a node; if the new goal can hold together with the one after it, the result can have nodes without transitions; initial marks of nodes entered by passing the goal after i are lost, so that the result may have no initial node at all.", "quantifier": "every Boolean specification with two or more system goals (or one), every strategy for it with at most 2^31 nodes and lines below 4095 characters, every new goal, every list of metric variables, every fuel of at least 2^n", "why_tests_cant": "All strategies, goals and infinite paths; the repository has no test that checks the result of -f against the specification, and on most small specifications freed memory is read without a visible effect.", "anchors": ["src/patching_hotswap.c:37-560", "include/patching.h:97-121", "src/automaton.c:427-485"]}
{"id": "C61", "title": "A strategy can be patched after changes of the rules", "statement": "patch_localfixpoint reads a strategy and a change file: a list N of states and commands restrict and relax (of the environment or of the system) and blocksys that edit ENVTRANS and SYSTRANS. For each goal sought by a node that a command makes unfit (a transition is taken away, or a move of the environment is not answered) it replaces the nodes of N seeking that goal by a strategy for a reachability game played inside of N. Whatever is returned, unless NULL, is a strategy for the edited rules: addresses are distinct, transitions are closed and obey the edited SYSTRANS, every move the edited ENVTRANS allows is answered, along every infinite path with all environment goals infinitely often every system goal holds infinitely often, and the goals are sought in order; initial nodes are initial nodes of the old strategy, and those outside of N or seeking another goal stay initial. This holds for the strategies of gr1c if no system goal holds in a state of N, and for every strategy with distinct (state, mode) pairs whose reach annotations do not grow while the same goal is sought and whose affected nodes of N are entered from outside of N with the same mode. If an unfit node lies outside of N, NULL is returned; if no node is unfit, the strategy is returned unchanged up to addresses. Findings: if a goal holds in a state of N, the result can contain forbidden transitions or leave moves unanswered; initial nodes in N are lost; enlarging N can make patching fail; blocksys with too few arguments after another command makes the program free memory twice.", "quantifier": "every Boolean specification, every strategy with at most 2^31 nodes and lines below 4095 characters, every list N of states, every list of changes under which the environment can move, every change file with comments and lines below 1024 characters, every fuel", "why_tests_cant": "All strategies, neighbourhoods, change lists and infinite paths; the tests of the repository compare a few patched strategies with stored files and check neither the rules nor liveness, so the unsound cases pass unnoticed.", "anchors": ["src/patching.c:69-348", "src/patching.c:352-1069", "include/patching.h:16-60", "doc/formats.md:125-146"]}
{"id": "C62", "title": "gr1c-rg solves reachability games from the command line", "statement": "gr1c-rg takes options and files in any order; the first file (else stdin) is the input, further ones are ignored. Given a text in the format of gr1c, except that the goal of the system is written SYSGOAL: <> f; with at most one such goal, over Boolean and integer variables, the program either exits with -1 and prints nothing, or writes to stdout or to the file of -o, in the format of -t, a description of a nonempty strategy automaton over the declared variables, and exits with 0. The strategy has a node for every initial state, keeps ENVTRANS and SYSTRANS, answers every allowed move of the environment by one transition, ends only in the goal or where the environment cannot move, and no infinite path satisfies all environment goals infinitely often; this is possible from every initial state. If there are environment variables or no ENVTRANS, the run ends, and -1 means that the game cannot be won from some initial state (or there is none), or that the output file cannot be opened. Text that is not a specification in this format (such as one with SYSGOAL: []<> f;), two system goals, or formulas on the wrong variables give 2; -s stops after these checks with 0; a missing input file gives -1; help and version exit with 0; every other command line exits with 1. Findings: the exit code is never 3, though the code says that 3 stands for not realizable, so that an unwinnable game looks like an internal error; all input files but the first are ignored silently; a lone dash reads beyond the argument.", "quantifier": "every command line, every file content, every specification with a well-typed text, every cube enumeration, allocator, node key, date and every fuel", "why_tests_cant": "All specifications and strategies, and infinite paths; the repository has few tests of gr1c-rg, with stored outputs.", "anchors": ["src/rg_main.c:56-633", "src/rg_parse.y:64-333", "src/patching_support.c:19-540", "doc/gr1c.1"]}
{"id": "C63", "title": "gr1c-patch changes strategies from the command line", "statement": "gr1c-patch takes options and files in any order; the first file (else stdin) is the specification, the file of -a (stdin if its name begins with a dash) the strategy, as gr1c -t aut writes it. -e goes before -f and -f before -r; -e with -f, any of them without -a, or none of them is refused with 1, help and version exit with 0. Given a specification over Boolean and integer variables with at least three goals and a correct strategy in which the goals are sought in order and goal i is not skipped, a run with -r i that ends either exits with -1 and writes nothing, or exits with 0 and has written, in the format of -t, to stdout or the file of -o, a strategy that is correct for the specification without goal i and keeps the unaffected nodes. Under further conditions it ends, and -1 means that the goal is never taken up or the file cannot be opened. A number that is too big gives 1, fewer than three goals give -1. With -f the strategy written is correct for the specification with the new goal behind the nearest of the old ones (by the values of the variables of -m, if the domains are powers of two; behind the last one without -m), if neither this one nor the new one can hold together with the next. With -e, for Boolean variables, it serves the changed rules (as C61), an affected node outside of the neighbourhood gives -1, and without affected nodes the strategy is written as it was. Missing files give -1, bad specifications 2, formulas with unknown or primed variables 1; with an error nothing is written. Strategies that gr1c writes meet the conditions if goals that follow each other cannot hold together. Findings: a syntax error in the formula of -f is ignored and the part parsed so far is used; -r with a text that is not a number removes goal 0, and so does -r 4294967296; any name beginning with a dash means stdin.", "quantifier": "every command line, every file content, every specification with a well-typed text, every strategy file, every change file, every cube enumeration, allocator, node key, date, every rest of a broken formula and every large fuel", "why_tests_cant": "All specifications, strategies and infinite paths; the repository tests gr1c-patch with a few stored outputs.", "anchors": ["exp/grpatch.c:50-731", "src/patching.c", "src/patching_hotswap.c", "src/patching_support.c", "include/patching.h:16-121"]}
{"id": "C64", "title": "Receding horizon simulation: the plays sim_rhc produces", "statement": "sim_rhc simulates the play of a game from a winning state: in each step the environment draws one of its legal moves by rand(), the system looks at the states it can reach in fewer than `horizon` further steps inside of the winning set, heads for the one nearest (in the variables named) to the winning states of the goal it seeks, and takes the first step towards it; goals are sought in turn. If the environment can move in every winning state the result is a path of num_it steps, numbered by the mode of its nodes, that stays in the winning set. Exactly: the candidates of a step are the states that have come closer (fewer steps after the answer) than in all steps before and that have not been the aim from the same state since a goal was last reached; the aim is a nearest candidate, the next state is a legal answer from which the aim is reached in fewer than `horizon` steps; without candidates the state stays as it is. With horizon 1 the next state is a nearest of the answers that have never been possible before. So the state changes at most horizon * 2^n times, however long the play. A horizon below 1 or unknown names give NULL; where the environment has no move a remainder by zero is computed. Findings: as the lists hstacks are never emptied, the play comes to a stop: it makes steps SYSTRANS forbids (a counter modulo 4, with the horizon compute_horizon gives, stops after one round), and goals are not reached again even where the system may go anywhere.", "quantifier": "every well-scoped Boolean specification with goals, every winning state, every text of names, horizon, number of steps, sequence of rand(), cube enumeration and allocator", "why_tests_cant": "All specifications, all sequences of random numbers and plays of any length; the repository has no test of sim.c.", "anchors": ["src/sim.c:23-417", "include/sim.h", "exp/grjit.c:492-526"]}
{"id": "C65", "title": "A session of gr1c -i prints what the typed lines ask for", "statement": "For every command line with -i and a file that contains a usable specification with Boolean variables, and every input made of lines that are commands about the game (winning, envnext, sysnext, sysnexta, restrict, relax, clear, blockenv, blocksys, getindex, refresh), questions about the specification (help, var, envvar, sysvar, numgoals, printgoal, printegoals), the switches for reordering, or no command at all, and that ends there or with a line beginning with quit: the run exits with 0 and prints, after a prompt for each line, the answer of the game under the rules as edited so far (C32, C33), the variables with their places in a state, the number of goals, a text that can only be read as the goal asked for, or that the line is not recognized, which changes nothing. Only if sysnext is asked at a state outside of all sublevel sets with nothing to list is memory read that is out of bounds. Specifications with integer variables are refused with -1 before anything is read or printed. Finding: addvar, in the documentation and in the list help prints, is not a command.", "quantifier": "every command line, file system, specification text, number of lines and content of them (each below 256 bytes), cube enumeration", "why_tests_cant": "Sessions of any length over all specifications; the composition of option reading, parser, form check, preparation, command reader, solver and printers.", "anchors": ["src/main.c:335-640", "src/interactive.c:30-1010", "doc/interaction.md"]}
{"id": "C66", "title": "A run of gr1c -P delivers a strategy and a model that passes", "statement": "For every command line that asks for synthesis with -P and -o FILE: if the input is the text of a usable specification whose names are usable in Promela, a run that ends either finds that the specification is not realizable, prints nothing and exits with 3; or the description of a correct strategy in the chosen format is in FILE, and stdout has nothing but a Promela model of the same strategy with an LTL formula that every run of the model satisfies, exit code 0; or it exits with an error. When there is a state to start with it ends, and the only possible error is that FILE cannot be opened, in which case nothing is printed. In the other modes -P and -o change nothing.", "quantifier": "every command line, file system, text, specification, cube generator and allocator", "why_tests_cant": "It is about all specifications and all runs of the model; composition of all stages.", "anchors": ["src/main.c:77-330", "src/main.c:335-738", "src/automaton_io.c: spin_aut_dump"]}
{"id": "C67", "title": "gr1c -p echoes the specification and changes nothing else", "statement": "For every command line with -p in a mode other than -s and an accepted text: a run with -p exits with the same code and leaves the same output file as the run with the same options without -p, and one ends if and only if the other does; on stdout there come first the environment and then the system variables, numbered through, each with its domain, and then eight labelled lines. If the section words of a specification file are put in place of the labels, these lines are the text of the specification read (with True for the parts that are True if left out) but for the domains of the variables, for formulas that can be written at all (C23). With -s, and for a text that is not accepted, nothing more is written than without -p. Finding: the eight lines as printed cannot be read by gr1c, the labels having blanks.", "quantifier": "every command line, file system, specification text, cube enumeration, allocator", "why_tests_cant": "All specifications and formulas, all command lines; a comparison of two runs.", "anchors": ["src/main.c:335-481", "src/util.c:442-548"]}
{"id": "C68", "title": "The DOT files of gr1c -p show the parse trees", "statement": "For every command line with -p in a mode other than -s and an accepted text, if the files can be written: there is a file for the initial condition of each side, one for each transition rule and one for each goal, under names that are all different, each with a DOT graph of exactly the parse tree of its formula: one node for each subformula (and each variable and number of a comparison), named by its address and labelled with its operator, variable or constant, different names for different nodes, and one edge for each child; no statement twice; an empty graph for a condition left out. At the first file that cannot be written the program exits with -1, the files before it are complete, and nothing is printed or synthesized.", "quantifier": "every command line, file system, specification text, and all addresses of nodes that differ within a tree", "why_tests_cant": "Trees of any shape and depth; all command lines.", "anchors": ["src/main.c:391-419", "src/ptree.c:530-612", "src/ptree.c:757-804"]}
{"id": "C69", "title": "gr1c-rg -p echoes conditions and goals, draws all formulas and changes nothing else", "statement": "For every command line of gr1c-rg with -p and without -s, and an accepted text with at most one goal: the run exits with the same code and leaves the same output file as without -p, and one ends if and only if the other does. On stdout come first the variables, numbered through, with their domains, and then six labelled lines, of which those for the initial conditions and the goals can be read back as these conditions and goals. If the DOT files can be written, there is one for each formula, transition rules included, under names that are all different, with exactly the parse tree of the formula (as C68); at the first that cannot be written the program exits with -1 and prints nothing. With -s, and for a text that is not accepted, nothing more is written. Finding: the lines for the transition rules are empty whatever the rules are, since spc.env_trans and spc.sys_trans are printed before they are set.", "quantifier": "every command line, file system, specification text, cube enumeration, allocator, and all addresses of nodes that differ within a tree", "why_tests_cant": "All specifications, formulas and command lines; a comparison of two runs.", "anchors": ["src/rg_main.c:224-422", "src/ptree.c:530-612", "src/ptree.c:757-804", "include/common.h:57-73"]}
{"id": "C70", "title": "gr1c-patch -p echoes the specification, draws all formulas and, if file names do not collide, changes nothing else", "statement": "For every command line of gr1c-patch with -p, an accepted specification and a -f formula (if any) over its variables: the run exits with the same code and leaves the same output file as without -p. On stdout come first the variables, numbered through, then eight labelled lines that can be read back as the specification, then what is printed without -p. If the DOT files can be written, there is one for the formula of -f, written before anything else is read, and one for each formula of the specification, under names that are all different, with exactly the parse tree of the formula (as C68); at the first that cannot be written the program exits with -1 and prints nothing. If there is no specification, or it or the formula is refused, only the formula of -f is drawn and the exit code is the same. This needs that no file that is read has the name of a DOT file: otherwise it is overwritten first. Finding: the domains shown are wrong: Boolean variables are shown as {0..-1}, and variables with domain [0,0] as bool.", "quantifier": "every command line, file system, specification text, -f formula, cube enumeration, allocator, and all addresses of nodes that differ within a tree", "why_tests_cant": "All specifications, formulas and command lines; a comparison of two runs.", "anchors": ["exp/grpatch.c:280-320", "exp/grpatch.c:349-492", "src/util.c:442-548", "src/ptree.c:757-804"]}
{"id": "C71", "title": "The log gets exactly the texts that are logged, at the place the log is at, with their arguments and times", "statement": "For every sequence of calls of the functions of logging.h (setlogstream, setlogopt, openlogfile, closelogfile, logprint, logprint_startline, logprint_raw, logprint_endline, and a text for another stream as print_GR1_spec and print_support write it) from the start of a program: it runs without undefined behaviour and without exit if and only if it is a history of an abstract log, which is nowhere, on stdout, in a named file or closed, and marks lines with the time or not; then stdout, stderr and each log file have exactly the texts of that history, in order. A text is the format with %d, %f and %s replaced by the arguments and %c by c for any other character. The program exits (with -1) exactly if a log file whose name has at most 255 characters cannot be opened; a longer name is an error message and changes nothing. Findings: after closelogfile the closed stream stays the log, so that writing to it or opening the next log file is undefined until setlogstream is called; a percent sign at the end of a format reads behind the end; print_GR1_spec and print_support to another stream without a log before leave stdout as the log.", "quantifier": "every finite sequence of calls, all formats, arguments, prefixes, times, process numbers, and sets of files that can be opened", "why_tests_cant": "All sequences of calls; the log is global state that carries over from call to call.", "anchors": ["src/logging.c:19-214", "include/logging.h:18-63", "src/util.c:455-460", "src/util.c:543-547"]}
{"id": "C72", "title": "print_support lists the states of a set, each exactly once, on readable lines", "statement": "For every set of states X (a BDD about the first state_len variables) and every decomposition into cubes that the library may give: print_support ends, and writes to outf, or with outf NULL to the log, exactly one line for each state of X and no other, with the bits in groups of four separated by blanks, and with the time in front if the log shows times and outf is NULL. A line belongs to one state only. Nothing is written elsewhere, and the log stream (if there was one) and its options are afterwards as before. Findings: with outf NULL and no log, fputc to NULL unless X is empty; if X is about more variables, a state can be listed more than once.", "quantifier": "every BDD over any number of variables, every cube decomposition, every state of the log", "why_tests_cant": "All sets and all cube decompositions of any size.", "anchors": ["src/util.c:745-798", "include/gr1c_util.h:115-119", "src/solve_support.c:64-99", "src/logging.c:26-45", "src/logging.c:152-214"]}
{"id": "C73", "title": "pprint_state names exactly the variables that are not 0", "statement": "For all variables and states: pprint_state writes the names of the variables that are not 0 in the state, in order, each after a blank, or (nil) if there are none; with num_sys = -1 those of the environment only; with num_env = -1 those of the system only, taken from a state that includes the environment. If names have no blanks and differ, the text determines the state. The edges that restrict and relax log with -v are the two states in this form. Findings: blocksys with -v passes the part of the system only but with num_env = -1, so that with environment variables it reads behind the end of the array; with integer variables, the second state of an edge is logged without the variables of the system, as the count of numbers read is compared with counts of bits.", "quantifier": "all variable lists, states and counts of numbers read", "why_tests_cant": "All states over any number of variables; the out-of-bounds read need not be noticed when it happens.", "anchors": ["src/patching.c:24-66", "src/patching.c:766-788", "src/patching.c:909-946"]}
{"id": "C74", "title": "-v and -l add the log to a run of gr1c and change nothing else", "statement": "For every command line of gr1c with -v once, or -l, or both (without -p, -i and -P): the run ends if and only if the run without these options ends, with the same exit code and the same output file. Without -l the log is on stdout, one line for each message and without the time: first the messages, then the strategy if it goes to stdout; with -r the verdict is there once. With -l stdout is as without, and the log file named after the process and the day has the messages, each with its time; nothing is written elsewhere. The messages are those of the stages reached, in order, and agree with the exit code. The number of nodes that is logged is that of the strategy that is written. If the log file cannot be opened the exit code is -1 and nothing else happens.", "quantifier": "all command lines, texts, worlds, clocks and process ids", "why_tests_cant": "All specifications and all combinations of options; tests look at few of them and do not compare runs with and without a log.", "anchors": ["src/main.c:313-345", "src/main.c:592-619", "src/main.c:641-653", "src/main.c:725-738"]}
{"id": "C75", "title": "-v and -l add the log to a run of gr1c-autman and change nothing else", "statement": "For every command line of gr1c-autman that is not refused and has neither -h nor -V, with any number of -v and -vv and with or without -l: the run ends if and only if the run without these options ends, with the same exit code and the same output file. The log is on stdout before the output, without the time, or with -l in the log file named after the process and the day, each message with its time; stdout is otherwise the same and nothing is written elsewhere. The level of verbosity is the number of v given, modulo 256, and -l makes 0 to 1. The messages are those of the stages reached whose level is not above it: missing reference specification, reference that is no specification, missing strategy, no automaton in it, automaton read. The state length, format version and number of nodes that are logged are those of the files. If the log file cannot be opened the exit code is -1 and nothing else happens.", "quantifier": "all command lines, files, levels of verbosity, clocks and process ids", "why_tests_cant": "All combinations of options, levels and files; tests run few of them and do not compare runs with and without a log.", "anchors": ["aux/autman.c:204-240", "aux/autman.c:242-272"]}
