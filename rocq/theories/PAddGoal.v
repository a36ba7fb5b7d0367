(** C60: adding a system goal to a strategy (gr1c-patch -f). Theorems only; proofs are in
    AddLoad.v and AddExamples.v.

    Reading guide. [correct F A]: the automaton [A] is a strategy for the specification [F];
    [apart F i j]: no state satisfies both goals [i] and [j]; [after F i] is the goal after
    [i] (HotSpec.v). [with_goal i g F] is [F] with [g] inserted as system goal number [i];
    [place fs F g i]: [i] is the number of the goal of least distance to [g], measured along
    the variables [fs], or of the last goal if none are given; [comes_after F i A y]: a
    transition of [A] to [y] passes goal [i]; [starts] says which initial nodes are kept;
    [moved i j] is the new number of goal [j]; [in_order_but F a b A]: the modes of [A] are
    goals of [F] sought in order, except for transitions from mode [a] to mode [b]
    (AddSpec.v). [env_moves F]: the environment can always move. The strategy is read from the file [text] that aut_aut_dump writes. The
    result [[]] is NULL ("Failed to patch strategy"). *)
From Coq Require Import List ZArith Bool Arith String.
From Verif Require Import Base Game Bdd Support EnumProofs Strs Ptree Form Solve FSpec Automaton AutProofs Synth SynthSpec Reach AutIO AutIOSpec
  Nonbool Metric MetricSpec Hotswap HotSpec HotLoad HotSynth AddGoal AddSpec AddLoad AddExamples.
Import ListNotations.
Open Scope nat_scope.

(** what is returned is a strategy for the specification with the new goal, if neither the
    old goal at that place nor the new goal can hold together with the goal after it *)
Theorem C60_sound : forall F, well_scoped F -> all_boolean F -> 2 <= List.length (fs_sgoals F) ->
  forall g, boolean g = true -> state_form F g ->
  forall orc alloc, tools_ok F orc alloc ->
  forall fs, fields_in (List.length (fs_evars F) + List.length (fs_svars F)) fs ->
  forall n A text fuel B, correct F A -> in_order F A -> proceeds F A ->
  writable n A -> aut_aut_dump A n = Ok text -> short_lines text ->
  2 ^ (List.length (fs_evars F) + List.length (fs_svars F)) <= fuel ->
  add_metric_sysgoal (spec_of F) NULL orc alloc fuel n text fs (tree_of g) = Ok B -> B <> [] ->
  exists i, place fs F g i /\
    (apart F i (after F i) -> new_apart F g (after F i) -> correct (with_goal (S i) g F) B /\ starts F (after F i) A B /\
      (env_moves F -> in_order_but (with_goal (S i) g F) (moved i (after F i)) (S i) B)).
Proof. exact add_sound. Qed.
Print Assumptions C60_sound.
(** in particular for the strategies of gr1c *)
Theorem C60_synthesized : forall F, well_scoped F -> all_boolean F -> 2 <= List.length (fs_sgoals F) ->
  forall g, boolean g = true -> state_form F g ->
  forall orc alloc, tools_ok F orc alloc ->
  forall fs, fields_in (List.length (fs_evars F) + List.length (fs_svars F)) fs ->
  forall fuel' flags n A text fuel B, synthesize (spec_of F) orc alloc fuel' flags = Ok A ->
  writable n A -> aut_aut_dump A n = Ok text -> short_lines text ->
  2 ^ (List.length (fs_evars F) + List.length (fs_svars F)) <= fuel ->
  add_metric_sysgoal (spec_of F) NULL orc alloc fuel n text fs (tree_of g) = Ok B -> B <> [] ->
  exists i, place fs F g i /\
    (apart F i (after F i) -> new_apart F g (after F i) -> correct (with_goal (S i) g F) B /\ starts F (after F i) A B /\
      (env_moves F -> in_order_but (with_goal (S i) g F) (moved i (after F i)) (S i) B)).
Proof. exact add_made. Qed.
Print Assumptions C60_synthesized.
(** the place of the new goal is determined *)
Theorem C60_place : forall fs F g i j, place fs F g i -> place fs F g j -> i = j.
Proof. exact place_fun. Qed.
Print Assumptions C60_place.
(** nothing is returned if the new goal already holds where the goal before it is passed *)
Theorem C60_not_reached : forall F g orc alloc fs n A text fuel B, well_scoped F -> all_boolean F -> boolean g = true -> state_form F g ->
  tools_ok F orc alloc -> fields_in (List.length (fs_evars F) + List.length (fs_svars F)) fs -> correct F A ->
  writable n A -> aut_aut_dump A n = Ok text -> short_lines text ->
  2 ^ (List.length (fs_evars F) + List.length (fs_svars F)) <= fuel ->
  add_metric_sysgoal (spec_of F) NULL orc alloc fuel n text fs (tree_of g) = Ok B ->
  2 <= List.length (fs_sgoals F) -> B <> [] ->
  exists i, place fs F g i /\ forall y, In y A -> comes_after F i A y -> holds F g (astate y) = false.
Proof. exact add_entry. Qed.
Print Assumptions C60_not_reached.
(** nothing is returned if no transition passes the goal *)
Theorem C60_not_passed : forall F g orc alloc fs n A text fuel B, well_scoped F -> all_boolean F -> boolean g = true -> state_form F g ->
  tools_ok F orc alloc -> fields_in (List.length (fs_evars F) + List.length (fs_svars F)) fs -> correct F A ->
  writable n A -> aut_aut_dump A n = Ok text -> short_lines text ->
  2 ^ (List.length (fs_evars F) + List.length (fs_svars F)) <= fuel ->
  add_metric_sysgoal (spec_of F) NULL orc alloc fuel n text fs (tree_of g) = Ok B ->
  (forall x, In x A -> (0 <= amode x < Z.of_nat (List.length (fs_sgoals F)))%Z) ->
  (forall i y, place fs F g i -> In y A -> ~ comes_after F i A y) -> B = [].
Proof. exact add_untaken. Qed.
Print Assumptions C60_not_passed.
(** so a strategy for a single goal cannot be patched *)
Theorem C60_single : forall F, well_scoped F -> all_boolean F -> List.length (fs_sgoals F) = 1 ->
  forall g, boolean g = true -> state_form F g ->
  forall orc alloc, tools_ok F orc alloc ->
  forall fs, fields_in (List.length (fs_evars F) + List.length (fs_svars F)) fs ->
  forall fuel' flags n A text fuel B, synthesize (spec_of F) orc alloc fuel' flags = Ok A ->
  writable n A -> aut_aut_dump A n = Ok text -> short_lines text ->
  2 ^ (List.length (fs_evars F) + List.length (fs_svars F)) <= fuel ->
  add_metric_sysgoal (spec_of F) NULL orc alloc fuel n text fs (tree_of g) = Ok B -> B = [].
Proof. exact add_single. Qed.
Print Assumptions C60_single.
(** the hypotheses are not enough for an answer: if a node where the goal before is passed
    is followed by one where the goal after is passed, freed memory is read *)
Theorem C60_dangling_refuted : exists F orc alloc fs g fuel A text,
  well_scoped F /\ all_boolean F /\ 2 <= List.length (fs_sgoals F) /\ boolean g = true /\ state_form F g /\
  tools_ok F orc alloc /\ fields_in (List.length (fs_evars F) + List.length (fs_svars F)) fs /\
  synthesize (spec_of F) orc alloc fuel ALL_INIT = Ok A /\ writable 2 A /\ aut_aut_dump A 2 = Ok text /\ short_lines text /\
  2 ^ (List.length (fs_evars F) + List.length (fs_svars F)) <= fuel /\
  (forall i, i < List.length (fs_sgoals F) -> apart F i (after F i) /\ new_apart F g i) /\
  add_metric_sysgoal (spec_of F) NULL orc alloc fuel 2 text fs (tree_of g) = Crash.
Proof. exact dangling_refuted. Qed.
Print Assumptions C60_dangling_refuted.
(** so it is if the new goal holds where the goal before is passed *)
Theorem C60_reached_refuted : exists F orc alloc fs g i fuel A text,
  well_scoped F /\ all_boolean F /\ 2 <= List.length (fs_sgoals F) /\ boolean g = true /\ state_form F g /\
  tools_ok F orc alloc /\ fields_in (List.length (fs_evars F) + List.length (fs_svars F)) fs /\
  synthesize (spec_of F) orc alloc fuel ALL_INIT = Ok A /\ writable 2 A /\ aut_aut_dump A 2 = Ok text /\ short_lines text /\
  2 ^ (List.length (fs_evars F) + List.length (fs_svars F)) <= fuel /\
  place fs F g i /\ apart F i (after F i) /\ new_apart F g (after F i) /\
  (exists y, In y A /\ comes_after F i A y /\ holds F g (astate y) = true) /\
  add_metric_sysgoal (spec_of F) NULL orc alloc fuel 2 text fs (tree_of g) = Crash.
Proof. exact reached_refuted. Qed.
Print Assumptions C60_reached_refuted.
(** if the new goal can hold together with the one after it, the result can be wrong:
    a node has no transitions *)
Theorem C60_stuck_refuted : exists F orc alloc fs g i fuel A text B,
  well_scoped F /\ all_boolean F /\ 2 <= List.length (fs_sgoals F) /\ boolean g = true /\ state_form F g /\
  tools_ok F orc alloc /\ fields_in (List.length (fs_evars F) + List.length (fs_svars F)) fs /\
  synthesize (spec_of F) orc alloc fuel ALL_INIT = Ok A /\ writable 2 A /\ aut_aut_dump A 2 = Ok text /\ short_lines text /\
  2 ^ (List.length (fs_evars F) + List.length (fs_svars F)) <= fuel /\
  place fs F g i /\ apart F i (after F i) /\
  add_metric_sysgoal (spec_of F) NULL orc alloc fuel 2 text fs (tree_of g) = Ok B /\
  exists x e, In x B /\ legal_env (game_of (with_goal (S i) g F)) (astate x) e /\
    ~ exists y, In y B /\ In (aid y) (atrans x) /\ g_env (game_of (with_goal (S i) g F)) (astate y) = e.
Proof. exact stuck_refuted. Qed.
Print Assumptions C60_stuck_refuted.
(** the initial mark of a node can get lost: here the result has no initial node although
    the strategy had one *)
Theorem C60_initial_refuted : exists F orc alloc fs g fuel A text B,
  well_scoped F /\ all_boolean F /\ 2 <= List.length (fs_sgoals F) /\ boolean g = true /\ state_form F g /\
  tools_ok F orc alloc /\ fields_in (List.length (fs_evars F) + List.length (fs_svars F)) fs /\
  synthesize (spec_of F) orc alloc fuel ALL_INIT = Ok A /\ writable 2 A /\ aut_aut_dump A 2 = Ok text /\ short_lines text /\
  2 ^ (List.length (fs_evars F) + List.length (fs_svars F)) <= fuel /\
  add_metric_sysgoal (spec_of F) NULL orc alloc fuel 2 text fs (tree_of g) = Ok B /\
  (forall i, i < List.length (fs_sgoals F) -> apart F i (after F i) /\ new_apart F g (after F i)) /\
  (exists x, In x A /\ ainit x = true) /\ B <> [] /\ forall y, In y B -> ainit y = false.
Proof. exact initial_refuted. Qed.
Print Assumptions C60_initial_refuted.
(** the hypotheses of C60_synthesized are met, with a result that is not NULL *)
Theorem C60_instance : exists F orc alloc fs g fuel A text B,
  well_scoped F /\ all_boolean F /\ 2 <= List.length (fs_sgoals F) /\ boolean g = true /\ state_form F g /\
  env_moves F /\ tools_ok F orc alloc /\ fields_in (List.length (fs_evars F) + List.length (fs_svars F)) fs /\
  synthesize (spec_of F) orc alloc fuel ALL_INIT = Ok A /\ writable 2 A /\ aut_aut_dump A 2 = Ok text /\ short_lines text /\
  2 ^ (List.length (fs_evars F) + List.length (fs_svars F)) <= fuel /\
  add_metric_sysgoal (spec_of F) NULL orc alloc fuel 2 text fs (tree_of g) = Ok B /\
  (forall i, i < List.length (fs_sgoals F) -> apart F i (after F i) /\ new_apart F g (after F i)) /\
  List.length A = 3 /\ List.length B = 3 /\ exists y, In y B /\ holds F g (astate y) = true.
Proof. exact det_runs. Qed.
Print Assumptions C60_instance.
