(** C61: patching a strategy after changes of the rules (gr1c-patch with a change file).
    Theorems only; proofs are in PatchLoad.v, PatchSynth.v and PatchExamples.v.

    Reading guide. [correct F A], [in_order F A]: the automaton [A] is a strategy for [F] that
    seeks the goals in order (HotSpec.v). [l] is the list of commands of the change file, [N]
    its list of states; [changed F l] are the rules of [F] after the changes [l];
    [serves F r B]: [B] is a strategy for the specification with rules [r]; [unfit F A l x]: a
    command takes away a transition of [x] or allows the environment a move that [x] does not
    answer; [patchable F N l A] says what is needed of the old strategy; [starts_kept] says
    which initial nodes are kept; [env_moves_in F r]: the environment can always move;
    [parts_of f l]: [f] is the conjunction of the formulas [l], as ENVTRANS and SYSTRANS are
    stored; [change_file N l changes]: the file [changes] consists of [N] and [l], with blank
    lines and comments (PatchSpec.v). The strategy is read from the file [text] that
    aut_aut_dump writes. The result [[]] is NULL ("Failed to patch strategy").
    [patch_case] collects the hypotheses for the runs shown (PatchSynth.v). *)
From Coq Require Import List ZArith Bool Arith String.
From Verif Require Import Base Game Bdd Support EnumProofs Strs Ptree Form Solve FSpec Automaton AutProofs Synth SynthSpec Reach AutIO AutIOSpec
  Nonbool Hotswap HotSpec HotLoad HotSynth Interactive InteractSpec Patch PatchSpec PatchLoad PatchSynth PatchExamples.
Import ListNotations.
Open Scope nat_scope.

(** what is returned is a strategy for the changed rules that seeks the goals in order *)
Theorem C61_sound : forall F, well_scoped F -> all_boolean F -> fs_svars F <> [] -> fs_sgoals F <> [] ->
  forall orc alloc ep sq, parts_of (fs_etrans F) ep -> parts_of (fs_strans F) sq ->
  forall N l, (forall s, In s N -> In s (fs_states F)) -> Forall (valid F) l -> forallb is_change l = true ->
  forall A text changes, correct F A -> in_order F A ->
  let n := Z.of_nat (List.length (fs_evars F) + List.length (fs_svars F)) in
  writable n A -> aut_aut_dump A n = Ok text -> short_lines text -> change_file N l changes ->
  tools_ok F orc alloc ->
  forall fuel B, patchable F N l A ->
  env_moves_in F (changed F l) -> (fs_evars F = [] -> forall s e, ~ In (RelaxEnv s e) l) ->
  patch_localfixpoint (spec_of F) (map tree_of ep) (map tree_of sq) orc alloc fuel text changes = Ok B -> B <> [] ->
  serves F (changed F l) B /\ in_order F B /\ starts_kept F N l A B.
Proof. exact patch_sound. Qed.
Print Assumptions C61_sound.
(** in particular for the strategies of gr1c, if no goal holds in a state of N *)
Theorem C61_synthesized : forall F, well_scoped F -> all_boolean F -> fs_svars F <> [] -> fs_sgoals F <> [] ->
  forall orc alloc, tools_ok F orc alloc ->
  forall ep sq, parts_of (fs_etrans F) ep -> parts_of (fs_strans F) sq ->
  forall N l, (forall s, In s N -> In s (fs_states F)) -> Forall (valid F) l -> forallb is_change l = true ->
  (forall s g, In s N -> In g (fs_sgoals F) -> holds F g s = false) ->
  env_moves_in F (changed F l) -> (fs_evars F = [] -> forall s e, ~ In (RelaxEnv s e) l) ->
  forall fuel' flags A text changes fuel B, synthesize (spec_of F) orc alloc fuel' flags = Ok A ->
  let n := Z.of_nat (List.length (fs_evars F) + List.length (fs_svars F)) in
  writable n A -> aut_aut_dump A n = Ok text -> short_lines text -> change_file N l changes ->
  patch_localfixpoint (spec_of F) (map tree_of ep) (map tree_of sq) orc alloc fuel text changes = Ok B -> B <> [] ->
  serves F (changed F l) B /\ in_order F B /\ starts_kept F N l A B.
Proof. exact patch_made. Qed.
Print Assumptions C61_synthesized.
(** an unfit node outside of N: nothing is returned *)
Theorem C61_outside : forall F, well_scoped F -> all_boolean F -> fs_svars F <> [] ->
  forall orc alloc ep sq, parts_of (fs_etrans F) ep -> parts_of (fs_strans F) sq ->
  forall N l, (forall s, In s N -> In s (fs_states F)) -> Forall (valid F) l -> forallb is_change l = true ->
  forall A text changes, correct F A -> in_order F A ->
  let n := Z.of_nat (List.length (fs_evars F) + List.length (fs_svars F)) in
  writable n A -> aut_aut_dump A n = Ok text -> short_lines text -> change_file N l changes ->
  forall fuel x, In x A -> unfit F A l x -> ~ In (astate x) N ->
  patch_localfixpoint (spec_of F) (map tree_of ep) (map tree_of sq) orc alloc fuel text changes = Ok [].
Proof. exact patch_refuses. Qed.
Print Assumptions C61_outside.
(** no node is unfit: the strategy is returned as it was *)
Theorem C61_unaffected : forall F, well_scoped F -> all_boolean F -> fs_svars F <> [] ->
  forall orc alloc ep sq, parts_of (fs_etrans F) ep -> parts_of (fs_strans F) sq ->
  forall N l, (forall s, In s N -> In s (fs_states F)) -> Forall (valid F) l -> forallb is_change l = true ->
  forall A text changes, correct F A -> in_order F A ->
  let n := Z.of_nat (List.length (fs_evars F) + List.length (fs_svars F)) in
  writable n A -> aut_aut_dump A n = Ok text -> short_lines text -> change_file N l changes ->
  forall fuel, (forall x, In x A -> ~ unfit F A l x) -> (forall x, In x A -> atrans x <> []) ->
  exists f, (forall a b, In a (ids A) -> In b (ids A) -> f a = f b -> a = b) /\
    patch_localfixpoint (spec_of F) (map tree_of ep) (map tree_of sq) orc alloc fuel text changes = Ok (map (relabel f) A).
Proof. exact patch_unchanged. Qed.
Print Assumptions C61_unaffected.
(** the hypotheses of C61_synthesized are met, with an unfit node and a result that is not NULL *)
Theorem C61_instance : exists F orc alloc N l fuel A text changes B,
  patch_case F orc alloc N l fuel A text changes /\
  (forall s g, In s N -> In g (fs_sgoals F) -> holds F g s = false) /\
  (exists x, In x A /\ unfit F A l x) /\
  patched_of F orc alloc fuel text changes = Ok B /\ List.length A = 3 /\ List.length B = 4.
Proof. exact detour_runs. Qed.
Print Assumptions C61_instance.
(** so are those of C61_outside *)
Theorem C61_outside_instance : exists F orc alloc N l fuel A text changes,
  patch_case F orc alloc N l fuel A text changes /\ exists x, In x A /\ unfit F A l x /\ ~ In (astate x) N.
Proof. exact outside_runs. Qed.
Print Assumptions C61_outside_instance.
(** and those of C61_unaffected *)
Theorem C61_unaffected_instance : exists F orc alloc N l fuel A text changes,
  patch_case F orc alloc N l fuel A text changes /\ changed F l <> loaded F /\
  (forall x, In x A -> ~ unfit F A l x) /\ (forall x, In x A -> atrans x <> []).
Proof. exact unaffected_runs. Qed.
Print Assumptions C61_unaffected_instance.
(** if a goal holds in a state of N, the result can have a transition that the change
    forbids *)
Theorem C61_goal_in_N_refuted : exists F orc alloc N l fuel A text changes B,
  patch_case F orc alloc N l fuel A text changes /\ patched_of F orc alloc fuel text changes = Ok B /\
  (exists s g, In s N /\ In g (fs_sgoals F) /\ holds F g s = true) /\
  exists x y, In x B /\ In y B /\ In (aid y) (atrans x) /\ may_sys (changed F l) (astate x) (astate y) = false.
Proof. exact goal_in_N_refuted. Qed.
Print Assumptions C61_goal_in_N_refuted.
(** or leave a move of the environment unanswered *)
Theorem C61_entered_refuted : exists F orc alloc N l fuel A text changes B,
  patch_case F orc alloc N l fuel A text changes /\ patched_of F orc alloc fuel text changes = Ok B /\
  exists x e, In x B /\ legal_env (game_with F (changed F l)) (astate x) e /\
    ~ exists y, In y B /\ In (aid y) (atrans x) /\ g_env (game_of F) (astate y) = e.
Proof. exact entered_refuted. Qed.
Print Assumptions C61_entered_refuted.
(** initial nodes in N can get lost: here the result has none *)
Theorem C61_init_lost_refuted : exists F orc alloc N l fuel A text changes B,
  patch_case F orc alloc N l fuel A text changes /\
  (forall s g, In s N -> In g (fs_sgoals F) -> holds F g s = false) /\
  patched_of F orc alloc fuel text changes = Ok B /\
  (exists x, In x A /\ ainit x = true) /\ B <> [] /\ forall y, In y B -> ainit y = false.
Proof. exact init_lost_refuted. Qed.
Print Assumptions C61_init_lost_refuted.
(** a larger N can make patching fail *)
Theorem C61_no_entry_refuted : exists F orc alloc N N' l fuel A text changes changes' B,
  patch_case F orc alloc N l fuel A text changes /\ patch_case F orc alloc N' l fuel A text changes' /\ incl N N' /\
  patched_of F orc alloc fuel text changes = Ok B /\ B <> [] /\ serves F (changed F l) B /\
  patched_of F orc alloc fuel text changes' = Ok [].
Proof. exact no_entry_refuted. Qed.
Print Assumptions C61_no_entry_refuted.
(** blocksys with too few arguments after another command: memory is freed twice *)
Theorem C61_wrong_arguments_refuted : exists F orc alloc N l fuel A text changes B more,
  patch_case F orc alloc N l fuel A text changes /\ patched_of F orc alloc fuel text changes = Ok B /\ B <> [] /\
  more = command_text (BlockSys [1]%Z) /\ ~ In [1]%Z (fs_outs F) /\
  patched_of F orc alloc fuel text (changes ++ more) = Crash.
Proof. exact wrong_arguments_refuted. Qed.
Print Assumptions C61_wrong_arguments_refuted.
