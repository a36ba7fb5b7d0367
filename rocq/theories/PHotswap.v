(** C56: removing a system goal from a strategy (gr1c-patch -r). Theorems only; proofs
    are in HotLoad.v, HotSynth.v and HotExamples.v.

    Reading guide. [correct F A]: the automaton [A] is a strategy for the specification
    [F]; [without d F] is [F] without system goal [d]; [keeps F d A B]: the nodes of [A]
    that seek other goals than [d] and the one after it are still in [B] (HotSpec.v).
    The strategy is read from the file [text] that aut_aut_dump writes. The result [[]]
    is NULL ("Failed to patch strategy"). *)
From Coq Require Import List ZArith Bool Arith String.
From Verif Require Import Base Game Bdd Support EnumProofs Strs Ptree Form Solve FSpec Automaton AutProofs Synth SynthSpec Reach AutIO AutIOSpec
  Nonbool Hotswap HotSpec HotLoad HotSynth HotExamples.
Import ListNotations.
Open Scope nat_scope.

(** what is returned is a strategy for the specification without the goal *)
Theorem C56_sound : forall F, well_scoped F -> all_boolean F ->
  forall orc alloc, tools_ok F orc alloc ->
  forall d, d < List.length (fs_sgoals F) -> 3 <= List.length (fs_sgoals F) ->
  forall fuel n A text B, correct F A -> in_order F A -> not_skipped F d A ->
  writable n A -> aut_aut_dump A n = Ok text -> short_lines text ->
  rm_sysgoal (spec_of F) NULL orc alloc fuel n text (Z.of_nat d) = Ok B -> B <> [] ->
  correct (without d F) B /\ keeps F d A B.
Proof. exact rm_ok. Qed.
Print Assumptions C56_sound.
(** in particular for the strategies of gr1c, if the goal and the one before it never
    hold at the same time *)
Theorem C56_synthesized : forall F, well_scoped F -> all_boolean F ->
  forall orc alloc, tools_ok F orc alloc ->
  forall d, d < List.length (fs_sgoals F) -> 3 <= List.length (fs_sgoals F) ->
  (forall j, j < List.length (fs_sgoals F) -> after F j = d -> apart F j d) ->
  forall fuel fuel' flags n A text B, synthesize (spec_of F) orc alloc fuel flags = Ok A ->
  writable n A -> aut_aut_dump A n = Ok text -> short_lines text ->
  rm_sysgoal (spec_of F) NULL orc alloc fuel' n text (Z.of_nat d) = Ok B -> B <> [] ->
  correct (without d F) B /\ keeps F d A B.
Proof. exact rm_made. Qed.
Print Assumptions C56_synthesized.
(** goal numbers out of range, and fewer than three goals *)
Theorem C56_range : forall F orc alloc fuel n text d,
  (d < 0)%Z \/ (Z.of_nat (List.length (fs_sgoals F)) <= d)%Z \/ List.length (fs_sgoals F) < 3 ->
  rm_sysgoal (spec_of F) NULL orc alloc fuel n text d = Ok [].
Proof. exact rm_range. Qed.
Print Assumptions C56_range.
(** if goals can be reached at the same time, the result can be wrong: a legal move
    in its initial state is not answered *)
Theorem C56_skip_refuted : exists F orc alloc fuel A text B d,
  well_scoped F /\ all_boolean F /\ tools_ok F orc alloc /\ 3 <= List.length (fs_sgoals F) /\ d < List.length (fs_sgoals F) /\
  synthesize (spec_of F) orc alloc fuel ALL_INIT = Ok A /\ writable 2 A /\ aut_aut_dump A 2 = Ok text /\ short_lines text /\
  rm_sysgoal (spec_of F) NULL orc alloc fuel 2 text (Z.of_nat d) = Ok B /\
  exists x e, In x B /\ ainit x = true /\ legal_env (game_of (without d F)) (astate x) e /\
    ~ exists y, In y B /\ In (aid y) (atrans x) /\ g_env (game_of (without d F)) (astate y) = e.
Proof. exact skip_refuted. Qed.
Print Assumptions C56_skip_refuted.
(** the array Exit has as many elements as nodes are deleted, which can be too few *)
Theorem C56_overflow_refuted : exists F orc alloc fuel A text d,
  well_scoped F /\ all_boolean F /\ tools_ok F orc alloc /\ 3 <= List.length (fs_sgoals F) /\ d < List.length (fs_sgoals F) /\
  (forall i, i < List.length (fs_sgoals F) -> apart F i (after F i)) /\
  synthesize (spec_of F) orc alloc fuel ALL_INIT = Ok A /\ writable 3 A /\ aut_aut_dump A 3 = Ok text /\ short_lines text /\
  forall f, rm_sysgoal (spec_of F) NULL orc alloc f 3 text (Z.of_nat d) = Crash.
Proof. exact many_refuted. Qed.
Print Assumptions C56_overflow_refuted.
(** a node without transitions was read from the file; freeing it reads a field that
    was never set *)
Theorem C56_free_refuted : exists F orc alloc fuel A text d,
  well_scoped F /\ all_boolean F /\ tools_ok F orc alloc /\ 3 <= List.length (fs_sgoals F) /\ d < List.length (fs_sgoals F) /\
  (forall i, i < List.length (fs_sgoals F) -> apart F i (after F i)) /\
  synthesize (spec_of F) orc alloc fuel ALL_INIT = Ok A /\ writable 3 A /\ aut_aut_dump A 3 = Ok text /\ short_lines text /\
  rm_sysgoal (spec_of F) NULL orc alloc fuel 3 text (Z.of_nat d) = Crash /\
  List.length A = 7 /\ List.length (filter (fun x => negb (amode x =? 0)%Z) A) = 4.
Proof. exact halt_refuted. Qed.
Print Assumptions C56_free_refuted.
(** the hypotheses of C56_synthesized are met, with a result that is not NULL *)
Example C56_instance : exists F orc alloc fuel A text B,
  well_scoped F /\ all_boolean F /\ tools_ok F orc alloc /\ 3 <= List.length (fs_sgoals F) /\
  (forall j, j < List.length (fs_sgoals F) -> after F j = 1 -> apart F j 1) /\
  synthesize (spec_of F) orc alloc fuel ALL_INIT = Ok A /\ writable 3 A /\ aut_aut_dump A 3 = Ok text /\ short_lines text /\
  rm_sysgoal (spec_of F) NULL orc alloc fuel 3 text 1 = Ok B /\ List.length A = 6 /\ List.length B = 5.
Proof. exact round_runs. Qed.
