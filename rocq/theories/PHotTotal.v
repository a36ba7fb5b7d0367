(** C57: when removing a system goal succeeds (gr1c-patch -r). Theorems only; proofs are
    in HotFollow.v, HotTotal.v, HotLoad.v, HotSynth.v and HotExamples.v.

    Reading guide. [seeks F A]: a transition leads to a node with the same goal or a later
    one in cyclic order, the goals passed over hold there, and the goal changes exactly if
    the one sought holds there.
    [env_moves F]: the environment can move in every state. [exits_fit F d A]: the nodes
    that seek another goal than [d] and [after F d], and follow one that seeks one of the
    two, are not more than those that seek one of the two. [taken_up F d A]: goal [d]
    becomes the one sought along some transition (HotSpec.v). *)
From Coq Require Import List ZArith Bool Arith String.
From Verif Require Import Base Game Bdd Support EnumProofs Strs Ptree Form Solve FSpec Automaton AutProofs Synth SynthSpec Reach AutIO AutIOSpec
  Nonbool Hotswap HotSpec HotLoad HotSynth HotExamples.
Import ListNotations.
Open Scope nat_scope.

(** the function returns; NULL exactly if the goal is never taken up *)
Theorem C57_total : forall F, well_scoped F -> all_boolean F ->
  forall orc alloc, tools_ok F orc alloc ->
  forall d, d < List.length (fs_sgoals F) -> 3 <= List.length (fs_sgoals F) ->
  forall n A text, correct F A ->
  writable n A -> aut_aut_dump A n = Ok text -> short_lines text ->
  env_moves F -> seeks F A -> apart F (after F d) (after F (after F d)) -> exits_fit F d A ->
  exists N, forall fuel, N <= fuel -> exists B,
    rm_sysgoal (spec_of F) NULL orc alloc fuel n text (Z.of_nat d) = Ok B /\ (B <> [] <-> taken_up F d A).
Proof. exact rm_total. Qed.
Print Assumptions C57_total.
(** [exits_fit] is necessary (C56_overflow_refuted has a strategy without it) *)
Theorem C57_overflow : forall F, well_scoped F -> all_boolean F ->
  forall orc alloc d, d < List.length (fs_sgoals F) -> 3 <= List.length (fs_sgoals F) ->
  forall n A text, correct F A ->
  writable n A -> aut_aut_dump A n = Ok text -> short_lines text ->
  ~ exits_fit F d A ->
  forall fuel, rm_sysgoal (spec_of F) NULL orc alloc fuel n text (Z.of_nat d) = Crash.
Proof. exact rm_overflows. Qed.
Print Assumptions C57_overflow.
(** the strategies of gr1c *)
Theorem C57_synthesized : forall F, well_scoped F -> all_boolean F ->
  forall orc alloc, tools_ok F orc alloc ->
  forall d, d < List.length (fs_sgoals F) -> 3 <= List.length (fs_sgoals F) ->
  (forall j, j < List.length (fs_sgoals F) -> after F j = d -> apart F j d) ->
  apart F (after F d) (after F (after F d)) -> env_moves F ->
  forall fuel flags n A text, synthesize (spec_of F) orc alloc fuel flags = Ok A ->
  writable n A -> aut_aut_dump A n = Ok text -> short_lines text ->
  exits_fit F d A -> taken_up F d A ->
  exists N, forall fuel', N <= fuel' -> exists B,
    rm_sysgoal (spec_of F) NULL orc alloc fuel' n text (Z.of_nat d) = Ok B /\ B <> [] /\
    correct (without d F) B /\ keeps F d A B.
Proof. exact rm_made_total. Qed.
Print Assumptions C57_synthesized.
(** a strategy that meets all hypotheses of C57_synthesized *)
Example C57_instance : exists F orc alloc fuel A text,
  well_scoped F /\ all_boolean F /\ tools_ok F orc alloc /\ 3 <= List.length (fs_sgoals F) /\
  (forall j, j < List.length (fs_sgoals F) -> after F j = 1 -> apart F j 1) /\
  apart F (after F 1) (after F (after F 1)) /\ env_moves F /\
  synthesize (spec_of F) orc alloc fuel ALL_INIT = Ok A /\ writable 3 A /\ aut_aut_dump A 3 = Ok text /\ short_lines text /\
  exits_fit F 1 A /\ taken_up F 1 A.
Proof. exact round_patched. Qed.
