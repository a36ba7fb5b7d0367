(** Properties C42 and C43: what gr1c prints for a specification with integer
    variables, and which states a strategy visits.

    Reading guide. [gr1c_main] is the program from the parsed specification to the
    printed strategy (Main.v). [right_answer R flags P r]: the result [r] is a
    strategy and [P] holds, or it is "not realizable" and [P] does not hold
    (MainSpec.v); the strategy's states are over the integer variables as declared,
    it obeys all rules, answers all environment moves, guarantees the goals, starts
    where it should ([implements], [starts]), and visits only states that a play of
    the game reaches ([reached], SynthSpec.v). [usable R]: variables in formulas are
    declared and used by their type, names and bit names do not clash, no integer
    variable's name is a prefix of another name, domains fit an int. [tools]: the
    assumptions on CUDD's cube generator and on malloc. *)
From Coq Require Import List ZArith Bool Arith String.
From Verif Require Import Base Game Strs Support EnumProofs Ptree Form Solve FSpec RealProofs Automaton Synth SynthSpec
  SynthFindings Examples Nonbool RSpec PipeVerdict NbExamples Main MainSpec MainProofs MainExamples.
Import ListNotations.
Open Scope string_scope.
Open Scope list_scope.
Open Scope Z_scope.

(** C42 *)
Theorem C42_all_init : forall R orc alloc, usable R -> tools R orc alloc ->
  synth_right R orc alloc ALL_INIT
    ((exists s, initial (fspec_of R) s) /\ forall s, initial (fspec_of R) s -> sys_wins (game_of (fspec_of R)) s) /\
  synth_ends R orc alloc ALL_INIT.
Proof. exact run_all_init. Qed.
Print Assumptions C42_all_init.
Theorem C42_one_side : forall R orc alloc, usable R -> tools R orc alloc ->
  synth_right R orc alloc ONE_SIDE_INIT
    (match rs_sinit R with
     | None => forall s, In s (fs_states (fspec_of R)) -> holds_opt (fspec_of R) (rs_einit R) s = true ->
         sys_wins (game_of (fspec_of R)) s
     | Some f => exists s, In s (fs_states (fspec_of R)) /\ holds (fspec_of R) f s = true /\
         sys_wins (game_of (fspec_of R)) s
     end) /\
  ((exists s, In s (fs_states (fspec_of R)) /\ holds_opt (fspec_of R) (rs_einit R) s = true) ->
   synth_ends R orc alloc ONE_SIDE_INIT).
Proof. exact run_one_side. Qed.
Print Assumptions C42_one_side.
Theorem C42_all_env_exist_sys : forall R orc alloc, usable R -> tools R orc alloc ->
  opt_all (fun f => incl (fvars f) (names (rs_evars R))) (rs_einit R) ->
  opt_all (fun f => incl (fvars f) (names (rs_svars R))) (rs_sinit R) ->
  (exists s, In s (fs_states (fspec_of R)) /\ holds_opt (fspec_of R) (rs_sinit R) s = true) ->
  synth_right R orc alloc ALL_ENV_EXIST_SYS_INIT
    (forall e, In e (fs_envs (fspec_of R)) -> holds_env (fspec_of R) (rs_einit R) e = true ->
       exists s, In s (fs_states (fspec_of R)) /\ g_env (game_of (fspec_of R)) s = e /\
         holds_opt (fspec_of R) (rs_sinit R) s = true /\ sys_wins (game_of (fspec_of R)) s) /\
  ((exists s, initial (fspec_of R) s) -> synth_ends R orc alloc ALL_ENV_EXIST_SYS_INIT).
Proof. exact run_aes. Qed.
Print Assumptions C42_all_env_exist_sys.
(** the mode that only decides; [chain_gives R flags P] is given by the theorems on C36 *)
Theorem C42_realizable : forall R orc alloc flags P, usable R -> chain_gives R flags P ->
  exists N, forall fuel, (N <= fuel)%nat -> exists r,
    gr1c_main orc alloc fuel MODE_REALIZABLE flags (raw_of R) = Ok r /\ right_verdict P r.
Proof. exact run_realizable. Qed.
Print Assumptions C42_realizable.
Example C42_instance : usable ex_int /\ tools ex_int robdd_oracle alloc_max /\
  (rs_evars ex_int <> [] \/ rs_etrans ex_int = []) /\
  opt_all (fun f => incl (fvars f) (names (rs_evars ex_int))) (rs_einit ex_int) /\
  opt_all (fun f => incl (fvars f) (names (rs_svars ex_int))) (rs_sinit ex_int) /\
  (exists s, initial (fspec_of ex_int) s) /\
  exists A, gr1c_main robdd_oracle alloc_max 40 MODE_SYNTHESIS ALL_INIT (raw_of ex_int) =
     Ok (Strategy A (vlist [("x", 2)]) (vlist [("b", -1)])) /\
   map (fun x => (astate x, amode x, ainit x)) A =
     [([1; 0], 0, false); ([2; 0], 0, false); ([1; 1], 1, false); ([2; 1], 1, false); ([0; 0], 0, true)].
Proof. exact main_instance. Qed.

(** C43 *)
Theorem C43_reached : forall F, well_scoped F -> all_boolean F -> fs_sgoals F <> [] ->
  forall orc alloc, tools_ok F orc alloc ->
  forall fuel flags A, (flags = ALL_ENV_EXIST_SYS_INIT -> separated F) ->
  synthesize (spec_of F) orc alloc fuel flags = Ok A ->
  forall x, In x A -> reached F (start F flags) (astate x).
Proof. intros F H1 H2 H3 orc alloc [H4 H5]. exact (r_reach F H1 H2 H3 orc alloc H4 H5). Qed.
Print Assumptions C43_reached.
(** the hypotheses are met by [ex_follow], see C06_C11_instance in PSynth.v; here a
    strategy with a node that is not an initial state *)
Example C43_instance : well_scoped ex_follow /\ all_boolean ex_follow /\ fs_sgoals ex_follow <> [] /\
  separated ex_follow /\ tools_ok ex_follow robdd_oracle alloc_max /\
  exists A x, synthesize (spec_of ex_follow) robdd_oracle alloc_max 30 ALL_INIT = Ok A /\ In x A /\
    ~ start ex_follow ALL_INIT (astate x) /\ reached ex_follow (start ex_follow ALL_INIT) (astate x).
Proof. exact reach_instance. Qed.
