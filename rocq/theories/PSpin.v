(** Property C58: the Promela model that gr1c -P writes for a strategy.

    Reading guide. [spin_model text formula P defs f]: the text is a Promela file that says
    the program [P] with macros [defs], and the LTL formula in the comment at its top says
    [f] (PromelaSpec.v: how such files are written and what they mean). [obeys P defs f]:
    every infinite run of [P] satisfies [f]. [from_start A p]: [p] is an infinite path of
    the strategy from an initial node; [assumed R p], [asked R p]: the environment part and
    the system part of the specification hold along it (SpinSpec.v). [spin_names R]: the
    names of variables are Promela names, no two of them (with _next) coincide and none is
    a name the model uses itself. [fdefaults R]: [R] with True for omitted rules and
    goals. *)
From Coq Require Import List ZArith Bool Arith String.
From Verif Require Import Base Game Strs Support EnumProofs Ptree Form Solve FSpec RSpec RealProofs Automaton AutProofs Synth SynthSpec
  SynthFindings Examples HotSpec Nonbool NonboolProofs NbExamples Main MainSpec AutIO PromelaSpec SpinSpec Spin SpinFinal SpinExamples.
Import ListNotations.
Open Scope string_scope.
Open Scope list_scope.
Open Scope Z_scope.

(** the model passes if the strategy is right, and if it passes the strategy is right
    on all its paths *)
Theorem C58_written : forall R, well_typed R -> spin_names R -> exists N, forall fuel, (N <= fuel)%nat ->
  forall A same, formed R A ->
  exists text formula P defs f, spin_model text formula P defs f /\
    spin_aut_dump fuel same A (vlist (rs_evars R)) (vlist (rs_svars R)) (opt_tree (rs_einit R)) (opt_tree (rs_sinit R))
      (map tree_of (rs_etrans R)) (map tree_of (rs_strans R)) (map tree_of (rs_egoals R)) (map tree_of (rs_sgoals R)) =
    Ok (text, if same then None else Some (formula ++ nl)%string, 0) /\
    ((forall p, from_start A p -> assumed R p -> asked R p) -> (forall x, In x A -> answered R A x) -> obeys P defs f) /\
    (obeys P defs f -> forall p, from_start A p -> assumed R p -> asked R p).
Proof. exact written. Qed.
Print Assumptions C58_written.
(** strategies for the specification pass *)
Theorem C58_correct : forall R, well_typed R -> spin_names R -> exists N, forall fuel, (N <= fuel)%nat ->
  forall A same, correct (fspec_of R) A -> starts_well R A -> env_passive R A ->
  exists text formula P defs f, spin_model text formula P defs f /\
    spin_aut_dump fuel same A (vlist (rs_evars R)) (vlist (rs_svars R)) (opt_tree (rs_einit R)) (opt_tree (rs_sinit R))
      (map tree_of (rs_etrans R)) (map tree_of (rs_strans R)) (map tree_of (rs_egoals R)) (map tree_of (rs_sgoals R)) =
    Ok (text, if same then None else Some (formula ++ nl)%string, 0) /\ obeys P defs f.
Proof. exact passes_correct. Qed.
Print Assumptions C58_correct.
(** gr1c -P: the model written for the strategy that gr1c finds passes *)
Theorem C58_gr1c : forall R orc alloc flags, usable R -> tools R orc alloc -> spin_names (fdefaults R) -> quiet R ->
  flags <> UNDEFINED_INIT ->
  (flags = ALL_ENV_EXIST_SYS_INIT ->
     opt_all (fun f => incl (fvars f) (names (rs_evars R))) (rs_einit R) /\
     opt_all (fun f => incl (fvars f) (names (rs_svars R))) (rs_sinit R) /\
     exists s, In s (fs_states (fspec_of R)) /\ holds_opt (fspec_of R) (rs_sinit R) s = true) ->
  exists N, forall fuel, (N <= fuel)%nat -> forall r,
    gr1c_main orc alloc fuel MODE_SYNTHESIS flags (raw_of R) = Ok r ->
    exists t, gr1c_verify orc alloc fuel flags (raw_of R) = Ok (r, t) /\
      match r with
      | Strategy _ _ _ => exists formula Q defs f, spin_model t formula Q defs f /\ obeys Q defs f
      | _ => t = ""
      end.
Proof. exact verified_run. Qed.
Print Assumptions C58_gr1c.
Example C58_instance : usable ex_int /\ tools ex_int robdd_oracle alloc_max /\ spin_names (fdefaults ex_int) /\ quiet ex_int /\
  exists A ev sv t, gr1c_verify robdd_oracle alloc_max 40 ALL_INIT (raw_of ex_int) = Ok (Strategy A ev sv, t) /\
    substring 73 168 t = "(X envinit && [] (!checketrans || envtrans) && []<> envgoal0000) -> (X sysinit && [] (!checkstrans || systrans) && []<> sysgoal0000 && []<> sysgoal0001 && [] !pmlfault)".
Proof. exact spin_instance. Qed.
(** without environment variables, the formula does not mention what is assumed of the
    environment: the strategy of gr1c is right and does not pass *)
Theorem C58_no_env_refuted : exists R orc alloc fuel A ev sv t,
  usable R /\ tools R orc alloc /\ spin_names (fdefaults R) /\
  gr1c_verify orc alloc fuel ALL_INIT (raw_of R) = Ok (Strategy A ev sv, t) /\
  correct (fspec_of R) A /\ starts_well R A /\
  exists formula P defs f, spin_model t formula P defs f /\ ~ obeys P defs f.
Proof. exact no_env_refuted. Qed.
Print Assumptions C58_no_env_refuted.
