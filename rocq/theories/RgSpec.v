(** Specification: what a run of gr1c-rg from the command line should do (its usage message
    and doc/). Not a model of code. *)
From Coq Require Import List ZArith Bool Ascii String.
From Verif Require Import Base Game Strs Ptree Form Support EnumProofs Solve FSpec RealProofs Automaton AutProofs RSpec ReachSpec
  Output Options OptSpec Program ProgramSpec.
Import ListNotations.
Open Scope string_scope.
Open Scope list_scope.

(** ** The command line: options and files in any order; the first file is the input.
    [rg_line args l files] *)
Definition rg_opt (o : opt) : Prop :=
  match o with ORealizable | OInteractive | OPromela => False | OInit f => f = ALL_INIT | _ => True end.
Inductive rg_line : list string -> list opt -> list string -> Prop :=
| rl_nil : rg_line [] [] []
| rl_opt : forall o w args l files, rg_opt o -> writes o w -> rg_line args l files -> rg_line (w ++ args) (o :: l) files
| rl_file : forall f args l files, String.prefix "-" f = false -> rg_line args l files -> rg_line (f :: args) l (f :: files)
| rl_dashes : forall fs, rg_line ("--" :: fs) [] fs.
Definition rg_settings (l : list opt) (files : list string) (o : opts) : Prop :=
  o_run o = chosen mode_of GR1C_MODE_SYNTHESIS l /\
  o_format o = chosen type_of FORMAT_JSON l /\
  o_init o = ALL_INIT /\
  o_output o = chosen output_of None l /\
  o_input o = hd_error files /\
  (o_ptdump o = true <-> In ODump l) /\ (o_logging o = true <-> In OLog l) /\
  o_verbose o = (verbosity l mod 256)%Z.
(** an option that prints the version behind a good line; what follows it is not looked at *)
Inductive rg_version (b : bool) : list string -> Prop :=
| rv_here : forall w rest, writes (OVersion b) w -> rg_version b (w ++ rest)
| rv_opt : forall o w args, rg_opt o -> (forall c, o <> OVersion c) -> writes o w -> rg_version b args -> rg_version b (w ++ args)
| rv_file : forall f args, String.prefix "-" f = false -> rg_version b args -> rg_version b (f :: args).

(** ** The game: from every initial state, reach the system's goal *)
Definition goal_state (R : rspec) (s : vec) : bool := existsb (fun g => holds (fspec_of R) g s) (rs_sgoals R).
Definition begin_state (R : rspec) (s : vec) : bool :=
  holds_opt (fspec_of R) (rs_einit R) s && holds_opt (fspec_of R) (rs_sinit R) s.
Definition rg_winnable (R : rspec) : Prop :=
  (exists s, initial (fspec_of R) s) /\
  forall s, initial (fspec_of R) s -> reach_wins (game_of (fspec_of R)) (goal_state R) s.
Definition no_env (R : rspec) : bool := match rs_evars R with [] => true | _ => false end.
(** (no node is marked as initial) *)
Definition rg_strategy_for (R : rspec) (A : aut) : Prop :=
  A <> [] /\ reach_strategy (game_of (fspec_of R)) (goal_state R) (begin_state R) (no_env R) A /\
  forall x, In x A -> ainit x = false.
Definition rg_can_start (R : rspec) : Prop := rs_evars R <> [] \/ rs_etrans R = [].

(** ** Runs *)
Definition rg_asked (args : list string) (l : list opt) (files : list string) : Prop :=
  rg_line args l files /\ no_version l /\ ~ In OHelp l /\ quiet l.
(** a strategy is delivered, or the exit is with an error *)
Definition rg_right_run (key : nat -> string) (date : string) (W : world) (l : list opt) (R : rspec) (r : outcome) : Prop :=
  r = error_exit \/
  rg_winnable R /\
    exists A text, rg_strategy_for R A /\ describes key date (asked_format l) R A text /\ delivered W l text r.
(** there is no exit code of its own for specifications that cannot be won *)
Definition rg_exact_run (W : world) (l : list opt) (R : rspec) (r : outcome) : Prop :=
  r = error_exit <-> ~ rg_winnable R \/ no_output_file W l.
