(** Specification: what a run of gr1c from the command line should do. Not a model of
    code. *)
From Coq Require Import List ZArith Bool Ascii String.
From Verif Require Import Base Game Strs Ptree Form Support EnumProofs Solve FSpec RealProofs Automaton AutProofs Nonbool RSpec Main MainSpec SynthSpec ListSpec
  AutIOSpec JsonSpec FormatSpec TextSpec Output Options OptSpec Program.
Import ListNotations.
Open Scope string_scope.
Open Scope Z_scope.

(** ** Realizable, per interpretation of the initial conditions *)
Definition realizable (R : rspec) (flags : init_flags_t) : Prop :=
  let F := fspec_of R in
  match flags with
  | ALL_INIT => (exists s, initial F s) /\ forall s, initial F s -> sys_wins (game_of F) s
  | ALL_ENV_EXIST_SYS_INIT => forall e, In e (fs_envs F) -> holds_env F (rs_einit R) e = true ->
      exists s, In s (fs_states F) /\ g_env (game_of F) s = e /\
        holds_opt F (rs_sinit R) s = true /\ sys_wins (game_of F) s
  | ONE_SIDE_INIT =>
      match rs_sinit R with
      | None => forall s, In s (fs_states F) -> holds_opt F (rs_einit R) s = true -> sys_wins (game_of F) s
      | Some f => exists s, In s (fs_states F) /\ holds F f s = true /\ sys_wins (game_of F) s
      end
  | UNDEFINED_INIT => False
  end.
(** by default SYSINIT has to be satisfiable *)
Definition decidable_init (R : rspec) (flags : init_flags_t) : Prop :=
  flags = ALL_ENV_EXIST_SYS_INIT ->
  exists s, In s (fs_states (fspec_of R)) /\ holds_opt (fspec_of R) (rs_sinit R) s = true.
(** conditions for termination: there is a state to begin with, and ENVTRANS is not
    given for a specification without environment variables *)
Definition can_start (R : rspec) (flags : init_flags_t) : Prop :=
  (rs_evars R <> [] \/ rs_etrans R = []) /\
  match flags with
  | ALL_ENV_EXIST_SYS_INIT => exists s, initial (fspec_of R) s
  | ONE_SIDE_INIT => exists s, In s (fs_states (fspec_of R)) /\ holds_opt (fspec_of R) (rs_einit R) s = true
  | _ => True
  end.
(** a strategy for the specification *)
Definition strategy_for (R : rspec) (flags : init_flags_t) (A : aut) : Prop :=
  A <> [] /\ implements R A /\ starts R flags A /\
  forall x, In x A -> reached (fspec_of R) (start (fspec_of R) flags) (astate x).

(** ** Descriptions. In DOT, variables are written by name if all are Boolean. *)
Definition dot_look (R : rspec) (s : dot_style) : Prop :=
  dot_edge_input s = false /\ dot_attributes s = true /\
  (dot_binary s = true <-> forall d, In d (rs_evars R ++ rs_svars R)%list -> snd d = -1).
Definition describes (key : nat -> string) (date : string) (fmt : output_format) (R : rspec) (A : aut) (text : string) : Prop :=
  match fmt with
  | FORMAT_JSON => json_file text (strategy_json key date (rs_evars R) (rs_svars R) A)
  | FORMAT_TEXT => exists rows, numbered A rows /\ text = list_file rows
  | FORMAT_AUT => exists rows, numbered A rows /\ text = AutIOSpec.file_text [] (map FNode rows)
  | FORMAT_TULIP => exists rows, numbered A rows /\ xml_file text (tulip_xml (rs_evars R) (rs_svars R) rows)
  | FORMAT_DOT => exists rows s, numbered A rows /\ dot_look R s /\
      ((forall r, In r rows -> dot_short s (rs_evars R) (rs_svars R) r) ->
       text = dot_file (dot_statements s (rs_evars R) (rs_svars R) rows))
  end.

(** ** Runs *)
Definition asked_mode (l : list opt) : run_option_t := chosen mode_of GR1C_MODE_SYNTHESIS l.
Definition asked_init (l : list opt) : init_flags_t := chosen init_of ALL_ENV_EXIST_SYS_INIT l.
Definition asked_format (l : list opt) : output_format := chosen type_of FORMAT_JSON l.
Definition asked_output (l : list opt) : option string := chosen output_of None l.
(** the program is asked to go on with these options, none of which adds output to stdout;
    -P needs -o, -i needs a file *)
Definition asked (args : list string) (l : list opt) (file : option string) : Prop :=
  ~ a_command args /\ line args l file /\ no_version l /\ ~ In OHelp l /\
  ~ In ODump l /\ ~ In OLog l /\ (forall b, ~ In (OVerbose b) l) /\
  (In OPromela l -> asked_output l <> None) /\ (asked_mode l = GR1C_MODE_INTERACTIVE -> file <> None).
(** the text of the input: the file, or stdin *)
Definition input_text (W : world) (file : option string) (text : string) : Prop :=
  match file with Some f => w_file W f = Some text | None => text = w_stdin W end.
Definition error_exit : outcome := Exits (-1) "" None.
(** [text] is where it should be *)
Definition delivered (W : world) (l : list opt) (text : string) (r : outcome) : Prop :=
  match asked_output l with
  | None => r = Exits 0 text None
  | Some f => w_writable W f = true /\ r = Exits 0 "" (Some (f, text))
  end.
Definition right_run (key : nat -> string) (date : string) (W : world) (l : list opt) (R : rspec) (r : outcome) : Prop :=
  (~ realizable R (asked_init l) /\ r = Exits 3 "" None) \/
  (realizable R (asked_init l) /\
    (r = error_exit \/
     exists A text, strategy_for R (asked_init l) A /\ describes key date (asked_format l) R A text /\ delivered W l text r)).
(** the only error: the output file *)
Definition no_output_file (W : world) (l : list opt) : Prop :=
  exists f, asked_output l = Some f /\ w_writable W f = false.
Definition said (s : string) : string := (s ++ line_end)%string.
