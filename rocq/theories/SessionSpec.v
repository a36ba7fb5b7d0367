(** Specification: what a run of gr1c -i should print for the lines typed. Not a model of
    code. The commands that concern the game are those of InteractSpec.v; added here are the
    questions about the specification (doc/interaction.md), lines that are no command, and
    the two ways to end. *)
From Coq Require Import List ZArith Bool Arith Ascii String.
From Verif Require Import Base Game Strs Ptree Form Support EnumProofs Solve FSpec SolveProofs Automaton Nonbool RSpec AutIO AutIOSpec
  ReadSpec Interactive InteractSpec Parse Syntax LexSpec TextSpec.
Import ListNotations.
Open Scope string_scope.
Open Scope list_scope.
Open Scope nat_scope.

Inductive query :=
| QHelp
| QNumGoals
| QEnvVar
| QSysVar
| QVar
| QGoal (i : nat)
| QEnvGoals
| QReorder (on : bool)
| QOther (s : string).
Inductive entry := Do (c : command) | Ask (q : query).

Definition newline_text : string := String (ascii_of_nat 10) "".
(** the lines as typed *)
Definition query_line (q : query) : string :=
  match q with
  | QHelp => "help"
  | QNumGoals => "numgoals"
  | QEnvVar => "envvar"
  | QSysVar => "sysvar"
  | QVar => "var"
  | QGoal i => ("printgoal " ++ zdec (Z.of_nat i))%string
  | QEnvGoals => "printegoals"
  | QReorder true => "enable autoreorder"
  | QReorder false => "disable autoreorder"
  | QOther s => s
  end.
Definition entry_text (e : entry) : string :=
  match e with Do c => command_text c | Ask q => (query_line q ++ newline_text)%string end.
Fixpoint typed_text (es : list entry) (last : string) : string :=
  match es with [] => last | e :: r => (entry_text e ++ typed_text r last)%string end.
(** the session ends with the input, or with a line that begins with quit *)
Definition ends (last : string) : Prop := last = "" \/ exists rest, last = ("quit" ++ rest)%string.
(** a line that begins with one of these is a command *)
Definition command_words : list string :=
  ["quit"; "help"; "enable autoreorder"; "disable autoreorder"; "numgoals"; "envvar"; "sysvar"; "var";
   "refresh winning"; "refresh levels"; "printgoal "; "printegoals"; "winning "; "envnext "; "sysnext "; "sysnexta ";
   "restrict "; "relax "; "clear"; "blockenv "; "blocksys "; "getindex "].
(** the list of commands *)
Definition help_page : string := String.concat newline_text
  ["winning STATE"; "envnext STATE"; "sysnext STATE1 STATE2ENV GOALMODE"; "sysnexta STATE1 STATE2ENV";
   "restrict STATE1 STATE2"; "relax STATE1 STATE2"; "clear"; "blocksys STATESYS"; "blockenv STATEENV";
   "getindex STATE GOALMODE"; "refresh winning"; "refresh levels"; "addvar env (sys) VARIABLE"; "envvar"; "sysvar";
   "var"; "numgoals"; "printgoal GOALMODE"; "printegoals"; "enable (disable) autoreorder"; "quit"].
(** the text [s] is a formula, and can only be read as [f] *)
Definition shows (f : form) (s : string) : Prop :=
  exists ys, text_symbols s ys /\ derives false ys f /\ forall g, derives false ys g -> g = f.
(** variables with their places in a state, from [i] *)
Fixpoint placed (i : nat) (vs : list vdecl) : list string :=
  match vs with [] => [] | v :: r => (fst v ++ " (" ++ zdec (Z.of_nat i) ++ ")")%string :: placed (S i) r end.

Section SessionSpec.
  Variable F : fspec.
  Definition query_reply (q : query) (r : string) : Prop :=
    let ne := List.length (fs_evars F) in
    match q with
    | QHelp => r = help_page
    | QNumGoals => r = zdec (Z.of_nat (List.length (fs_sgoals F)))
    | QEnvVar => r = match fs_evars F with [] => "(none)" | vs => String.concat ", " (placed 0 vs) end
    | QSysVar => r = String.concat ", " (placed ne (fs_svars F))
    | QVar => r = String.concat ", " (placed 0 (fs_evars F ++ fs_svars F))
    | QGoal i => shows (nth i (fs_sgoals F) FTrue) r
    | QEnvGoals => exists ss, Forall2 shows (egoals1 F) ss /\
        r = (String.concat "" (map (fun s => (s ++ newline_text)%string) ss) ++ "---")%string
    | QReorder _ => r = ""
    | QOther s => r = ("Unrecognized command: " ++ s ++ newline_text)%string
    end.
  (** formulas of which C23 says that they can be printed *)
  Definition printable_goal (f : form) : Prop := writable f /\ clash_free f = true /\ fnexts f = [].
  Definition entry_ok (e : entry) : Prop :=
    String.length (entry_text e) < 256 /\
    match e with
    | Do c => valid F c
    | Ask (QGoal i) => i < List.length (fs_sgoals F) /\ printable_goal (nth i (fs_sgoals F) FTrue)
    | Ask QEnvGoals => forall f, In f (fs_egoals F) -> printable_goal f
    | Ask (QOther s) => has_newline s = false /\ forall w r, In w command_words -> s <> (w ++ r)%string
    | Ask _ => True
    end.
  (** [t] is what the session prints for the entries, from book [b] on *)
  Inductive conversation : book -> list entry -> string -> Prop :=
  | conv_end : forall b, conversation b [] ">>> "
  | conv_do : forall b c es a t, answers F b c a -> conversation (update F b c) es t ->
      conversation b (Do c :: es) (">>> " ++ answer_text a ++ t)%string
  | conv_ask : forall b q es r t, query_reply q r -> conversation b es t ->
      conversation b (Ask q :: es) (">>> " ++ r ++ newline_text ++ t)%string.
  Definition commands_of (es : list entry) : list command :=
    flat_map (fun e => match e with Do c => [c] | Ask _ => [] end) es.
  (** at some point sysnext is asked at a state from which there is nothing to list *)
  Definition gets_lost (es : list entry) : Prop :=
    exists h c t, es = h ++ Do c :: t /\ stuck F (book_after F (commands_of h)) c.
End SessionSpec.

(** without SYSGOAL the goal is True *)
Definition with_default_goal (R : rspec) : rspec := {|
  rs_evars := rs_evars R; rs_svars := rs_svars R; rs_einit := rs_einit R; rs_sinit := rs_sinit R;
  rs_etrans := rs_etrans R; rs_strans := rs_strans R; rs_egoals := rs_egoals R;
  rs_sgoals := match rs_sgoals R with [] => [FTrue] | l => l end |}.
Definition session_game (R : rspec) : fspec := fspec_of (with_default_goal R).
