(** The program from the text of a specification on, and what a text means.

    [gr1c_text] is a model of src/main.c:335-365 followed by [Main.gr1c_main]; the
    rest of the file is specification. *)
From Coq Require Import List ZArith Bool Ascii String.
From Verif Require Import Base Strs Ptree Form Support Solve FSpec Automaton Nonbool RSpec Main FormCheck ListSpec
  FormPrint AutIO Lex LexSpec Parse Syntax FileSpec.
Import ListNotations.
Open Scope string_scope.
Open Scope list_scope.
Open Scope Z_scope.

(** main.c:335-365: exit code 2 if the text cannot be parsed or if the check of the
    form fails *)
Inductive text_result := SyntaxError | FormError | Ran (r : main_result).
Definition gr1c_text (orc : oracle) (alloc : nat -> aut -> nat) (fuel : nat) (mode : run_mode)
    (flags : init_flags_t) (text : string) : out text_result :=
  p <- yyparse text ;;
  match p with
  | None => Ok SyntaxError
  | Some raw =>
      c <- check_gr1c_form raw flags ;;
      if fst c <? 0 then Ok FormError
      else r <- gr1c_main orc alloc fuel mode flags raw ;; Ok (Ran r)
  end.

(** ** The symbols of a text: the tokens, numbered as in gr1c_parse.y. A byte above 127 is
    passed to the parser as a negative number and ends the input. *)
Definition char_symbols : list (ascii * ysym) :=
  [("&", YAmp); ("|", YBar); ("!", YBang); ("=", YEq); ("'", YQuote); ("<", YLt); (">", YGt); ("(", YLpar); (")", YRpar);
   (";", YSemi); (",", YComma); ("[", YLbr); ("]", YRbr)]%char.
Definition word_symbols : list (token * ysym) :=
  [(E_VARS, Y_E_VARS); (S_VARS, Y_S_VARS); (E_INIT, Y_E_INIT); (E_TRANS, Y_E_TRANS); (E_GOAL, Y_E_GOAL);
   (S_INIT, Y_S_INIT); (S_TRANS, Y_S_TRANS); (S_GOAL, Y_S_GOAL); (TRUE_CONSTANT, YTrue); (FALSE_CONSTANT, YFalse);
   (LE_OP, YLe); (GE_OP, YGe); (NOT_EQUALS, YNe); (EQUIV, YIff); (IMPLIES, YImp); (SAFETY_OP, YSafety);
   (AND_SAFETY_OP, YAndSafety); (LIVENESS_OP, YLiveness); (AND_LIVENESS_OP, YAndLiveness); (EVENTUALLY_OP, YEventually)].
Inductive symbol_of : token -> ysym -> Prop :=
| so_word : forall t y, In (t, y) word_symbols -> symbol_of t y
| so_variable : forall x, symbol_of (VARIABLE x) (YVar x)
| so_number : forall z, symbol_of (NUMBER z) (YNum z)
| so_char : forall c y, In (c, y) char_symbols -> symbol_of (CH c) y
| so_other : forall c, (nat_of_ascii c < 128)%nat -> ~ In c (map fst char_symbols) -> symbol_of (CH c) YUNDEF.
Inductive as_symbols : list token -> list ysym -> Prop :=
| as_nil : as_symbols [] []
| as_end : forall c r, (128 <= nat_of_ascii c)%nat -> as_symbols (CH c :: r) []
| as_cons : forall t y r ys, symbol_of t y -> as_symbols r ys -> as_symbols (t :: r) (y :: ys).
Definition text_symbols (text : string) (ys : list ysym) : Prop :=
  exists ts, text_tokens text ts /\ as_symbols ts ys.

(** the symbols of the text spell sections meaning [R] *)
Definition text_means (text : string) (R : rspec) : Prop :=
  exists ys ss, text_symbols text ys /\ spelled_file ss ys /\ file_means ss = Some R.
Definition text_no_formula (text : string) : Prop :=
  forall ys, text_symbols text ys -> no_formula ys.

(** ** A text for every specification *)
Definition fprint (f : form) : string :=
  match print_formula FORMULA_SYNTAX_GR1C (tree_of f) with Ok s => s | _ => "" end.
Definition decl_text (d : vdecl) : string :=
  (" " ++ fst d ++ (if (snd d <? 0)%Z then "" else "[0," ++ zdec (snd d) ++ "]"))%string.
Fixpoint joined_text (j : string) (fs : list form) : string :=
  match fs with
  | [] => ""
  | [f] => fprint f
  | f :: r => (fprint f ++ j ++ joined_text j r)%string
  end.
Definition nl : string := String newline "".
Definition side_name (env : bool) : string := if env then "ENV" else "SYS".
Definition section_text (s : section) : string :=
  match s with
  | SVars env ds => (side_name env ++ ":" ++ String.concat "" (map decl_text ds) ++ ";" ++ nl)%string
  | SInit env None => (side_name env ++ "INIT:" ++ ";" ++ nl)%string
  | SInit env (Some f) => (side_name env ++ "INIT:" ++ fprint f ++ ";" ++ nl)%string
  | STrans env [] => (side_name env ++ "TRANS:" ++ ";" ++ nl)%string
  | STrans env fs => (side_name env ++ "TRANS:" ++ "[]" ++ joined_text "&[]" fs ++ ";" ++ nl)%string
  | SGoal env [] => (side_name env ++ "GOAL:" ++ ";" ++ nl)%string
  | SGoal env fs => (side_name env ++ "GOAL:" ++ "[]<>" ++ joined_text "&[]<>" fs ++ ";" ++ nl)%string
  end.
Definition file_text (ss : list section) : string := String.concat "" (map section_text ss).
(** the sections for [R]; the absent parts are left out *)
Definition opt_section (f : option form) (env : bool) : list section :=
  match f with None => [] | Some _ => [SInit env f] end.
Definition list_section (mk : list form -> section) (fs : list form) : list section :=
  match fs with [] => [] | _ => [mk fs] end.
Definition sections_of (R : rspec) : list section :=
  [SVars true (rs_evars R); SVars false (rs_svars R)] ++
  opt_section (rs_einit R) true ++ opt_section (rs_sinit R) false ++
  list_section (STrans true) (rs_etrans R) ++ list_section (STrans false) (rs_strans R) ++
  list_section (SGoal true) (rs_egoals R) ++ list_section (SGoal false) (rs_sgoals R).

(** everything in the section can be written down *)
Definition writable_form (t : bool) (f : form) : Prop :=
  writable f /\ clash_free f = true /\ (t = false -> fnexts f = []).
Definition writable_decl (d : vdecl) : Prop :=
  identifier (fst d) /\ -1 <= snd d < 2 ^ 31.
Definition writable_section (s : section) : Prop :=
  match s with
  | SVars _ ds => forall d, In d ds -> writable_decl d
  | SInit _ f => opt_all (writable_form false) f
  | STrans _ fs => forall f, In f fs -> writable_form true f
  | SGoal _ fs => forall f, In f fs -> writable_form false f
  end.
Definition writable_spec (R : rspec) : Prop :=
  NoDup (names (rs_vars R)) /\ forall s, In s (sections_of R) -> writable_section s.
