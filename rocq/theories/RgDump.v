(** Model of option -p of gr1c-rg (src/rg_main.c:273-389), as PtDump.v for gr1c.

    spc.env_trans and spc.sys_trans are printed (lines 361 and 365) before they are set (lines
    402-422): spc is a global variable (rg_parse.y:16) and SPC_INIT (include/common.h:57-73)
    leaves them alone, so they are NULL, for which print_formula prints a warning on
    stderr. *)
From Coq Require Import List ZArith Bool Ascii String.
From Verif Require Import Base Strs Ptree Support Solve Automaton Nonbool Main FormCheck FormPrint AutIO Lex Parse Output Options Program RgParse Rg PtDump.
Import ListNotations.
Open Scope string_scope.
Open Scope Z_scope.

(** rg_main.c:274-296: the files and the trees *)
Definition rg_dump_list (sp : raw_t) : list (string * ptree) :=
  ([("env_init_ptree.dot", r_einit sp); ("sys_init_ptree.dot", r_sinit sp)] ++
   dump_array "env_trans" 0 (r_etrans sp) ++ dump_array "sys_trans" 0 (r_strans sp) ++
   dump_array "env_goal" 0 (r_egoals sp) ++
   match r_sgoals sp with [] => [] | g :: _ => [("sys_goal_ptree.dot", g)] end)%list.
(** rg_main.c:352-388; [et] and [st] are spc.env_trans and spc.sys_trans. Lines 298-350, the
    variables, are those of main.c ([echo_indices]). *)
Definition rg_echo (et st : ptree) (sp : raw_t) : out string :=
  ei <- print_formula FORMULA_SYNTAX_GR1C (r_einit sp) ;;
  si <- print_formula FORMULA_SYNTAX_GR1C (r_sinit sp) ;;
  e <- print_formula FORMULA_SYNTAX_GR1C et ;;
  s <- print_formula FORMULA_SYNTAX_GR1C st ;;
  eg <- print_array "[]<>" (r_egoals sp) ;;
  sg <- (match r_sgoals sp with [] => Ok "(none)" | g :: _ => t <- print_formula FORMULA_SYNTAX_GR1C g ;; Ok ("<> " ++ t) end) ;;
  Ok ("ENV INIT:  " ++ ei ++ nl ++ "SYS INIT:  " ++ si ++ nl ++
      "ENV TRANS:  [] " ++ e ++ nl ++ "SYS TRANS:  [] " ++ s ++ nl ++
      "ENV GOALS:  " ++ eg ++ nl ++ "SYS GOAL:  " ++ sg ++ nl).
(** rg_main.c:273-389 *)
Definition rg_dump_and_echo (W : world) (addr : string -> list bool -> Z) (sp : raw_t)
    : out (list (string * string) * string * bool) :=
  d <- dump_trees W addr (rg_dump_list sp) ;;
  if snd d then
    a <- echo_indices sp ;; b <- rg_echo NULL NULL sp ;; Ok (fst d, a ++ b, true)
  else Ok (fst d, "", false).
(** rg_main.c:224-389. [None]: the program returns before line 273. *)
Definition rg_dump_phase (W : world) (addr : string -> list bool -> Z) (o : opts) (text : string)
    : out (option (list (string * string) * string * bool)) :=
  p <- rg_yyparse text ;;
  match p with
  | None => Ok None
  | Some raw =>
      if (1 <? List.length (r_sgoals raw))%nat then Ok None
      else
        c <- check_gr1c_form raw (o_init o) ;;
        if fst c <? 0 then Ok None
        else match o_run o with
        | GR1C_MODE_SYNTAX => Ok None
        | _ => d <- rg_dump_and_echo W addr (rg_defaults raw) ;; Ok (Some d)
        end
  end.
(** main() with option -p allowed, as [gr1c_program_p] *)
Definition rg_program_p (orc : oracle) (alloc : nat -> aut -> nat) (ptr : nat -> string) (date : string)
    (addr : string -> list bool -> Z) (fuel : nat) (W : world) (args : list string)
    : out (list (string * string) * outcome) :=
  s <- rg_options args ;;
  match s with
  | Sub p a => Ok ([], Runs p a)
  | Stop c p => Ok ([], Prints c p)
  | Go o =>
      if negb (o_verbose o =? 0) || o_logging o then Ok ([], Other)
      else
        d <- (match o_ptdump o, open_input W (o_input o) with
              | true, Some text => rg_dump_phase W addr o text
              | _, _ => Ok None
              end) ;;
        match d with
        | None => r <- rg_rest orc alloc ptr date fuel W o ;; Ok ([], r)
        | Some (files, screen, true) => r <- rg_rest orc alloc ptr date fuel W o ;; Ok (files, put_before screen r)
        | Some (files, screen, false) => Ok (files, Exits (-1) screen None)
        end
  end.
