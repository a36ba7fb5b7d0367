(** Model of main() of src/main.c: from the command line to the exit code.

    Options.v models lines 93-311, Output.v (with Main.v, Parse.v, AutWrite.v, ...) lines
    335-738, Interactive.v and Spin.v what -i and -P lead to. Not modelled here: options that
    add output; the outcome [Other] stands for these runs. PtDump.v has -p, Verbose.v has -v once and -l. Messages on stderr are
    left out. If the output file cannot be opened the model still composes the texts, which
    are then dropped. *)
From Coq Require Import List ZArith Bool Ascii String.
From Verif Require Import Base Ptree Support Solve Automaton Nonbool Main FormCheck AutIO Lex Parse Output Options.
From Verif Require Spin Interactive.
Import ListNotations.
Open Scope string_scope.
Open Scope Z_scope.

(** what fopen( _, "r" ) and reading the file give, the text on stdin, and whether
    fopen( _, "w" ) succeeds *)
Record world := World { w_file : string -> option string; w_stdin : string; w_writable : string -> bool }.
(** the exit code, what is on stdout, the file that is written and its contents; or the
    usage or version message; or another program takes over *)
Inductive outcome :=
| Exits (code : Z) (stdout : string) (file : option (string * string))
| Prints (code : Z) (p : printed)
| Runs (program : string) (args : list string)
| Other.

(** main.c:324-333 *)
Definition open_input (W : world) (input : option string) : option string :=
  match input with Some f => w_file W f | None => Some (w_stdin W) end.
(** main.c:335-356 *)
Definition syntax_only (flags : init_flags_t) (text : string) : out outcome :=
  p <- yyparse text ;;
  match p with
  | None => Ok (Exits 2 "" None)
  | Some raw =>
      c <- check_gr1c_form raw flags ;;
      if fst c <? 0 then Ok (Exits 2 "" None) else Ok (Exits 0 "" None)
  end.
(** main.c:641-653: where the strategy goes *)
Definition deliver (W : world) (output : option string) (r : string * Z) : outcome :=
  if snd r =? 0 then
    match output with
    | None => Exits 0 (fst r) None
    | Some f => if w_writable W f then Exits 0 "" (Some (f, fst r)) else Exits (-1) "" None
    end
  else Exits (snd r) (fst r) None.
(** main.c:335-358, 510-590, 702-735 with -i: the specification is read from a file, the
    commands from stdin. levelset_interactive returns 1 or a negative number, which stands
    as [Crash] in Interactive.v and is not reached; so lines 583-589 are left out. *)
Definition gr1c_interact (orc : oracle) (fuel : nat) (flags : init_flags_t) (text commands : string) : out (string * Z) :=
  p <- yyparse text ;;
  match p with
  | None => Ok ("", 2)
  | Some raw =>
      c <- check_gr1c_form raw flags ;;
      if fst c <? 0 then Ok ("", 2)
      else
        r <- prepare fuel flags raw ;;
        match r with
        | None => Ok ("", -1)
        | Some (spc, NULL) => t <- Interactive.levelset_interactive spc orc fuel commands ;; Ok (t, 0)
        | Some _ => Ok ("", -1)                                      (* lines 575-580 *)
        end
  end.
(** main.c:335-738 with -P: the strategy, the verification model, and the exit code *)
Definition gr1c_run_verify (orc : oracle) (alloc : nat -> aut -> nat) (ptr : nat -> string) (date : string)
    (fuel : nat) (flags : init_flags_t) (fmt : output_format) (text : string) : out (string * string * Z) :=
  p <- yyparse text ;;
  match p with
  | None => Ok ("", "", 2)
  | Some raw =>
      c <- check_gr1c_form raw flags ;;
      if fst c <? 0 then Ok ("", "", 2)
      else
        r <- Spin.gr1c_verify orc alloc fuel flags raw ;;
        match fst r with
        | Strategy A ev sv =>
            s <- write_strategy ptr date fmt
                   (negb (is_null (nonbool_items (link (r_evars raw) (r_svars raw))))) A ev sv ;;
            Ok (s, snd r, 0)
        | NotRealizable => Ok ("", "", 3)
        | _ => Ok ("", "", -1)
        end
  end.
(** main.c:641-684: the strategy goes to the file (-P without -o has been refused), the
    verification model to stdout *)
Definition deliver_verify (W : world) (output : option string) (r : string * string * Z) : outcome :=
  match r with
  | (strategy, model, code) =>
      if code =? 0 then
        match output with
        | None => Exits 0 (strategy ++ model) None
        | Some f => if w_writable W f then Exits 0 model (Some (f, strategy)) else Exits (-1) "" None
        end
      else Exits code "" None
  end.
(** main.c:324-738 for given options: without -v, -l and -p *)
Definition gr1c_go (orc : oracle) (alloc : nat -> aut -> nat) (ptr : nat -> string) (date : string)
    (fuel : nat) (W : world) (o : opts) : out outcome :=
  match open_input W (o_input o) with
  | None => Ok (Exits (-1) "" None)                                  (* line 328 *)
  | Some text =>
      match o_run o with
      | GR1C_MODE_SYNTAX => syntax_only (o_init o) text
      | GR1C_MODE_REALIZABLE =>
          r <- gr1c_run orc alloc ptr date fuel MODE_REALIZABLE (o_init o) (o_format o) text ;;
          Ok (Exits (snd r) (fst r) None)
      | GR1C_MODE_INTERACTIVE =>
          r <- gr1c_interact orc fuel (o_init o) text (w_stdin W) ;;
          Ok (Exits (snd r) (fst r) None)
      | _ =>
          if o_promela o then
            r <- gr1c_run_verify orc alloc ptr date fuel (o_init o) (o_format o) text ;;
            Ok (deliver_verify W (o_output o) r)
          else
            r <- gr1c_run orc alloc ptr date fuel MODE_SYNTHESIS (o_init o) (o_format o) text ;;
            Ok (deliver W (o_output o) r)
      end
  end.
Definition gr1c_program (orc : oracle) (alloc : nat -> aut -> nat) (ptr : nat -> string) (date : string)
    (fuel : nat) (W : world) (args : list string) : out outcome :=
  s <- read_options args ;;
  match s with
  | Sub p a => Ok (Runs p a)
  | Stop c p => Ok (Prints c p)
  | Go o =>
      if negb (o_verbose o =? 0) || o_logging o || o_ptdump o then Ok Other
      else gr1c_go orc alloc ptr date fuel W o
  end.
