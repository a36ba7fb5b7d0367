(** Model of src/main.c:335-365 and 594-738 for the modes that decide and that
    synthesize: from the text of the specification to standard output and exit code.

    Without -v, -l, -s, -p, -P, and without -o (the strategy goes to stdout; with -o the
    same text goes to the file). Messages on stderr are left out. A return value -1
    of main is the exit code 255 and stands here as -1. *)
From Coq Require Import List ZArith Bool Ascii String.
From Verif Require Import Base Strs Ptree Support Solve Automaton Nonbool Main FormCheck AutIO AutWrite Lex Parse TextSpec.
Import ListNotations.
Open Scope string_scope.
Open Scope list_scope.
Open Scope Z_scope.

(** main.c:37-41 *)
Inductive output_format := FORMAT_TEXT | FORMAT_TULIP | FORMAT_DOT | FORMAT_AUT | FORMAT_JSON.

(** main.c:655-671: the values returned by the writers are not looked at. [nonbool]:
    spc.nonbool_var_list != NULL *)
Definition write_strategy (ptr : nat -> string) (date : string) (fmt : output_format) (nonbool : bool)
    (strategy : aut) (evar_list svar_list : ptree) : out string :=
  let state_len := Z.of_nat (tree_size evar_list + tree_size svar_list) in
  match fmt with
  | FORMAT_TEXT => list_aut_dump strategy state_len
  | FORMAT_DOT =>
      r <- (if nonbool then dot_aut_dump (DotFlags false false true) strategy evar_list svar_list
            else dot_aut_dump (DotFlags true false true) strategy evar_list svar_list) ;;
      Ok (fst r)
  | FORMAT_AUT => aut_aut_dump strategy state_len
  | FORMAT_JSON => r <- json_aut_dump ptr date strategy evar_list svar_list ;; Ok (fst r)
  | FORMAT_TULIP => r <- tulip_aut_dump strategy evar_list svar_list ;; Ok (fst r)
  end.

(** what is printed, and the exit code. In the last stage of the preparation an
    error has the code -1 or 2 (main.c:526, 542, 553); [Main] does not tell which, it
    stands here as -1. *)
Definition gr1c_run (orc : oracle) (alloc : nat -> aut -> nat) (ptr : nat -> string) (date : string)
    (fuel : nat) (mode : run_mode) (flags : init_flags_t) (fmt : output_format) (text : string) : out (string * Z) :=
  p <- yyparse text ;;
  match p with
  | None => Ok ("", 2)                                       (* line 343 *)
  | Some raw =>
      c <- check_gr1c_form raw flags ;;
      if fst c <? 0 then Ok ("", 2)                          (* line 352 *)
      else
        r <- gr1c_main orc alloc fuel mode flags raw ;;
        match r with
        | SpecError => Ok ("", -1)
        | NotRealizable =>                                   (* lines 596-602, 733-737 *)
            Ok (match mode with MODE_REALIZABLE => ("Not realizable." ++ nl)%string | MODE_SYNTHESIS => "" end, 3)
        | Realizable => Ok (("Realizable." ++ nl)%string, 0)
        | SynthFailed => Ok ("", -1)                         (* lines 620-623 *)
        | Strategy A ev sv =>
            s <- write_strategy ptr date fmt
                   (negb (is_null (nonbool_items (link (r_evars raw) (r_svars raw))))) A ev sv ;;
            Ok (s, 0)
        end
  end.
