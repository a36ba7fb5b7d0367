(** Model of option -p of gr1c-patch (exp/grpatch.c:301-304 and 403-492).

    The functions that write a parse tree and a specification are those of PtDump.v. Files
    that have been written are there when files are opened for reading later on. *)
From Coq Require Import List ZArith Bool Ascii String.
From Verif Require Import Base Strs Ptree Support Solve Automaton Nonbool Main FormCheck FormPrint AutIO Lex Parse Output Options Program PtDump GrPatch.
Import ListNotations.
Open Scope string_scope.
Open Scope Z_scope.

(** the file system after the files [fs] have been written, the last one last *)
Definition written (W : world) (fs : list (string * string)) : world :=
  World (fun f => match find (fun x => String.eqb (fst x) f) (rev fs) with Some x => Some (snd x) | None => w_file W f end)
    (w_stdin W) (w_writable W).

(** grpatch.c:439-456 (and 464-481): the loop over a list of variables. The test for a Boolean
    variable is value == 0, where main.c:428 has value == -1. *)
Fixpoint patch_echo_vars (i : nat) (l : ptree) : out string :=
  match l with
  | NULL => Ok ""
  | pnd _ n v lch _ =>
      match n with
      | None => Crash
      | Some x =>
          let comma := match lch with NULL => "" | _ => ", " end in
          r <- patch_echo_vars (S i) lch ;;
          Ok (x ++ " (" ++ zdec (Z.of_nat i) ++
              (if v =? 0 then "; bool)" else "; {0.." ++ zdec v ++ "})") ++ comma ++ r)
      end
  end.
Definition patch_echo_list (i : nat) (l : ptree) : out string :=
  match l with NULL => Ok "(none)" | _ => patch_echo_vars i l end.
(** grpatch.c:432-484 *)
Definition patch_echo (sp : raw_t) : out string :=
  e <- patch_echo_list 0 (r_evars sp) ;;
  s <- patch_echo_list (tree_size (r_evars sp)) (r_svars sp) ;;
  Ok ("Environment variables (indices; domains): " ++ e ++ nl ++ nl ++
      "System variables (indices; domains): " ++ s ++ nl ++ nl).
(** grpatch.c:403-492: what is written to the files and to stdout, and whether the program is
    still running *)
Definition patch_dump_and_echo (W : world) (addr : string -> list bool -> Z) (sp : raw_t)
    : out (list (string * string) * string * bool) :=
  d <- dump_trees W addr (dump_list sp) ;;
  if snd d then
    a <- patch_echo sp ;; b <- print_GR1_spec sp ;; Ok (fst d, a ++ b, true)
  else Ok (fst d, "", false).
(** grpatch.c:322-492. [None]: the program returns before it comes to line 403. *)
Definition patch_dump_phase (W : world) (addr : string -> list bool -> Z) (clf : ptree) (text : string)
    : out (option (list (string * string) * string * bool)) :=
  p <- yyparse text ;;
  match p with
  | None => Ok None
  | Some raw =>
      c <- check_gr1c_form raw UNDEFINED_INIT ;;
      if fst c <? 0 then Ok None
      else
        b <- check_vars clf (clf_list raw) NULL ;;
        match b with
        | Some _ => Ok None
        | None => d <- patch_dump_and_echo W addr (with_defaults raw) ;; Ok (Some d)
        end
  end.
(** main() with option -p allowed: the DOT files that are written, and the outcome. The text
    is parsed in [patch_dump_phase] and again in [patch_answer]; the program parses it once. *)
Definition patch_program_p (orc : oracle) (alloc : nat -> aut -> nat) (ptr : nat -> string) (date : string) (broken : string -> ptree)
    (addr : string -> list bool -> Z) (fuel : nat) (W : world) (args : list string)
    : out (list (string * string) * outcome) :=
  s <- patch_options args ;;
  match s with
  | PStop c p => Ok ([], Prints c p)
  | PGo o =>
      if negb (po_verbose o =? 0) || po_logging o then Ok ([], Other)
      else
        clf <- clf_parse broken (po_formula o) ;;
        first <- dump_trees W addr
          (if po_ptdump o then match po_formula o with Some _ => [("clformula_ptree.dot", clf)] | None => [] end
           else []) ;;                                                           (* 301-304 *)
        if negb (snd first) then Ok (fst first, Exits (-1) "" None)
        else
          let W1 := written W (fst first) in
          match open_input W1 (po_input o) with
          | None => Ok (fst first, Exits (-1) "" None)                           (* 316-320 *)
          | Some text =>
              d <- (if po_ptdump o then patch_dump_phase W1 addr clf text else Ok None) ;;
              match d with
              | None => r <- patch_answer orc alloc ptr date fuel W1 o clf text ;; Ok (fst first, r)
              | Some (files, screen, true) =>
                  r <- patch_answer orc alloc ptr date fuel (written W1 files) o clf text ;;
                  Ok ((fst first ++ files)%list, put_before screen r)
              | Some (files, screen, false) => Ok ((fst first ++ files)%list, Exits (-1) screen None)
              end
          end
  end.
