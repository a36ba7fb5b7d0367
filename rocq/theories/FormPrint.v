(** Model of src/ptree.c:807-964, print_formula. The result is the text written to
    [fp]; warnings on stderr are left out. A NULL name, which printf("%s") may not
    be given, is a crash. *)
From Coq Require Import List ZArith Bool Ascii String.
From Verif Require Import Base Strs Ptree.
Import ListNotations.
Open Scope string_scope.
Open Scope Z_scope.

(** include/ptree.h:86-87 *)
Inductive formula_syntax := FORMULA_SYNTAX_GR1C | FORMULA_SYNTAX_SPIN.

(** ptree.c:907-951: the operator between the two operands *)
Definition op_text (fmt : formula_syntax) (t : ty) : string :=
  match t, fmt with
  | PT_AND, FORMULA_SYNTAX_GR1C => "&"
  | PT_AND, FORMULA_SYNTAX_SPIN => "&&"
  | PT_OR, FORMULA_SYNTAX_GR1C => "|"
  | PT_OR, FORMULA_SYNTAX_SPIN => "||"
  | PT_IMPLIES, _ => "->"
  | PT_EQUIV, _ => "<->"
  | PT_EQUALS, FORMULA_SYNTAX_GR1C => "="
  | PT_EQUALS, FORMULA_SYNTAX_SPIN => "=="
  | PT_NOTEQ, _ => "!="
  | PT_LT, _ => "<"
  | PT_GT, _ => ">"
  | PT_GE, _ => ">="
  | PT_LE, _ => "<="
  | _, _ => ""
  end.
(** ptree.c:855-858 (and 952-955 with the roles exchanged): [c] is a constant, [v] a
    variable whose value field is not negative; the constant is then printed as a
    number. [None] otherwise. *)
Definition number_beside (c v : ptree) : option Z :=
  match c, v with
  | pnd tc _ k _ _, pnd tv _ d _ _ =>
      if isvar tv && ty_eqb tc PT_CONSTANT && (0 <=? d) then Some k else None
  | _, _ => None
  end.

Fixpoint print_formula (fmt : formula_syntax) (head : ptree) : out string :=
  match head with
  | NULL => Ok ""
  | pnd t n v l r =>
      match t, fmt with
      | PT_IMPLIES, FORMULA_SYNTAX_SPIN =>
          a <- print_formula fmt l ;; b <- print_formula fmt r ;;
          Ok ("(!" ++ a ++ "||" ++ b ++ ")")
      | PT_EQUIV, FORMULA_SYNTAX_SPIN =>
          a <- print_formula fmt l ;; b <- print_formula fmt r ;;
          Ok ("((" ++ a ++ "&&" ++ b ++ ")||(!" ++ a ++ "&&!" ++ b ++ "))")
      | PT_AND, _ | PT_OR, _ | PT_IMPLIES, _ | PT_EQUIV, _ | PT_EQUALS, _ | PT_NOTEQ, _
      | PT_LT, _ | PT_GT, _ | PT_GE, _ | PT_LE, _ =>
          a <- (match number_beside l r with
                | Some k => Ok (zdec k)
                | None => print_formula fmt l
                end) ;;
          b <- (match number_beside r l with
                | Some k => Ok (zdec k)
                | None => print_formula fmt r
                end) ;;
          Ok ("(" ++ a ++ op_text fmt t ++ b ++ ")")
      | PT_NEG, _ => a <- print_formula fmt r ;; Ok ("(!" ++ a ++ ")")
      | PT_VARIABLE, _ => match n with None => Crash | Some x => Ok x end
      | PT_NEXT_VARIABLE, FORMULA_SYNTAX_SPIN =>
          match n with None => Crash | Some x => Ok (x ++ "_next") end
      | PT_NEXT_VARIABLE, FORMULA_SYNTAX_GR1C =>
          match n with None => Crash | Some x => Ok (x ++ "'") end
      | PT_CONSTANT, _ =>
          Ok (if v =? 0 then
                match fmt with FORMULA_SYNTAX_SPIN => "false" | FORMULA_SYNTAX_GR1C => "False" end
              else if v =? 1 then
                match fmt with FORMULA_SYNTAX_SPIN => "true" | FORMULA_SYNTAX_GR1C => "True" end
              else zdec v)
      | PT_EMPTY, _ => Ok ""
      end
  end.
