(** Specification: the concrete syntax of formulas and of specification files.

    Not a model of code. [derives] is the grammar of doc/spc_format.md and
    src/gr1c_parse.y taken literally: it is ambiguous. [reads] is the same grammar
    with the ambiguity resolved by binding strength: '!' binds tightest, then '&' and
    '|' on one level, then '->', then '<->', all of them associating to the left.
    [t] tells whether primed variables are allowed (transition rules). *)
From Coq Require Import List ZArith Bool Ascii String.
From Verif Require Import Base Strs Ptree Form RSpec Lex Parse.
Import ListNotations.
Open Scope string_scope.
Open Scope list_scope.

Definition cmp_sym (o : cmpop) : ysym :=
  match o with
  | CEq => YEq | CNe => YNe | CLt => YLt | CGt => YGt | CLe => YLe | CGe => YGe
  end.
(** formulas without an operator *)
Inductive atom (t : bool) : list ysym -> form -> Prop :=
| at_true : atom t [YTrue] FTrue
| at_false : atom t [YFalse] FFalse
| at_var x : atom t [YVar x] (FVar x)
| at_next x : t = true -> atom t [YVar x; YQuote] (FNext x)
| at_cmp x o k : atom t [YVar x; cmp_sym o; YNum k] (FCmp false x o k)
| at_ncmp x o k : t = true -> atom t [YVar x; YQuote; cmp_sym o; YNum k] (FCmp true x o k).

Inductive derives (t : bool) : list ysym -> form -> Prop :=
| de_atom ts f : atom t ts f -> derives t ts f
| de_paren ts f : derives t ts f -> derives t (YLpar :: ts ++ [YRpar]) f
| de_not ts f : derives t ts f -> derives t (YBang :: ts) (FNot f)
| de_and a f b g : derives t a f -> derives t b g -> derives t (a ++ YAmp :: b) (FAnd f g)
| de_or a f b g : derives t a f -> derives t b g -> derives t (a ++ YBar :: b) (FOr f g)
| de_imp a f b g : derives t a f -> derives t b g -> derives t (a ++ YImp :: b) (FImp f g)
| de_iff a f b g : derives t a f -> derives t b g -> derives t (a ++ YIff :: b) (FIff f g).

(** binding strength: formulas whose outermost operator outside parentheses binds at
    least as tight as the level says *)
Inductive level := LIff | LImp | LAnd | LUnit.
Inductive reads (t : bool) : level -> list ysym -> form -> Prop :=
| rd_atom ts f : atom t ts f -> reads t LUnit ts f
| rd_paren ts f : reads t LIff ts f -> reads t LUnit (YLpar :: ts ++ [YRpar]) f
| rd_not ts f : reads t LUnit ts f -> reads t LUnit (YBang :: ts) (FNot f)
| rd_unit ts f : reads t LUnit ts f -> reads t LAnd ts f
| rd_and a f b g : reads t LAnd a f -> reads t LUnit b g -> reads t LAnd (a ++ YAmp :: b) (FAnd f g)
| rd_or a f b g : reads t LAnd a f -> reads t LUnit b g -> reads t LAnd (a ++ YBar :: b) (FOr f g)
| rd_andl ts f : reads t LAnd ts f -> reads t LImp ts f
| rd_imp a f b g : reads t LImp a f -> reads t LAnd b g -> reads t LImp (a ++ YImp :: b) (FImp f g)
| rd_impl ts f : reads t LImp ts f -> reads t LIff ts f
| rd_iff a f b g : reads t LIff a f -> reads t LImp b g -> reads t LIff (a ++ YIff :: b) (FIff f g).

(** names and numbers that can be written: an identifier is a letter or '_' followed
    by letters, digits, '_' and '.', and is not True or False; numbers fit in an int *)
Fixpoint all_chars (p : ascii -> bool) (s : string) : bool :=
  match s with EmptyString => true | String c r => p c && all_chars p r end.
Definition identifier (x : string) : Prop :=
  (match x with
   | EmptyString => False
   | String c r => ident_start c = true /\ all_chars ident_char r = true
   end) /\ x <> "True" /\ x <> "False".
Definition int_number (k : Z) : Prop := (0 <= k < 2 ^ 31)%Z.
Fixpoint writable (f : form) : Prop :=
  match f with
  | FTrue | FFalse => True
  | FVar x | FNext x => identifier x
  | FCmp _ x _ k => identifier x /\ int_number k
  | FNot f => writable f
  | FAnd f g | FOr f g | FImp f g | FIff f g => writable f /\ writable g
  end.
(** no connective joins one of the constants directly with a variable *)
Definition is_const (f : form) : bool := match f with FTrue | FFalse => true | _ => false end.
Definition is_var (f : form) : bool := match f with FVar _ | FNext _ => true | _ => false end.
Definition clash (f g : form) : bool := (is_const f && is_var g) || (is_var f && is_const g).
Fixpoint clash_free (f : form) : bool :=
  match f with
  | FNot f => clash_free f
  | FAnd f g | FOr f g | FImp f g | FIff f g => clash_free f && clash_free g && negb (clash f g)
  | _ => true
  end.

(** reading a text that consists of one formula *)
Definition read_formula (t : bool) (text : string) : out (option ptree) :=
  ts <- yylex text ;;
  Ok (match formula t NULL (symbols ts) with
      | Some (tr, []) => Some tr
      | _ => None
      end).
