(** The scanner of specification files, stated with regular expressions: the rules of
    src/gr1c_scan.l:21-70 as printed there and the way flex chooses among them. Nothing
    here uses the matching functions of Lex.v, only its type of tokens. *)
From Coq Require Import List ZArith Bool Arith Ascii String.
From Verif Require Import Base Strs Lex.
Import ListNotations.
Open Scope string_scope.
Open Scope nat_scope.

(** ** Regular expressions and the texts they match *)
Inductive re :=
| Chr (p : ascii -> Prop)          (* one character *)
| Nil                               (* the empty text *)
| Cat (r1 r2 : re)
| Opt (r : re)
| Star (r : re).
Inductive matches : re -> string -> Prop :=
| m_chr : forall (p : ascii -> Prop) c, p c -> matches (Chr p) (String c "")
| m_nil : matches Nil ""
| m_cat : forall r1 r2 s1 s2, matches r1 s1 -> matches r2 s2 -> matches (Cat r1 r2) (s1 ++ s2)
| m_opt0 : forall r, matches (Opt r) ""
| m_opt1 : forall r s, matches r s -> matches (Opt r) s
| m_star0 : forall r, matches (Star r) ""
| m_star1 : forall r s1 s2, matches r s1 -> matches (Star r) s2 -> matches (Star r) (s1 ++ s2).
Definition Plus (r : re) : re := Cat r (Star r).
(** a literal text in quotes *)
Fixpoint quoted (l : string) : re :=
  match l with
  | EmptyString => Nil
  | String c r => Cat (Chr (fun d => d = c)) (quoted r)
  end.

(** every character of the text is in [p] *)
Fixpoint allc (p : ascii -> Prop) (s : string) : Prop :=
  match s with EmptyString => True | String c r => p c /\ allc p r end.

(** ** Character classes: codes of the characters *)
Definition code_between (lo hi : ascii) (c : ascii) : Prop :=
  nat_of_ascii lo <= nat_of_ascii c <= nat_of_ascii hi.
Definition letter_or__ (c : ascii) : Prop := code_between "a" "z" c \/ code_between "A" "Z" c \/ c = "_"%char.
Definition dec_digit (c : ascii) : Prop := code_between "0" "9" c.
Definition word_char (c : ascii) : Prop := letter_or__ c \/ dec_digit c \/ c = "."%char.
Definition TAB : ascii := ascii_of_nat 9.
Definition LF : ascii := ascii_of_nat 10.
Definition CR : ascii := ascii_of_nat 13.
Definition space_tab (c : ascii) : Prop := c = " "%char \/ c = TAB.
Definition space_tab_cr (c : ascii) : Prop := space_tab c \/ c = CR.
Definition punctuation (c : ascii) : Prop :=
  In c ["("; ")"; "&"; "|"; "!"; "="; "'"; ";"; ","; "<"; ">"]%char.
Definition any (c : ascii) : Prop := c <> LF.

(** ** The rules in the order of the file: [true] for a rule that begins with ^, the
    regular expression, and what is done with the matched text *)
Inductive effect := Gives (f : string -> token) | Drops | Drops_keeping_newline.
Definition first_of (t : string) : ascii := match String.get 0 t with Some c => c | None => LF end.
(** strtol of a text that starts with digits: the value of the digits, cut off at
    LONG_MAX, stored in an int *)
Fixpoint leading_digits (acc : Z) (t : string) : Z :=
  match t with
  | String c r => if (48 <=? nat_of_ascii c) && (nat_of_ascii c <=? 57)
                  then leading_digits (10 * acc + Z.of_nat (nat_of_ascii c - 48)) r else acc
  | EmptyString => acc
  end.
Definition as_int (z : Z) : Z := ((z + 2 ^ 31) mod 2 ^ 32 - 2 ^ 31)%Z.
Definition number_of (t : string) : Z := as_int (Z.min (leading_digits 0 t) (2 ^ 63 - 1)).
Definition identifier_re : re := Cat (Chr letter_or__) (Star (Chr word_char)).
Definition number_re : re :=
  Cat (Plus (Chr dec_digit)) (Opt (Cat (Chr (fun c => c = "."%char)) (Plus (Chr dec_digit)))).
Definition section_word (w : string) : re := Cat (Star (Chr space_tab_cr)) (quoted w).
Definition flex_rules : list (bool * re * effect) := [
  (false, Cat (quoted "&") (Cat (Star (Chr space_tab)) (quoted "[]<>")), Gives (fun _ => AND_LIVENESS_OP));
  (false, Cat (quoted "&") (Cat (Star (Chr space_tab)) (quoted "[]")), Gives (fun _ => AND_SAFETY_OP));
  (false, quoted "[]<>", Gives (fun _ => LIVENESS_OP));
  (false, quoted "[]", Gives (fun _ => SAFETY_OP));
  (false, quoted "<>", Gives (fun _ => EVENTUALLY_OP));
  (false, quoted "<=", Gives (fun _ => LE_OP));
  (false, quoted ">=", Gives (fun _ => GE_OP));
  (false, quoted "!=", Gives (fun _ => NOT_EQUALS));
  (false, quoted "<->", Gives (fun _ => EQUIV));
  (false, quoted "->", Gives (fun _ => IMPLIES));
  (false, Chr punctuation, Gives (fun t => CH (first_of t)));
  (false, Chr (fun c => c = LF), Drops);
  (false, quoted "True", Gives (fun _ => TRUE_CONSTANT));
  (false, quoted "False", Gives (fun _ => FALSE_CONSTANT));
  (true, section_word "ENV:", Gives (fun _ => E_VARS));
  (true, section_word "SYS:", Gives (fun _ => S_VARS));
  (true, section_word "ENVINIT:", Gives (fun _ => E_INIT));
  (true, section_word "ENVTRANS:", Gives (fun _ => E_TRANS));
  (true, section_word "ENVGOAL:", Gives (fun _ => E_GOAL));
  (true, section_word "SYSINIT:", Gives (fun _ => S_INIT));
  (true, section_word "SYSTRANS:", Gives (fun _ => S_TRANS));
  (true, section_word "SYSGOAL:", Gives (fun _ => S_GOAL));
  (false, identifier_re, Gives VARIABLE);
  (false, number_re, Gives (fun t => NUMBER (number_of t)));
  (false, Cat (quoted "#") (Cat (Star (Chr any)) (Chr (fun c => c = LF))), Drops_keeping_newline);
  (false, Plus (Chr space_tab_cr), Drops);
  (false, Chr any, Gives (fun t => CH (first_of t)))
].

(** ** Choice of the rule: rule [i] matches the text [t] in front of [rest] *)
Definition applies (bol : bool) (s : string) (i : nat) (t rest : string) : Prop :=
  exists at_bol r e, nth_error flex_rules i = Some (at_bol, r, e) /\
    s = t ++ rest /\ t <> "" /\ matches r t /\ (at_bol = true -> bol = true).
Definition chosen (bol : bool) (s : string) (i : nat) (t rest : string) : Prop :=
  applies bol s i t rest /\
  forall j t' rest', applies bol s j t' rest' ->
    String.length t' < String.length t \/ (String.length t' = String.length t /\ i <= j).

(** ** The tokens of a text. [bol]: the last character matched was a newline, or the text begins here *)
Definition newline_last (t : string) : Prop := exists u, t = u ++ String LF "".
Inductive tokens : bool -> string -> list token -> Prop :=
| tk_end : forall bol, tokens bol "" []
| tk_gives : forall bol b s i t rest w r f ts, chosen bol s i t rest ->
    nth_error flex_rules i = Some (w, r, Gives f) -> (b = true <-> newline_last t) ->
    tokens b rest ts -> tokens bol s (f t :: ts)
| tk_drops : forall bol b s i t rest w r ts, chosen bol s i t rest ->
    nth_error flex_rules i = Some (w, r, Drops) -> (b = true <-> newline_last t) ->
    tokens b rest ts -> tokens bol s ts
| tk_comment : forall bol s i t rest w r ts, chosen bol s i (t ++ String LF "") rest ->
    nth_error flex_rules i = Some (w, r, Drops_keeping_newline) ->
    tokens true (String LF rest) ts -> tokens bol s ts.
Definition text_tokens (s : string) (ts : list token) : Prop := tokens true s ts.

(** ** Layout: spaces, line ends and comments *)
Inductive layout : string -> Prop :=
| ly_nil : layout ""
| ly_space : forall c g, space_tab_cr c -> layout g -> layout (String c g)
| ly_line : forall g, layout g -> layout (String LF g)
| ly_comment : forall t g, allc any t -> layout g -> layout ("#" ++ t ++ String LF g).
(** how the tokens that occur in specifications are written *)
Definition section_words : list (string * token) :=
  [("ENV:", E_VARS); ("SYS:", S_VARS); ("ENVINIT:", E_INIT); ("ENVTRANS:", E_TRANS); ("ENVGOAL:", E_GOAL);
   ("SYSINIT:", S_INIT); ("SYSTRANS:", S_TRANS); ("SYSGOAL:", S_GOAL)].
Definition fixed_words : list (string * token) :=
  [("[]<>", LIVENESS_OP); ("[]", SAFETY_OP); ("<>", EVENTUALLY_OP); ("<=", LE_OP); (">=", GE_OP); ("!=", NOT_EQUALS);
   ("<->", EQUIV); ("->", IMPLIES); ("True", TRUE_CONSTANT); ("False", FALSE_CONSTANT)].
Definition joined_words : list (string * token) := [("[]<>", AND_LIVENESS_OP); ("[]", AND_SAFETY_OP)].
Inductive spells : token -> string -> Prop :=
| sp_variable : forall x, matches identifier_re x -> x <> "True" -> x <> "False" -> spells (VARIABLE x) x
| sp_number : forall s, matches number_re s -> spells (NUMBER (number_of s)) s
| sp_fixed : forall s t, In (s, t) fixed_words -> spells t s
| sp_joined : forall b s t, In (s, t) joined_words -> allc space_tab b -> spells t ("&" ++ b ++ s)
| sp_char : forall c, punctuation c \/ In c ["["; "]"]%char -> spells (CH c) (String c "")
| sp_section : forall s t, In (s, t) section_words -> spells t s.
(** two spellings that do not run into one another *)
Definition op_char (c : ascii) : Prop := In c ["&"; "!"; "<"; ">"; "="; "["; "]"; "-"]%char.
Definition apart (s1 s2 : string) : Prop := forall u1 c1 c2 u2, s1 = u1 ++ String c1 "" -> s2 = String c2 u2 ->
  ~ (word_char c1 /\ word_char c2) /\ ~ (op_char c1 /\ op_char c2).
(** layout, token, spelling; [prev]: the spelling before, if there is one *)
Definition item := (string * token * string)%type.
Fixpoint well_spaced (prev : option string) (l : list item) : Prop :=
  match l with
  | [] => True
  | (g, t, s) :: r =>
      layout g /\ spells t s /\
      (In t (map snd section_words) -> prev = None \/ exists g1 g2, g = g1 ++ String LF g2) /\
      (forall p, prev = Some p -> g = "" -> apart p s) /\
      (prev = Some "&" -> allc space_tab g -> forall u, s <> String "[" u) /\
      well_spaced (Some s) r
  end.
Fixpoint laid_out (l : list item) (last : string) : string :=
  match l with
  | [] => last
  | (g, _, s) :: r => g ++ s ++ laid_out r last
  end.
