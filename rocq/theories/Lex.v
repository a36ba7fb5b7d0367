(** Model of src/gr1c_scan.l: the scanner. Flex chooses, among the rules that match at
    the current position, the one with the longest match, and the first of them in
    the file when several match equally long. Text is a string without NUL; source
    positions (yylloc) are left out. *)
From Coq Require Import List ZArith Bool Arith Ascii String.
From Verif Require Import Base Strs AutIO.
Import ListNotations.
Open Scope string_scope.
Open Scope nat_scope.

(** src/gr1c_parse.y:31-60 and the single characters *)
Inductive token :=
| E_VARS | S_VARS | E_INIT | E_TRANS | E_GOAL | S_INIT | S_TRANS | S_GOAL
| VARIABLE (s : string) | NUMBER (z : Z) | TRUE_CONSTANT | FALSE_CONSTANT
| LE_OP | GE_OP | NOT_EQUALS | EQUIV | IMPLIES
| SAFETY_OP | AND_SAFETY_OP | LIVENESS_OP | AND_LIVENESS_OP | EVENTUALLY_OP
| CH (c : ascii).

(** ** Patterns: the length of the match, [None] if there is none *)
Fixpoint drop (k : nat) (s : string) : string :=
  match k, s with
  | O, _ => s
  | S k', String _ r => drop k' r
  | S _, EmptyString => EmptyString
  end.
(** the longest run of characters in [p] *)
Fixpoint span (p : ascii -> bool) (s : string) : nat :=
  match s with
  | EmptyString => 0
  | String c r => if p c then S (span p r) else 0
  end.
Definition lit (l s : string) : option nat :=
  if String.prefix l s then Some (String.length l) else None.
Definition tab : ascii := "009"%char.
Definition blank (c : ascii) : bool := Ascii.eqb c " " || Ascii.eqb c tab.
Definition wspace (c : ascii) : bool := blank c || Ascii.eqb c return_char.
(** the characters [p]* followed by [l] *)
Definition run_lit (p : ascii -> bool) (l s : string) : option nat :=
  let k := span p s in
  match lit l (drop k s) with Some j => Some (k + j) | None => None end.
(** gr1c_scan.l:21: the first rules, '&' followed by blanks and [l] *)
Definition and_lit (l s : string) : option nat :=
  match s with
  | String c r => if Ascii.eqb c "&" then option_map S (run_lit blank l r) else None
  | EmptyString => None
  end.
Definition isalpha (c : ascii) : bool :=
  ((65 <=? nat_of_ascii c) && (nat_of_ascii c <=? 90)) ||
  ((97 <=? nat_of_ascii c) && (nat_of_ascii c <=? 122)).
Definition ident_start (c : ascii) : bool := isalpha c || Ascii.eqb c "_".
Definition ident_char (c : ascii) : bool := ident_start c || isdigit c || Ascii.eqb c ".".
(** gr1c_scan.l:21 identifier *)
Definition m_ident (s : string) : option nat :=
  match s with
  | String c r => if ident_start c then Some (S (span ident_char r)) else None
  | EmptyString => None
  end.
(** gr1c_scan.l:22 number *)
Definition m_number (s : string) : option nat :=
  let k := span isdigit s in
  if k =? 0 then None
  else match drop k s with
       | String c r => if Ascii.eqb c "." && negb (span isdigit r =? 0)
                       then Some (k + S (span isdigit r)) else Some k
       | EmptyString => Some k
       end.
(** a comment: '#' up to and including the next newline *)
Definition not_newline (c : ascii) : bool := negb (Ascii.eqb c newline).
Definition m_comment (s : string) : option nat :=
  match s with
  | String c r =>
      if Ascii.eqb c "#" then
        match drop (span not_newline r) r with
        | String _ _ => Some (S (S (span not_newline r)))
        | EmptyString => None
        end
      else None
  | EmptyString => None
  end.
Definition m_spaces (s : string) : option nat :=
  let k := span wspace s in if k =? 0 then None else Some k.
Definition m_char (p : ascii -> bool) (s : string) : option nat :=
  match s with
  | String c _ => if p c then Some 1 else None
  | EmptyString => None
  end.
Fixpoint mem (c : ascii) (s : string) : bool :=
  match s with EmptyString => false | String d r => Ascii.eqb c d || mem c r end.

(** what a rule does with the matched text: return a token, ignore the text, or
    ignore it and put the newline back *)
Inductive action := Return (f : string -> token) | Ignore | Unput.
Definition first_char (s : string) : ascii := match s with String c _ => c | _ => newline end.
Definition keyword (bol : bool) (l s : string) : option nat :=
  if bol then run_lit wspace l s else None.

(** gr1c_scan.l:26-70: the rules in order; [bol] tells whether the current position
    is the beginning of a line *)
Definition rules (bol : bool) : list ((string -> option nat) * action) := [
  (and_lit "[]<>", Return (fun _ => AND_LIVENESS_OP));
  (and_lit "[]", Return (fun _ => AND_SAFETY_OP));
  (lit "[]<>", Return (fun _ => LIVENESS_OP));
  (lit "[]", Return (fun _ => SAFETY_OP));
  (lit "<>", Return (fun _ => EVENTUALLY_OP));
  (lit "<=", Return (fun _ => LE_OP));
  (lit ">=", Return (fun _ => GE_OP));
  (lit "!=", Return (fun _ => NOT_EQUALS));
  (lit "<->", Return (fun _ => EQUIV));
  (lit "->", Return (fun _ => IMPLIES));
  (m_char (fun c => mem c "()&|!=';,<>"), Return (fun t => CH (first_char t)));
  (m_char (Ascii.eqb newline), Ignore);
  (lit "True", Return (fun _ => TRUE_CONSTANT));
  (lit "False", Return (fun _ => FALSE_CONSTANT));
  (keyword bol "ENV:", Return (fun _ => E_VARS));
  (keyword bol "SYS:", Return (fun _ => S_VARS));
  (keyword bol "ENVINIT:", Return (fun _ => E_INIT));
  (keyword bol "ENVTRANS:", Return (fun _ => E_TRANS));
  (keyword bol "ENVGOAL:", Return (fun _ => E_GOAL));
  (keyword bol "SYSINIT:", Return (fun _ => S_INIT));
  (keyword bol "SYSTRANS:", Return (fun _ => S_TRANS));
  (keyword bol "SYSGOAL:", Return (fun _ => S_GOAL));
  (m_ident, Return VARIABLE);
  (m_number, Return (fun t => NUMBER (to_int (fst (strtol t)))));
  (m_comment, Unput);
  (m_spaces, Ignore);
  (m_char not_newline, Return (fun t => CH (first_char t)))
].

(** longest match, the earliest rule on ties *)
Fixpoint best (rs : list ((string -> option nat) * action)) (s : string)
    : option (nat * action) :=
  match rs with
  | [] => None
  | (p, a) :: r =>
      match p s, best r s with
      | Some k, Some (k', a') => if k <? k' then Some (k', a') else Some (k, a)
      | Some k, None => Some (k, a)
      | None, b => b
      end
  end.
Definition ends_line (t : string) : bool :=
  match String.get (Nat.pred (String.length t)) t with
  | Some c => Ascii.eqb c newline
  | None => false
  end.
(** yylex called until the end of the text. The last rule and the newline rule match
    any character, so the scanner never jams ("nodefault" would then end the
    program). *)
Fixpoint yylex_all (fuel : nat) (bol : bool) (s : string) : out (list token) :=
  match s with
  | EmptyString => Ok []
  | _ =>
      match fuel with
      | O => Fuel
      | S f =>
          match best (rules bol) s with
          | None => Crash
          | Some (k, a) =>
              let t := substring 0 k s in
              match a with
              | Return g => l <- yylex_all f (ends_line t) (drop k s) ;; Ok (g t :: l)
              | Ignore => yylex_all f (ends_line t) (drop k s)
              | Unput => yylex_all f (ends_line t) (drop (Nat.pred k) s)
              end
          end
      end
  end.
(** [input]: the rest of the file; scanning starts at the beginning of a line *)
Definition yylex (input : string) : out (list token) := yylex_all (S (String.length input)) true input.
