(** Theorems on the scanner: C49.

    Reading guide. [yylex] is the scanner (Lex.v). LexSpec.v states the rules of
    gr1c_scan.l as regular expressions ([flex_rules], [matches]), the choice among them
    ([chosen]: the longest text, the earliest rule) and the tokens of a text
    ([text_tokens]); [laid_out] is a text made of spelled tokens with layout between. *)
From Coq Require Import List ZArith Bool Ascii String.
From Verif Require Import Base Strs Lex LexSpec LexRegex LexLayout Nonbool Parse.
Import ListNotations.
Open Scope string_scope.

(** C49. The scanner finds exactly the tokens that the rules describe. *)
Theorem C49_tokens : forall text ts, yylex text = Ok ts <-> text_tokens text ts.
Proof. exact scanner_exact. Qed.
Print Assumptions C49_tokens.
Theorem C49_one_answer : forall text, exists ts, text_tokens text ts /\ forall ts', text_tokens text ts' -> ts' = ts.
Proof. exact scanner_unique. Qed.
Print Assumptions C49_one_answer.
(** Layout between the tokens makes no difference. *)
Theorem C49_layout : forall l last, layout last -> well_spaced None l ->
  yylex (laid_out l last) = Ok (map (fun x : LexSpec.item => snd (fst x)) l).
Proof. intros l last H1 H2. exact (proj2 (scanner_exact _ _) (layout_ignored l last H1 H2)). Qed.
Print Assumptions C49_layout.
Theorem C49_same_parse : forall l last l' last', layout last -> well_spaced None l -> layout last' -> well_spaced None l' ->
  map (fun x : LexSpec.item => snd (fst x)) l = map (fun x : LexSpec.item => snd (fst x)) l' ->
  yyparse (laid_out l last) = yyparse (laid_out l' last').
Proof.
  intros l last l' last' H1 H2 H3 H4 E. unfold yyparse.
  rewrite (C49_layout l last H1 H2), (C49_layout l' last' H3 H4), E. reflexivity.
Qed.
Print Assumptions C49_same_parse.
Example C49_instance : well_spaced None ex_items /\
  laid_out ex_items "" = String TAB " ENV:a.1[ 0,# upper bound" ++ String LF " 7.5];" ++ String CR (String LF "  SYSTRANS: [](!a.1'<=03)")
    ++ String LF "&" ++ String TAB " [] True;" /\
  yylex (laid_out ex_items "") = Ok [E_VARS; VARIABLE "a.1"; CH "["; NUMBER 0; CH ","; NUMBER 7; CH "]"; CH ";";
    S_TRANS; SAFETY_OP; CH "("; CH "!"; VARIABLE "a.1"; CH "'"; LE_OP; NUMBER 3; CH ")"; AND_SAFETY_OP; TRUE_CONSTANT; CH ";"].
Proof. split; [exact ex_items_spaced|split; reflexivity]. Qed.
(** Where layout does matter: a line end or a comment between '&' and '[]', a section
    word that is not the first on its line, a comment on a last line without line end. *)
Theorem C49_layout_refuted :
  (exists g, layout g /\ yylex ("&" ++ g ++ "[]") = Ok [CH "&"; SAFETY_OP]) /\
  (exists g, layout g /\ yylex ("&" ++ g ++ "[]") = Ok [AND_SAFETY_OP]) /\
  yylex ("x; SYS:y;") = Ok [VARIABLE "x"; CH ";"; VARIABLE "SYS"; CH ":"; VARIABLE "y"; CH ";"] /\
  yylex ("x; # end" ++ String LF "") = Ok [VARIABLE "x"; CH ";"] /\
  yylex ("x; # end") = Ok [VARIABLE "x"; CH ";"; CH "#"; VARIABLE "end"].
Proof.
  split; [exists (String LF ""); split; [apply ly_line, ly_nil|reflexivity]|].
  split; [exists " "; split; [apply ly_space; [left; left; reflexivity|apply ly_nil]|reflexivity]|].
  repeat split.
Qed.
Print Assumptions C49_layout_refuted.
