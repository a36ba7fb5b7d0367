(** Theorems: the plain list (C51), Graphviz DOT (C52) and TuLiP XML (C53) descriptions
    of a strategy. *)
From Coq Require Import List ZArith Lia Bool Ascii String.
From Verif Require Import Base Strs Ptree Form Automaton AutIOSpec AutWrite Output JsonSpec FormatSpec WriteProofs DotProofs
  DotInj XmlProofs FormatProofs FormatExamples.
Import ListNotations.
Open Scope string_scope.
Open Scope list_scope.
Open Scope Z_scope.

(** C51: one line for each node *)
Theorem C51_written : forall A n, states_fit n A -> closed_aut A ->
  exists rows, numbered A rows /\ list_aut_dump A (Z.of_nat n) = Ok (list_file rows).
Proof. exact list_shape. Qed.
Print Assumptions C51_written.
(** C51: nothing is lost *)
Theorem C51_determines : forall A A' n n' text, states_fit n A -> closed_aut A -> states_fit n' A' -> closed_aut A' ->
  list_aut_dump A (Z.of_nat n) = Ok text -> list_aut_dump A' (Z.of_nat n') = Ok text ->
  exists rows, numbered A rows /\ numbered A' rows.
Proof. exact list_determines. Qed.
Print Assumptions C51_determines.

(** C52: the graph that is written, if no identifier is too long *)
Theorem C52_written : forall f E S A, closed_aut A -> states_fit (List.length (E ++ S)) A ->
  exists rows, numbered A rows /\
    ((forall r, In r rows -> dot_short (style_of f) E S r) ->
       dot_aut_dump f A (vlist E) (vlist S) = Ok (dot_file (dot_statements (style_of f) E S rows), 0)) /\
    ((exists r, In r rows /\ ~ dot_short (style_of f) E S r) ->
       exists text, dot_aut_dump f A (vlist E) (vlist S) = Ok (text, -1)).
Proof. exact dot_shape. Qed.
Print Assumptions C52_written.
(** C52: one node for each node of the strategy; edges only between them *)
Theorem C52_graph : forall s E S A rows, closed_aut A -> numbered A rows ->
  List.length (node_ids (dot_statements s E S rows)) = List.length A /\
  NoDup (node_ids (dot_statements s E S rows)) /\ ~ In "" (node_ids (dot_statements s E S rows)) /\
  forall a b l, In (DotEdge a b l) (dot_statements s E S rows) ->
    (a = "" \/ In a (node_ids (dot_statements s E S rows))) /\ In b (node_ids (dot_statements s E S rows)).
Proof. exact dot_graph. Qed.
Print Assumptions C52_graph.
(** C52: nothing is lost, with the flags that the program uses *)
Theorem C52_determines : forall f E S A A' text, DOT_AUT_ATTRIB f = true -> DOT_AUT_EDGEINPUT f = false ->
  good_names (E ++ S) -> NoDup (map fst (E ++ S)) ->
  closed_aut A -> states_fit (List.length (E ++ S)) A -> closed_aut A' -> states_fit (List.length (E ++ S)) A' ->
  (DOT_AUT_BINARY f = true -> forall x, In x (A ++ A') -> bits (astate x)) ->
  dot_aut_dump f A (vlist E) (vlist S) = Ok (text, 0) -> dot_aut_dump f A' (vlist E) (vlist S) = Ok (text, 0) ->
  exists rows, numbered A rows /\ numbered A' rows.
Proof. exact dot_determines. Qed.
Print Assumptions C52_determines.
(** C52: with an identifier that is too long, the text ends before that node *)
Theorem C52_cut : forall f E S A, closed_aut A -> states_fit (List.length (E ++ S)) A ->
  forall rows, numbered A rows -> NoDup (map aid A) -> (exists r, In r rows /\ ~ dot_short (style_of f) E S r) ->
  exists text r missing, dot_aut_dump f A (vlist E) (vlist S) = Ok (text, -1) /\
    In r rows /\ ~ dot_short (style_of f) E S r /\
    (text ++ all_of (map statement_text (DotNode (dot_id (style_of f) E S r) :: missing)) ++ "}" ++ line_end)%string =
    dot_file (dot_statements (style_of f) E S rows).
Proof. exact dot_cut_shape. Qed.
Print Assumptions C52_cut.
(** C52: the program takes no notice of this: its output need not be a graph *)
Theorem C52_truncated_refuted : exists E S A ptr date nonbool text,
  good_names (E ++ S) /\ NoDup (map fst (E ++ S)) /\ closed_aut A /\ states_fit (List.length (E ++ S)) A /\
  write_strategy ptr date FORMAT_DOT nonbool A (vlist E) (vlist S) = Ok text /\ forall l, text <> dot_file l.
Proof. exact dot_truncated. Qed.
Print Assumptions C52_truncated_refuted.

(** C53: what is written is an XML text whose element describes the strategy *)
Theorem C53_written : forall E S A, good_names (E ++ S) -> states_fit (List.length (E ++ S)) A -> closed_aut A ->
  exists text rows, tulip_aut_dump A (vlist E) (vlist S) = Ok (text, 0) /\ numbered A rows /\ xml_file text (tulip_xml E S rows).
Proof. exact tulip_shape. Qed.
Print Assumptions C53_written.
(** C53: a text is XML in at most one way, so any XML reader gets this element *)
Theorem C53_one_element : forall text x x', xml_file text x -> xml_file text x' -> x = x'.
Proof. exact xml_unique. Qed.
Print Assumptions C53_one_element.
(** C53: what is kept *)
Theorem C53_determines : forall E S A E' S' A' text, (forall d, In d (E ++ S ++ E' ++ S') -> xml_name (fst d) /\ domain_ok d) ->
  states_fit (List.length (E ++ S)) A -> closed_aut A -> states_fit (List.length (E' ++ S')) A' -> closed_aut A' ->
  tulip_aut_dump A (vlist E) (vlist S) = Ok (text, 0) -> tulip_aut_dump A' (vlist E') (vlist S') = Ok (text, 0) ->
  E = E' /\ S = S' /\ exists rows rows', numbered A rows /\ numbered A' rows' /\ Forall2 alike rows rows'.
Proof. exact tulip_determines. Qed.
Print Assumptions C53_determines.
(** C53: which nodes are initial is lost, and so are the modes of nodes without a rank *)
Theorem C53_all_kept_refuted : exists E S A A' B B' text text',
  good_names (E ++ S) /\ states_fit (List.length (E ++ S)) (A ++ A' ++ B ++ B') /\
  closed_aut A /\ closed_aut A' /\ closed_aut B /\ closed_aut B' /\
  tulip_aut_dump A (vlist E) (vlist S) = Ok (text, 0) /\ tulip_aut_dump A' (vlist E) (vlist S) = Ok (text, 0) /\
  map ainit A <> map ainit A' /\
  tulip_aut_dump B (vlist E) (vlist S) = Ok (text', 0) /\ tulip_aut_dump B' (vlist E) (vlist S) = Ok (text', 0) /\
  map amode B <> map amode B'.
Proof. exact tulip_loses. Qed.
Print Assumptions C53_all_kept_refuted.

(** an automaton with two nodes over a Boolean and a variable with domain [0,3] *)
Lemma C51_instance : states_fit 2 ex_aut /\ closed_aut ex_aut /\
  list_aut_dump ex_aut 2 = Ok ("   0 (init) : 1,3 -  0 - -1 - [ 1 0]" ++ line_end ++ "   1 : 0,2 -  1 -  5 - []" ++ line_end)%string.
Proof. split; [apply ex_fit|]. split; [apply ex_closed|]. vm_compute. reflexivity. Qed.
Lemma C52_instance : exists rows, numbered ex_aut rows /\ good_names [("x", -1); ("y", 3)] /\
  NoDup (map fst [("x", -1); ("y", 3)]) /\
  (forall r, In r rows -> dot_short (DotStyle false false true) [("x", -1)] [("y", 3)] r) /\
  node_ids (dot_statements (DotStyle false false true) [("x", -1)] [("y", 3)] rows) =
    [("0;" ++ dot_break ++ "(0, -1)" ++ dot_break ++ "x=1, y=3")%string;
     ("1;" ++ dot_break ++ "(1, 5)" ++ dot_break ++ "x=0, y=2")%string].
Proof. exact ex_dot. Qed.
Lemma C53_instance : good_names [("x", -1); ("y", 3)] /\ (forall d, In d [("x", -1); ("y", 3)] -> domain_ok d) /\
  exists text, tulip_aut_dump ex_aut (vlist [("x", -1)]) (vlist [("y", 3)]) = Ok (text, 0) /\ String.length text = 865%nat.
Proof. exact ex_tulip. Qed.
