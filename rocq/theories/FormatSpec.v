(** Specification: the plain list, Graphviz DOT and TuLiP XML descriptions of a
    strategy (doc/formats.md). Not a model of code. *)
From Coq Require Import List ZArith Bool Arith Ascii String.
From Verif Require Import Base Strs Automaton AutIOSpec JsonSpec.
Import ListNotations.
Open Scope string_scope.
Open Scope list_scope.
Open Scope Z_scope.

Definition line_end : string := String "010" "".
(** texts one after the other, [sep] between them *)
Fixpoint between (sep : string) (l : list string) : string :=
  match l with
  | [] => ""
  | [x] => x
  | x :: r => (x ++ sep ++ between sep r)%string
  end.
Definition all_of (l : list string) : string := between "" l.

(** ** A strategy without addresses: the nodes in order, transitions lead to positions *)
Definition numbered (A : aut) (rows : list frow) : Prop :=
  List.length rows = List.length A /\
  forall i x r, nth_error A i = Some x -> nth_error rows i = Some r ->
    f_id r = Z.of_nat i /\ f_state r = astate x /\ f_init r = ainit x /\ f_mode r = amode x /\ f_rgrad r = argrad x /\
    Forall2 (fun t k => exists y, nth_error A (Z.to_nat k) = Some y /\ aid y = t /\ 0 <= k) (atrans x) (f_trans r).

(** ** Plain list *)
Definition right_aligned (w : nat) (s : string) : string :=
  (all_of (repeat " " (w - String.length s)) ++ s)%string.
Definition values_text (st : vec) : string := match st with [] => "(nil)" | _ => between "," (map zdec st) end.
Definition list_row (r : frow) : string :=
  (right_aligned 4 (zdec (f_id r)) ++ " " ++ (if f_init r then "(init) " else "") ++ ": " ++
   values_text (f_state r) ++
   " - " ++ right_aligned 2 (zdec (f_mode r)) ++ " - " ++ right_aligned 2 (zdec (f_rgrad r)) ++ " - [" ++
   all_of (map (fun k => (" " ++ zdec k)%string) (f_trans r)) ++ "]")%string.
Definition list_file (rows : list frow) : string :=
  all_of (map (fun r => (list_row r ++ line_end)%string) rows).

(** ** DOT. A graph as a list of statements; identifiers are texts between quotation marks. *)
Inductive dot_statement :=
| DotNode (id : string)
| DotEdge (from to : string) (label : option string).
Definition in_quotes (s : string) : string := (quote ++ s ++ quote)%string.
Definition statement_text (s : dot_statement) : string :=
  match s with
  | DotNode i => ("    " ++ in_quotes i ++ line_end)%string
  | DotEdge a b None => ("    " ++ in_quotes a ++ " -> " ++ in_quotes b ++ line_end)%string
  | DotEdge a b (Some l) =>
      ("    " ++ in_quotes a ++ " -> " ++ in_quotes b ++ "[label=" ++ in_quotes l ++ "]" ++ line_end)%string
  end.
Definition dot_file (l : list dot_statement) : string :=
  ("/* created using gr1c, version 0.13.4 */" ++ line_end ++ "digraph A {" ++ line_end ++
   "    " ++ in_quotes "" ++ " [shape=none]" ++ line_end ++ all_of (map statement_text l) ++ "}" ++ line_end)%string.
(** what is shown: only the variables that are not 0, by name ([dot_binary]), or all
    with their values; inputs on the edges; mode and rgrad *)
Record dot_style := DotStyle { dot_binary : bool; dot_edge_input : bool; dot_attributes : bool }.
Definition shown (f : dot_style) (vars : list (string * Z)) (vals : vec) : list string :=
  if dot_binary f
  then map (fun p => fst (fst p)) (filter (fun p => negb (snd p =? 0)) (combine vars vals))
  else map (fun p => (fst (fst p) ++ "=" ++ zdec (snd p))%string) (combine vars vals).
Definition braces_if_none (l : list string) : string := match l with [] => "{}" | _ => between ", " l end.
(** the two characters backslash and n: a line break in a DOT label *)
Definition dot_break : string := String "092" "n".
Definition dot_id (f : dot_style) (E S : list (string * Z)) (r : frow) : string :=
  (zdec (f_id r) ++ ";" ++ dot_break ++
   (if dot_attributes f then "(" ++ zdec (f_mode r) ++ ", " ++ zdec (f_rgrad r) ++ ")" ++ dot_break else "") ++
   braces_if_none ((if dot_edge_input f then [] else shown f E (firstn (List.length E) (f_state r))) ++
                   shown f S (skipn (List.length E) (f_state r))))%string.
Definition dot_label (f : dot_style) (E : list (string * Z)) (r : frow) : option string :=
  if dot_edge_input f then Some (braces_if_none (shown f E (firstn (List.length E) (f_state r)))) else None.
Definition dot_statements (f : dot_style) (E S : list (string * Z)) (rows : list frow) : list dot_statement :=
  flat_map (fun r =>
    DotNode (dot_id f E S r) ::
    (if f_init r then [DotEdge "" (dot_id f E S r) None] else []) ++
    flat_map (fun k => match nth_error rows (Z.to_nat k) with
                       | Some t => [DotEdge (dot_id f E S r) (dot_id f E S t) (dot_label f E t)]
                       | None => []
                       end) (f_trans r)) rows.
(** the longest identifier that is written, with its quotation marks *)
Definition dot_short (f : dot_style) (E S : list (string * Z)) (r : frow) : Prop :=
  Z.of_nat (String.length (in_quotes (dot_id f E S r))) < 4096.

(** ** XML: elements with attributes, the text before the first child, and the text
    after each child. No entities, comments or sections. *)
Inductive xml := Element (name : string) (attrs : list (string * string)) (text : string) (children : list (xml * string)).
Definition name_char (c : ascii) : Prop :=
  let n := nat_of_ascii c in (97 <= n <= 122 \/ 65 <= n <= 90 \/ 48 <= n <= 57 \/ n = 95 \/ n = 58 \/ n = 45 \/ n = 46)%nat.
Definition xml_name (s : string) : Prop := s <> "" /\ chars name_char s.
(** characters of texts and attribute values *)
Definition xml_char (c : ascii) : Prop :=
  let n := nat_of_ascii c in (n = 10 \/ 32 <= n <= 126)%nat /\ (n <> 60 /\ n <> 38)%nat.
Definition value_char (c : ascii) : Prop := xml_char c /\ (nat_of_ascii c <> 34)%nat.
Inductive attrs_text : string -> list (string * string) -> Prop :=
| xa_nil : attrs_text "" []
| xa_cons : forall w n v s l, w <> "" -> chars white w -> xml_name n -> chars value_char v -> attrs_text s l ->
    attrs_text (w ++ n ++ "=" ++ quote ++ v ++ quote ++ s) ((n, v) :: l).
Inductive element_text : string -> xml -> Prop :=
| xe_empty : forall n a l w, xml_name n -> attrs_text a l -> chars white w ->
    element_text ("<" ++ n ++ a ++ w ++ "/>") (Element n l "" [])
| xe_full : forall n a l w t s cs, xml_name n -> attrs_text a l -> chars white w -> chars xml_char t ->
    children_text s cs ->
    element_text ("<" ++ n ++ a ++ w ++ ">" ++ t ++ s ++ "</" ++ n ++ ">") (Element n l t cs)
with children_text : string -> list (xml * string) -> Prop :=
| xc_nil : children_text "" []
| xc_cons : forall e x t s cs, element_text e x -> chars xml_char t -> children_text s cs ->
    children_text (e ++ t ++ s) ((x, t) :: cs).
Definition xml_file (text : string) (x : xml) : Prop :=
  exists e, element_text e x /\
    text = ("<?xml version=" ++ in_quotes "1.0" ++ " encoding=" ++ in_quotes "UTF-8" ++ "?>" ++ line_end ++ e ++ line_end)%string.

(** ** TuLiP *)
Definition item_xml (key value : string) : xml := Element "item" [("key", key); ("value", value)] "" [].
Definition domain_value (hi : Z) : string := if (hi <? 0)%Z then "boolean" else ("[0," ++ zdec hi ++ "]")%string.
Definition indent (n : nat) : string := (line_end ++ all_of (repeat "  " n))%string.
(** children on lines of their own; [n]: depth of the parent *)
Definition on_lines (n : nat) (l : list xml) : string * list (xml * string) :=
  (indent (match l with [] => n | _ => S n end),
   match l with
   | [] => []
   | _ => map (fun x => (x, indent (S n))) (removelast l) ++ [(last l (Element "" [] "" []), indent n)]
   end).
Definition lines_xml (n : nat) (name : string) (attrs : list (string * string)) (l : list xml) : xml :=
  Element name attrs (fst (on_lines n l)) (snd (on_lines n l)).
Definition vars_xml (name : string) (vars : list (string * Z)) : xml :=
  lines_xml 1 name [] (map (fun d => item_xml (fst d) (domain_value (snd d))) vars).
Definition node_xml (vars : list (string * Z)) (r : frow) : xml :=
  Element "node" [] (indent 3)
    [(Element "id" [] (zdec (f_id r)) [], "");
     (Element "anno" [] (if negb (f_mode r =? -1) && negb (f_rgrad r =? -1)
                         then (zdec (f_mode r) ++ " " ++ zdec (f_rgrad r))%string else "") [], indent 3);
     (Element "child_list" [] (all_of (map (fun k => (" " ++ zdec k)%string) (f_trans r))) [], indent 3);
     (lines_xml 3 "state" [] (map (fun p => item_xml (fst (fst p)) (zdec (snd p))) (combine vars (f_state r))), indent 2)].
Definition empty_xml (name : string) : xml := Element name [] "" [].
Definition tulip_xml (E S : list (string * Z)) (rows : list frow) : xml :=
  Element "tulipcon" [("xmlns", "http://tulip-control.sourceforge.net/ns/1"); ("version", "1")] (indent 1)
    [(vars_xml "env_vars" E, indent 1);
     (vars_xml "sys_vars" S, indent 1);
     (Element "spec" [] (indent 2)
        [(empty_xml "env_init", ""); (empty_xml "env_safety", ""); (empty_xml "env_prog", "");
         (empty_xml "sys_init", ""); (empty_xml "sys_safety", ""); (empty_xml "sys_prog", indent 1)], indent 1);
     (lines_xml 1 "aut" [("type", "basic")] (map (node_xml (E ++ S)) rows), indent 1);
     (Element "extra" [] "created using gr1c, version 0.13.4" [], line_end)].

(** ** Conditions, and what is kept *)
(** transitions lead to nodes *)
Definition closed_aut (A : aut) : Prop := forall x, In x A -> incl (atrans x) (map aid A).
Definition states_fit (n : nat) (A : aut) : Prop := forall x, In x A -> List.length (astate x) = n.
Definition bits (l : vec) : Prop := forall z, In z l -> z = 0 \/ z = 1.
(** identifiers of a specification are such names *)
Definition good_names (V : list (string * Z)) : Prop := forall d, In d V -> xml_name (fst d).
(** the largest value, or -1 for a Boolean variable *)
Definition domain_ok (d : string * Z) : Prop := 0 <= snd d \/ snd d = -1.
(** TuLiP has mode and rgrad unless one of them is -1 *)
Definition annotated (r : frow) : Prop := f_mode r <> -1 /\ f_rgrad r <> -1.
(** equal but for [f_init], and for mode and rgrad if one of them is -1 *)
Definition alike (r r' : frow) : Prop :=
  f_id r = f_id r' /\ f_state r = f_state r' /\ f_trans r = f_trans r' /\
  (annotated r <-> annotated r') /\ (annotated r -> f_mode r = f_mode r' /\ f_rgrad r = f_rgrad r').
(** the nodes that a DOT file declares *)
Definition node_ids (l : list dot_statement) : list string :=
  flat_map (fun s => match s with DotNode i => [i] | DotEdge _ _ _ => [] end) l.
