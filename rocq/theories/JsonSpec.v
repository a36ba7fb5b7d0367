(** Specification: JSON texts (RFC 8259, without fractions, exponents and escapes) and
    the JSON value that describes a strategy (doc/formats.md). Not a model of code. *)
From Coq Require Import List ZArith Bool Arith Ascii String.
From Verif Require Import Base Automaton.
Import ListNotations.
Open Scope string_scope.
Open Scope list_scope.
Open Scope Z_scope.

Inductive json :=
| JString (s : string)
| JInt (z : Z)
| JBool (b : bool)
| JArray (l : list json)
| JObject (l : list (string * json)).

Definition quote : string := String "034" "".
Fixpoint chars (p : ascii -> Prop) (s : string) : Prop :=
  match s with EmptyString => True | String c r => p c /\ chars p r end.
(** white space: blank, tab, line feed, carriage return *)
Definition white (c : ascii) : Prop := In (nat_of_ascii c) [32; 9; 10; 13]%nat.
(** printable ASCII except the quotation mark and the backslash *)
Definition plain (c : ascii) : Prop :=
  (32 <= nat_of_ascii c <= 126 /\ nat_of_ascii c <> 34 /\ nat_of_ascii c <> 92)%nat.
(** decimal digits, most significant first *)
Definition decimal (c : ascii) : Prop := (48 <= nat_of_ascii c <= 57)%nat.
Fixpoint decimal_value (v : Z) (s : string) : Z :=
  match s with
  | EmptyString => v
  | String c r => decimal_value (10 * v + (Z.of_nat (nat_of_ascii c) - 48)) r
  end.
Inductive natural_text : string -> Z -> Prop :=
| nt_zero : natural_text "0" 0
| nt_digits : forall c r, decimal c -> c <> "0"%char -> chars decimal r ->
    natural_text (String c r) (decimal_value 0 (String c r)).

Inductive json_text : string -> json -> Prop :=
| jt_string : forall s, chars plain s -> json_text (quote ++ s ++ quote) (JString s)
| jt_natural : forall s z, natural_text s z -> json_text s (JInt z)
| jt_negative : forall s z, natural_text s z -> json_text ("-" ++ s) (JInt (- z))
| jt_true : json_text "true" (JBool true)
| jt_false : json_text "false" (JBool false)
| jt_array0 : forall w, chars white w -> json_text ("[" ++ w ++ "]") (JArray [])
| jt_array : forall s l, elements_text s l -> json_text ("[" ++ s ++ "]") (JArray l)
| jt_object0 : forall w, chars white w -> json_text ("{" ++ w ++ "}") (JObject [])
| jt_object : forall s l, members_text s l -> json_text ("{" ++ s ++ "}") (JObject l)
with elements_text : string -> list json -> Prop :=
| et_one : forall w1 s w2 j, chars white w1 -> json_text s j -> chars white w2 ->
    elements_text (w1 ++ s ++ w2) [j]
| et_more : forall w1 s w2 j r l, chars white w1 -> json_text s j -> chars white w2 -> elements_text r l ->
    elements_text (w1 ++ s ++ w2 ++ "," ++ r) (j :: l)
with members_text : string -> list (string * json) -> Prop :=
| mt_one : forall w1 k w2 w3 s w4 j, chars white w1 -> chars plain k -> chars white w2 -> chars white w3 ->
    json_text s j -> chars white w4 ->
    members_text (w1 ++ quote ++ k ++ quote ++ w2 ++ ":" ++ w3 ++ s ++ w4) [(k, j)]
| mt_more : forall w1 k w2 w3 s w4 j r l, chars white w1 -> chars plain k -> chars white w2 -> chars white w3 ->
    json_text s j -> chars white w4 -> members_text r l ->
    members_text (w1 ++ quote ++ k ++ quote ++ w2 ++ ":" ++ w3 ++ s ++ w4 ++ "," ++ r) ((k, j) :: l).
(** a whole file *)
Definition json_file (text : string) (j : json) : Prop :=
  exists w1 s w2, chars white w1 /\ json_text s j /\ chars white w2 /\ text = (w1 ++ s ++ w2)%string.

(** ** The description of a strategy over declared variables: a domain [0,hi] or, for
    [hi] negative, "boolean" *)
Definition domain_json (hi : Z) : json := if hi <? 0 then JString "boolean" else JArray [JInt 0; JInt hi].
Definition decl_json (d : string * Z) : json := JObject [(fst d, domain_json (snd d))].
Definition node_json (key : nat -> string) (x : anode) : string * json :=
  (key (aid x),
   JObject [("state", JArray (map JInt (astate x)));
            ("mode", JInt (amode x));
            ("rgrad", JInt (argrad x));
            ("initial", JBool (ainit x));
            ("trans", JArray (map (fun t => JString (key t)) (atrans x)))]).
Definition strategy_json (key : nat -> string) (date : string) (E S : list (string * Z)) (A : aut) : json :=
  JObject [("version", JInt 1); ("gr1c", JString "0.13.4"); ("date", JString date); ("extra", JString "");
           ("ENV", JArray (map decl_json E)); ("SYS", JArray (map decl_json S));
           ("nodes", JObject (map (node_json key) A))].
(** the texts printed for addresses: different for different addresses, plain *)
Definition keys_ok (key : nat -> string) : Prop :=
  (forall a, chars plain (key a)) /\ (forall a b, key a = key b -> a = b).

(** what can be written: plain names, one value per variable in every state *)
Definition printable (E S : list (string * Z)) (A : aut) : Prop :=
  (forall d, In d (E ++ S) -> chars plain (fst d)) /\
  (forall x, In x A -> List.length (astate x) = List.length (E ++ S)).
