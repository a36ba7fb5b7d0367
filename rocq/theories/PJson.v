(** Theorems: the JSON description of a strategy (C50). *)
From Coq Require Import List ZArith Lia Bool Ascii String.
From Verif Require Import Base Strs Ptree Form Automaton AutWrite JsonSpec JsonProofs JsonWrite.
Import ListNotations.
Open Scope string_scope.
Open Scope list_scope.
Open Scope Z_scope.

(** C50: what is written is a JSON text whose value describes the strategy *)
Theorem C50_written : forall key date E S A, keys_ok key -> chars plain date -> printable E S A ->
  exists text, json_aut_dump key date A (vlist E) (vlist S) = Ok (text, 0) /\
    json_file text (strategy_json key date E S A).
Proof. exact json_written. Qed.
Print Assumptions C50_written.
(** C50: a text is JSON in at most one way, so any JSON reader gets this value *)
Theorem C50_one_value : forall text j j', json_file text j -> json_file text j' -> j = j'.
Proof. exact json_unique. Qed.
Print Assumptions C50_one_value.
(** C50: nothing is lost *)
Theorem C50_determines : forall key date date' E S A E' S' A' text, keys_ok key ->
  chars plain date -> chars plain date' -> printable E S A -> printable E' S' A' ->
  (forall d, In d (E ++ S ++ E' ++ S') -> 0 <= snd d \/ snd d = -1) ->
  json_aut_dump key date A (vlist E) (vlist S) = Ok (text, 0) ->
  json_aut_dump key date' A' (vlist E') (vlist S') = Ok (text, 0) ->
  E = E' /\ S = S' /\ A = A'.
Proof. exact json_determines. Qed.
Print Assumptions C50_determines.
(** C50: the keys of the nodes are different, and transitions name keys of nodes *)
Theorem C50_references : forall key A, keys_ok key -> NoDup (map aid A) ->
  (forall x, In x A -> incl (atrans x) (map aid A)) ->
  NoDup (object_keys (map (node_json key) A)) /\
  forall k o t, In (k, o) (map (node_json key) A) -> forall s b m r i,
    o = JObject [("state", JArray s); ("mode", m); ("rgrad", r); ("initial", i); ("trans", JArray b)] ->
    In t b -> exists k', t = JString k' /\ In k' (object_keys (map (node_json key) A)).
Proof. exact json_references. Qed.
Print Assumptions C50_references.

(** an automaton with two nodes over a Boolean and a variable with domain [0,3] *)
Definition C50_aut : aut :=
  [Automaton.Node 7 true [1; 3] 0 (-1) [12; 7]%nat; Automaton.Node 12 false [0; 2] 1 5 []].
Lemma C50_instance : keys_ok ex_key /\ chars plain "2026-11-16 17:00:00" /\
  printable [("x", -1)] [("y", 3)] C50_aut /\ NoDup (map aid C50_aut) /\
  (forall x, In x C50_aut -> incl (atrans x) (map aid C50_aut)) /\
  exists text, json_aut_dump ex_key "2026-11-16 17:00:00" C50_aut (vlist [("x", -1)]) (vlist [("y", 3)]) = Ok (text, 0) /\
    substring 89 21 text = ("[{" ++ q ++ "x" ++ q ++ ": " ++ q ++ "boolean" ++ q ++ "}]," ++ String "010" " ")%string.
Proof.
  split; [apply ex_key_ok|]. split; [cbn; unfold plain; cbn; repeat split; lia|]. split.
  { split.
    - intros d [<-|[<-|[]]]; cbn; unfold plain; cbn; repeat split; lia.
    - intros x [<-|[<-|[]]]; reflexivity. }
  split. { repeat constructor; cbn; intuition discriminate. }
  split. { intros x [<-|[<-|[]]] t; cbn; intuition. }
  eexists. split; [vm_compute; reflexivity|]. vm_compute. reflexivity.
Qed.
