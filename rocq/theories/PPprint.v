(** C73: pprint_state. Theorems only; proofs are in PprintProofs.v.

    Reading guide. [E] and [S] are the variables of the environment and the system.
    [short_form xs s]: the names of [xs] that are not 0 in [s], in order, each after a blank;
    (nil) if there are none (PprintSpec.v). [words xs]: names without blanks, all different, none
    of them (nil); names in a specification are so. [pprint_edge] and [pprint_block]: what the
    commands in a file of changes log with -v. *)
From Coq Require Import List ZArith Bool String.
From Verif Require Import Base Ptree Form Pprint PprintSpec PprintProofs.
Import ListNotations.
Open Scope string_scope.
Open Scope list_scope.
Open Scope Z_scope.

Theorem C73_state : forall E S s, (List.length E + List.length S <= List.length s)%nat ->
  pprint_state (vlist E) (vlist S) s (Z.of_nat (List.length E)) (Z.of_nat (List.length S)) = Ok (short_form (names (E ++ S)) s).
Proof. exact pprint_all. Qed.
Print Assumptions C73_state.
Theorem C73_environment : forall E S s, (List.length E <= List.length s)%nat ->
  pprint_state (vlist E) S s (Z.of_nat (List.length E)) (-1) = Ok (short_form (names E) s).
Proof. exact pprint_env. Qed.
Print Assumptions C73_environment.
Theorem C73_system : forall E S s, (List.length E + List.length S <= List.length s)%nat ->
  pprint_state (vlist E) (vlist S) s (-1) (Z.of_nat (List.length S)) = Ok (short_form (names S) (skipn (List.length E) s)).
Proof. exact pprint_sys. Qed.
Print Assumptions C73_system.
(** the text tells which state it is *)
Theorem C73_readable : forall xs s s', words xs -> bitvec (List.length xs) s -> bitvec (List.length xs) s' ->
  short_form xs s = short_form xs s' -> s = s'.
Proof. exact form_read. Qed.
Print Assumptions C73_readable.
(** restrict and relax, with a whole edge or with a move of the environment *)
Theorem C73_edge : forall E S s, List.length s = (2 * (List.length E + List.length S))%nat ->
  pprint_edge (vlist E) (vlist S) s (List.length E) (List.length S) (Z.of_nat (List.length s)) =
    Ok (String.append (short_form (names (E ++ S)) (firstn (List.length E + List.length S) s))
         (" to" ++ short_form (names (E ++ S)) (skipn (List.length E + List.length S) s))).
Proof. exact edge_ok. Qed.
Print Assumptions C73_edge.
Theorem C73_move : forall E S s, List.length s = (2 * List.length E + List.length S)%nat ->
  pprint_edge (vlist E) (vlist S) s (List.length E) (List.length S) (Z.of_nat (List.length s)) =
    Ok (String.append (short_form (names (E ++ S)) (firstn (List.length E + List.length S) s))
         (" to" ++ short_form (names E) (skipn (List.length E + List.length S) s))).
Proof. exact edge_env. Qed.
Print Assumptions C73_move.
(** with integer variables, fewer numbers are read than there are bits: the variables of the
    system are left out of the second state *)
Theorem C73_expanded : forall E S s num_read, List.length s = (2 * (List.length E + List.length S))%nat ->
  num_read <= 2 * Z.of_nat (List.length E) + Z.of_nat (List.length S) ->
  pprint_edge (vlist E) (vlist S) s (List.length E) (List.length S) num_read =
    Ok (String.append (short_form (names (E ++ S)) (firstn (List.length E + List.length S) s))
         (" to" ++ short_form (names E) (skipn (List.length E + List.length S) s))).
Proof. exact edge_few. Qed.
Print Assumptions C73_expanded.
(** such as for one integer variable of two bits, two numbers *)
Theorem C73_expanded_refuted : exists S s, List.length s = (2 * List.length S)%nat /\ words (names S) /\ Forall isbit s /\
  pprint_edge (vlist []) (vlist S) s 0 (List.length S) 2 <>
    Ok (String.append (short_form (names S) (firstn (List.length S) s)) (" to" ++ short_form (names S) (skipn (List.length S) s))).
Proof. exact expanded_example. Qed.
Print Assumptions C73_expanded_refuted.
(** blocksys: right without environment variables, otherwise it reads behind the end of the state *)
Theorem C73_block : forall S s, List.length s = List.length S -> pprint_block (vlist []) (vlist S) s (List.length S) = Ok (short_form (names S) s).
Proof. exact block_noenv. Qed.
Print Assumptions C73_block.
Theorem C73_block_refuted : forall E S s, E <> [] -> S <> [] -> List.length s = List.length S ->
  pprint_block (vlist E) (vlist S) s (List.length S) = Crash.
Proof. exact block_bad. Qed.
Print Assumptions C73_block_refuted.

Theorem C73_instance : let E := [("a", -1); ("b", -1)] in let S := [("c", -1)] in
  words (names (E ++ S)) /\ pprint_state (vlist E) (vlist S) [1; 0; 1] 2 1 = Ok " a c" /\ pprint_state (vlist E) (vlist S) [0; 0; 0] 2 1 = Ok " (nil)" /\
  pprint_state (vlist E) (vlist S) [1; 0; 1] (-1) 1 = Ok " c" /\ pprint_state (vlist E) (vlist S) [1; 1; 0] 2 (-1) = Ok " a b" /\
  pprint_edge (vlist E) (vlist S) [1; 0; 1; 0; 1] 2 1 5 = Ok " a c to b" /\ pprint_block (vlist E) (vlist S) [1] 1 = Crash.
Proof. exact pprint_example. Qed.
Print Assumptions C73_instance.
