(** Property C31: reading a state from a string. *)
From Coq Require Import List ZArith Lia Bool Arith Ascii String.
From Verif Require Import Base Strs AutIO AutIOSpec ReadState ReadSpec ReadProofs.
Import ListNotations.
Open Scope string_scope.
Open Scope list_scope.
Open Scope Z_scope.

(** the integers at the start of the string, in order, at most [max_len] (if that
    is not negative) and otherwise as many as there are *)
Theorem C31_prefix : forall s max_len, exists zs rest, int_prefix s zs rest /\
  read_state_str s max_len = Ok (Z.of_nat (List.length zs), map to_int zs) /\
  (0 <= max_len -> Z.of_nat (List.length zs) <= max_len) /\
  (Z.of_nat (List.length zs) <> max_len -> no_int rest).
Proof. exact read_state_ok. Qed.
Print Assumptions C31_prefix.
(** that sequence is unique: the sequences of integers a string starts with are
    initial parts of one another *)
Theorem C31_unique : forall s zs rest, int_prefix s zs rest -> forall zs' rest', int_prefix s zs' rest' ->
  (List.length zs <= List.length zs')%nat -> exists more, zs' = zs ++ more.
Proof. exact prefix_unique. Qed.
Print Assumptions C31_unique.
Theorem C31_read_back : forall l max_len, ints l -> l <> [] -> max_len < 0 \/ Z.of_nat (List.length l) <= max_len ->
  read_state_str (join l) max_len = Ok (Z.of_nat (List.length l), l).
Proof. exact read_back. Qed.
Print Assumptions C31_read_back.
Theorem C31_in_range : forall z, int_ok z -> to_int z = z.
Proof. exact AutIOProofs.to_int_ok. Qed.
Print Assumptions C31_in_range.
Example C31_instance :
  read_state_str "  1 -20 +3x 4" 10 = Ok (3, [1; -20; 3]) /\ read_state_str "1 2 3" 2 = Ok (2, [1; 2]) /\
  read_state_str "1 2 3 " (-1) = Ok (3, [1; 2; 3]) /\ read_state_str "x" 4 = Ok (0, []) /\
  join [0; -7; 12] = "0 -7 12" /\ int_prefix "  1 -20 +3x 4" [1; -20; 3] "x 4" /\ no_int "x 4".
Proof.
  repeat (split; [vm_compute; reflexivity|]). split.
  - change "  1 -20 +3x 4" with ("  1" ++ " -20" ++ " +3" ++ "x 4")%string.
    constructor; [exists "  ", "", "1"; repeat split; try discriminate; left; auto|reflexivity|].
    constructor; [exists " ", "-", "20"; repeat split; try discriminate; right; auto|reflexivity|].
    constructor; [exists " ", "+", "3"; repeat split; try discriminate; left; auto|reflexivity|constructor].
  - destruct (strtol_cases "x 4") as [(t & z & r & H1 & H2 & H3 & H4)|[H _]]; auto.
    exfalso. vm_compute in H4. injection H4 as <- <-. apply (f_equal String.length) in H1.
    rewrite length_app in H1. apply num_text_len in H2. cbn in H1. lia.
Qed.
