(** Model of src/solve_support.c:15-61, read_state_str. Allocation does not fail. *)
From Coq Require Import List ZArith Bool Arith Ascii String.
From Verif Require Import Base Strs AutIO.
Import ListNotations.
Open Scope Z_scope.

(** solve_support.c:33-45: the loop; [i] values have been read. A negative
    [max_len] means no limit. *)
Fixpoint read_state_loop (fuel : nat) (max_len i : Z) (start : string) : out (list Z) :=
  match fuel with
  | O => Fuel
  | S f =>
      if ((max_len <? 0) || (i <? max_len)) && negb (is_nul start) then
        let (v, e) := strtol start in
        if same_pos start e then Ok []
        else l <- read_state_loop f max_len (i + 1) e ;; Ok (to_int v :: l)
      else Ok []
  end.
(** the returned number and the first that many values of *state; *state is NULL
    when the number is 0 *)
Definition read_state_str (input : string) (max_len : Z) : out (Z * list Z) :=
  if (max_len =? 0) || is_nul input then Ok (0, [])
  else l <- read_state_loop (S (String.length input)) max_len 0 input ;;
       Ok (Z.of_nat (List.length l), l).
