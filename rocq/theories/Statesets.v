(** Model of print_support (util.c:745-798): the states of a set, to a stream or to the log.

    [cs] are the cubes that Cudd_ForeachCube gives for X; the text goes through the functions of
    logging.c (Logging.v). [now] is what the clock says, for all lines the same. malloc does not
    fail. *)
From Coq Require Import List ZArith Bool Ascii String Arith.
From Verif Require Import Base Bdd Support Logging.
Import ListNotations.
Open Scope string_scope.
Open Scope Z_scope.

(** util.c:773-777 (and 782-786): the bits from position [i] on *)
Fixpoint print_bits (i : nat) (state : vec) (st : lstate) : out lstate :=
  match state with
  | [] => Ok st
  | b :: r =>
      st1 <- (if (0 <? i)%nat && (i mod 4 =? 0)%nat then logprint_raw " " [] st else Ok st) ;;
      st2 <- logprint_raw "%d" [AInt b] st1 ;;
      print_bits (S i) r st2
  end.
(** util.c:772-778 (and 781-787) *)
Definition print_state (now : moment) (state : vec) (st : lstate) : out lstate :=
  st1 <- logprint_startline now st ;; st2 <- print_bits 0 state st1 ;; logprint_endline st2.
(** util.c:771-787, from the state that initialize_cube gave or increment_cube left *)
Fixpoint print_cube (fuel : nat) (now : moment) (state gcube : list Z) (st : lstate) : out lstate :=
  match fuel with
  | O => Fuel
  | S f =>
      if saturated_cube state gcube then print_state now state st
      else st1 <- print_state now state st ;; print_cube f now (increment_cube state gcube) gcube st1
  end.
(** util.c:769-788; the functions get the first [n] = state_len entries of the cube *)
Fixpoint print_cubes (fuel : nat) (now : moment) (n : nat) (cs : list (list Z)) (st : lstate) : out lstate :=
  match cs with
  | [] => Ok st
  | gcube :: r =>
      st1 <- print_cube fuel now (initialize_cube (slice 0 n gcube)) (slice 0 n gcube) st ;;
      print_cubes fuel now n r st1
  end.
(** util.c:745-798 print_support *)
Definition print_support (fuel : nat) (now : moment) (n : nat) (cs : list (list Z)) (outf : option fptr) (st : lstate) : out lstate :=
  match outf with
  | None => print_cubes fuel now n cs st
  | Some p =>
      let prev_logf := l_fp st in
      let prev_logoptions := l_opt st in
      st1 <- print_cubes fuel now n cs (setlogopt 1 (setlogstream (Some p) st)) ;;
      Ok (setlogopt prev_logoptions (setlogstream prev_logf st1))
  end.
