(** C72: print_support. Theorems only; proofs are in StatesetProofs.v.

    Reading guide. [X] is a BDD over [m] variables; [about_states m n X]: it is about the first
    [n] only; [holds m n X s]: the state [s] is in the set. [cs]: the cubes that the library gives
    for [X] ([cubes_ok], any such decomposition). [lists_states m n X ls]: [ls] lists the states of
    the set, each once. [state_line s x]: [x] is the line for [s] (StatesetSpec.v). [st]: the log
    (C71); [l_fp st] and [l_opt st] are what getlogstream and getlogopt give. [told q (visible st)]:
    all that was written to [q]. *)
From Coq Require Import List ZArith Bool Ascii String.
From Verif Require Import Base Bdd Support Strs EnumProofs Logging LogSpec Statesets StatesetSpec StatesetProofs.
Import ListNotations.
Open Scope string_scope.
Open Scope list_scope.
Open Scope Z_scope.

(** to the log *)
Theorem C72_log : forall m n X cs fuel now st p, about_states m n X -> cubes_ok m X cs -> (2 ^ n <= fuel)%nat ->
  l_fp st = Some p -> in_use p st = true ->
  exists st' ls xs, print_support fuel now n cs None st = Ok st' /\ lists_states m n X ls /\ Forall2 state_line ls xs /\
    l_fp st' = l_fp st /\ l_opt st' = l_opt st /\
    forall q, told q (visible st') = String.append (told q (visible st))
      (if place_eqb (shown (Stream p)) q then String.concat "" (map (fun x => String.append (time_mark (Z.even (l_opt st)) now) (x ++ newline)) xs) else "").
Proof. exact log_ok. Qed.
Print Assumptions C72_log.
(** to a stream *)
Theorem C72_stream : forall m n X cs fuel now st p, about_states m n X -> cubes_ok m X cs -> (2 ^ n <= fuel)%nat -> in_use p st = true ->
  exists st' ls xs, print_support fuel now n cs (Some p) st = Ok st' /\ lists_states m n X ls /\ Forall2 state_line ls xs /\
    (l_fp st <> None -> l_fp st' = l_fp st) /\ l_opt st' = l_opt st /\
    forall q, told q (visible st') = String.append (told q (visible st))
      (if place_eqb (shown (Stream p)) q then String.concat "" (map (fun x => String.append x newline) xs) else "").
Proof. exact stream_ok. Qed.
Print Assumptions C72_stream.
(** a line tells which state it is for; each state has one *)
Theorem C72_readable : forall n n' s s' x, bitvec n s -> bitvec n' s' -> state_line s x -> state_line s' x -> s = s'.
Proof. exact line_read. Qed.
Print Assumptions C72_readable.
Theorem C72_line : forall s, exists x, state_line s x /\ forall y, state_line s y -> y = x.
Proof. exact line_one. Qed.
Print Assumptions C72_line.
(** "Otherwise, dump to the log": without a log, fputc to NULL, unless the set is empty *)
Theorem C72_nolog_refuted : forall m n X cs fuel now st v, cubes_ok m X cs -> (0 < fuel)%nat -> l_fp st = None -> bitvec m v -> ev X v = true ->
  print_support fuel now n cs None st = Crash.
Proof. exact none_crash. Qed.
Print Assumptions C72_nolog_refuted.
(** a set that is about other variables, too: a state may come more than once *)
Theorem C72_once_refuted : exists X st', wf 3 X /\ print_support 2 (Moment "" "") 1 (robdd_oracle 0%nat X) (Some Stdout) log_start = Ok st' /\
  told OnStdout (visible st') = String.append ("1" ++ newline) ("1" ++ newline) /\ holds 3 1 X [1] /\ ~ holds 3 1 X [0].
Proof. exact state_twice. Qed.
Print Assumptions C72_once_refuted.

(** ** An instance *)
Theorem C72_instance : let X := mk 5 (fun v => (nth 0 v 0 =? 1) && (nth 2 v 0 =? 0) && (nth 4 v 0 =? 1) && (nth 3 v 0 =? 1)) in
  about_states 5 5 X /\ cubes_ok 5 X (robdd_oracle 0%nat X) /\
  exists st', print_support 32 (Moment "" "") 5 (robdd_oracle 0%nat X) (Some Stdout) log_start = Ok st' /\
  told OnStdout (visible st') = String.append ("1001 1" ++ newline) ("1101 1" ++ newline).
Proof. exact states_example. Qed.
Print Assumptions C72_instance.
