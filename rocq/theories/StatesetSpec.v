(** Specification of the output of print_support (include/gr1c_util.h:115-119): one state per
    line, with a space between every four bits. Not a model of code. *)
From Coq Require Import List ZArith Bool Ascii String.
From Verif Require Import Base Bdd.
Import ListNotations.
Open Scope string_scope.
Open Scope Z_scope.

Definition bit_char (b : Z) : ascii := if b =? 0 then "0"%char else "1"%char.
Definition bits_text (g : vec) : string := fold_right (fun b s => String (bit_char b) s) "" g.
(** the bits in groups of four, but for the last group, which may be shorter *)
Inductive fours : vec -> list vec -> Prop :=
| fours_none : fours [] []
| fours_last g : g <> [] -> (List.length g <= 4)%nat -> fours g [g]
| fours_more g r gs : List.length g = 4%nat -> r <> [] -> fours r gs -> fours (g ++ r)%list (g :: gs).
(** [x] is the line for the state [s] *)
Definition state_line (s : vec) (x : string) : Prop := exists gs, fours s gs /\ x = String.concat " " (map bits_text gs).
(** a set of states, as a BDD over [m] variables that is about the first [n] only *)
Definition about_states (m n : nat) (X : dt) : Prop :=
  (n <= m)%nat /\ forall s a b, bitvec n s -> bitvec (m - n) a -> bitvec (m - n) b -> ev X (s ++ a)%list = ev X (s ++ b)%list.
Definition holds (m n : nat) (X : dt) (s : vec) : Prop := exists a, bitvec (m - n) a /\ ev X (s ++ a)%list = true.
(** [ls] lists the states of [X], each once *)
Definition lists_states (m n : nat) (X : dt) (ls : list vec) : Prop :=
  NoDup ls /\ forall s, In s ls <-> bitvec n s /\ holds m n X s.
