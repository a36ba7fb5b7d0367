(** Specification for the automaton file format. Not a model of code. *)
From Coq Require Import List ZArith Bool Arith Ascii String.
From Verif Require Import Base Strs Automaton AutIO.
Import ListNotations.
Open Scope string_scope.
Open Scope list_scope.
Open Scope Z_scope.

Definition int_ok (z : Z) : Prop := - 2 ^ 31 <= z < 2 ^ 31.
Definition ints (l : list Z) : Prop := forall z, In z l -> int_ok z.
Fixpoint has_newline (s : string) : bool :=
  match s with EmptyString => false | String c r => Ascii.eqb c newline || has_newline r end.
(** no line of the text (without its newline) has 4095 or more characters *)
Definition short_lines (text : string) : Prop :=
  forall a l b, text = (a ++ l ++ b)%string -> has_newline l = false -> Z.of_nat (String.length l) < 4095.

(** an automaton that can be written: all values are ints, all states have
    [state_len] values, all transitions lead to nodes of the automaton *)
Definition writable (state_len : Z) (A : aut) : Prop :=
  A <> [] /\ 1 <= state_len /\ NoDup (map aid A) /\ Z.of_nat (List.length A) < 2 ^ 31 /\
  forall x, In x A ->
    Z.of_nat (List.length (astate x)) = state_len /\ ints (astate x) /\ int_ok (amode x) /\ int_ok (argrad x) /\
    incl (atrans x) (map aid A).

(** the same automaton up to the addresses of the nodes: same order, same values,
    and each transition leads to the node at the same position. [init x] is the
    expected mark of the copy of [x]. *)
Definition same_node (A : aut) (L : list lnode) (init : anode -> option bool) (x : anode) (y : lnode) : Prop :=
  l_init y = init x /\ l_state y = astate x /\ l_mode y = amode x /\ l_rgrad y = argrad x /\
  Forall2 (fun a b => exists k x' y', nth_error A k = Some x' /\ aid x' = a /\
                                      nth_error L k = Some y' /\ l_addr y' = b) (atrans x) (l_trans y).
Definition same_aut (init : anode -> option bool) (A : aut) (L : list lnode) : Prop :=
  Forall2 (same_node A L init) A L /\ NoDup (map l_addr L).

(** files as a sequence of lines; doc/formats.md *)
Record frow := FRow { f_id : Z; f_state : list Z; f_init : bool; f_mode : Z; f_rgrad : Z; f_trans : list Z }.
Inductive fline := FComment (s : string) | FBlank | FNode (r : frow).
Definition row_text (r : frow) : string :=
  (zdec (f_id r) ++ sps (f_state r) ++ sp (if f_init r then 1 else 0) ++ sps [f_mode r; f_rgrad r] ++
   sps (f_trans r))%string.
Definition line_text (l : fline) : string :=
  match l with FComment s => ("#" ++ s)%string | FBlank => "" | FNode r => row_text r end.
Fixpoint lines_text (ls : list fline) : string :=
  match ls with [] => "" | l :: r => (line_text l ++ nl ++ lines_text r)%string end.
Fixpoint rows_of (ls : list fline) : list frow :=
  match ls with [] => [] | FNode r :: l => r :: rows_of l | _ :: l => rows_of l end.
(** comments and blank lines, the version, then everything else *)
Definition file_text (pre ls : list fline) : string :=
  (lines_text pre ++ "1" ++ nl ++ lines_text ls)%string.
Definition good_row (state_len : Z) (N : nat) (r : frow) : Prop :=
  int_ok (f_id r) /\ Z.of_nat (List.length (f_state r)) = state_len /\ ints (f_state r) /\ int_ok (f_mode r) /\
  int_ok (f_rgrad r) /\ forall t, In t (f_trans r) -> 0 <= t < Z.of_nat N.
Definition good_file (state_len : Z) (pre ls : list fline) : Prop :=
  1 <= state_len /\ rows_of pre = [] /\ rows_of ls <> [] /\ Z.of_nat (List.length (rows_of ls)) < 2 ^ 31 /\
  (forall s, In (FComment s) (pre ++ ls) -> has_newline s = false) /\
  (forall r, In r (rows_of ls) -> good_row state_len (List.length (rows_of ls)) r) /\
  short_lines (file_text pre ls).

(** what the file says: node number [i] is described by the row with that ID *)
Definition says (rows : list frow) (L : list lnode) : Prop :=
  List.length L = List.length rows /\ NoDup (map l_addr L) /\
  forall i y, nth_error L i = Some y -> exists r, In r rows /\ f_id r = Z.of_nat i /\
    l_init y = Some (f_init r) /\ l_state y = f_state r /\ l_mode y = f_mode r /\ l_rgrad y = f_rgrad r /\
    Forall2 (fun t b => exists y', nth_error L (Z.to_nat t) = Some y' /\ l_addr y' = b) (f_trans r) (l_trans y).
(** what the loader makes of rows in any order: the transitions of node number [i]
    are taken from the [i]-th row of the file, as many as the row with ID [i] has *)
Definition mixes (rows : list frow) (L : list lnode) : Prop :=
  List.length L = List.length rows /\ NoDup (map l_addr L) /\
  forall i y, nth_error L i = Some y -> exists r ri, In r rows /\ f_id r = Z.of_nat i /\ nth_error rows i = Some ri /\
    l_init y = Some (f_init r) /\ l_state y = f_state r /\ l_mode y = f_mode r /\ l_rgrad y = f_rgrad r /\
    (List.length (f_trans r) <= List.length (f_trans ri))%nat /\
    Forall2 (fun t b => exists y', nth_error L (Z.to_nat t) = Some y' /\ l_addr y' = b)
      (firstn (List.length (f_trans r)) (f_trans ri)) (l_trans y).
(** some ID is missing, or the [i]-th row has fewer transitions than the row with
    ID [i] *)
Definition unreadable (rows : list frow) : Prop :=
  (exists i, (i < List.length rows)%nat /\ forall r, In r rows -> f_id r <> Z.of_nat i) \/
  (exists i r ri, In r rows /\ f_id r = Z.of_nat i /\ nth_error rows i = Some ri /\
     (List.length (f_trans ri) < List.length (f_trans r))%nat).
