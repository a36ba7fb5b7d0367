(** Model of src/automaton_io.c:21-364 (aut_aut_loadver, aut_aut_load,
    aut_aut_dumpver, aut_aut_dump): the gr1c automaton file format. A file is a text without
    NUL characters; malloc/realloc do not fail. The other writers (dot, json,
    tulip, Spin, txt) are not modelled here. *)
From Coq Require Import List ZArith Bool Arith Ascii String.
From Verif Require Import Base Strs Automaton.
Import ListNotations.
Open Scope string_scope.
Open Scope list_scope.
Open Scope Z_scope.

(** strtol clamps to the range of long (64 bits); assigning to an int or a char
    keeps the low 32 or 8 bits (the usual implementation-defined conversion). *)
Definition clamp (z : Z) : Z := Z.max (- 2 ^ 63) (Z.min (2 ^ 63 - 1) z).
Definition wrap (bits : Z) (z : Z) : Z := (z + 2 ^ (bits - 1)) mod 2 ^ bits - 2 ^ (bits - 1).
Definition to_int (z : Z) : Z := wrap 32 (clamp z).
Definition to_char (z : Z) : Z := wrap 8 (clamp z).

(** the strings fgets(line, 4096, fp) delivers one after the other: up to 4095
    characters, ending early after a newline; [k] counts what is left *)
Definition input_string_len : Z := 4096.
Definition newline : ascii := "010"%char.
Definition return_char : ascii := "013"%char.
Fixpoint fgets_all (k : Z) (text : string) : list string :=
  match text with
  | EmptyString => []
  | String c r =>
      if Ascii.eqb c newline || (k =? 1) then String c EmptyString :: fgets_all (input_string_len - 1) r
      else match fgets_all (k - 1) r with
           | [] => [String c EmptyString]
           | l :: ls => String c l :: ls
           end
  end.
Definition fgets_lines (text : string) : list string := fgets_all (input_string_len - 1) text.

(** automaton_io.c:64: comments and blank lines *)
Definition skipped (line : string) : bool :=
  match line with
  | EmptyString => true
  | String c _ => Ascii.eqb c "#" || Ascii.eqb c newline || Ascii.eqb c return_char
  end.
(** [start == end] after strtol(start, &end, 10): both are tails of one string *)
Definition same_pos (a b : string) : bool := (String.length a =? String.length b)%nat.
(** automaton_io.c:77: *end is the end of the line *)
Definition at_end (s : string) : bool :=
  match s with
  | EmptyString => true
  | String c _ => Ascii.eqb c newline || Ascii.eqb c return_char
  end.
Definition is_nul (s : string) : bool := match s with EmptyString => true | _ => false end.

(** automaton_io.c:104-110: the state vector; [None] if fewer values are found *)
Fixpoint read_vals (n : nat) (start : string) : option (list Z * string) :=
  match n with
  | O => Some ([], start)
  | S n' =>
      if is_nul start then None
      else let (v, e) := strtol start in
           if same_pos start e then None
           else match read_vals n' e with
                | Some (l, r) => Some (to_int v :: l, r)
                | None => None
                end
  end.
(** automaton_io.c:164-180: all remaining integers *)
Fixpoint read_trans (fuel : nat) (start : string) : out (list Z) :=
  match fuel with
  | O => Fuel
  | S f => let (v, e) := strtol start in
           if same_pos start e then Ok []
           else l <- read_trans f e ;; Ok (to_int v :: l)
  end.

(** what is kept of a line: an entry of ID_array, node_array and trans_array.
    [w_init] is [None] if the field is left uninitialised. The field [trans] of
    the node is not set here. *)
Record row := Row {
  w_id : Z; w_init : option bool; w_state : list Z; w_mode : Z; w_rgrad : Z; w_trans : list Z
}.
(** outcome of a line: an error before or after the node was allocated, a version
    number, or a row *)
Inductive line_res := LErr (allocated : bool) | LVersion (v : Z) | LRow (version : Z) (r : row).

(** automaton_io.c:142-180: the rest of a line from the mode on *)
Definition read_fields (version id : Z) (st : list Z) (init : option bool) (s2 : string) : out line_res :=
  let (mode, s3) := strtol s2 in
  if same_pos s2 s3 || is_nul s3 then Ok (LErr true)
  else let (rgrad, s4) := strtol s3 in
       if same_pos s3 s4 then Ok (LErr true)
       else tr <- read_trans (S (String.length s4)) s4 ;;
            Ok (LRow version (Row id init st (to_int mode) (to_int rgrad) tr)).
(** automaton_io.c:66-180: one line that is not skipped *)
Definition read_line (state_len : nat) (version : Z) (line : string) : out line_res :=
  let (id, e) := strtol line in
  let id := to_int id in
  if same_pos line e then Ok (LErr false)
  else if (version <? 0) && at_end e then
    (if id <? 0 then Ok (LErr false) else Ok (LVersion id))
  else
    let version := if version <? 0 then 0 else version in
    match read_vals state_len e with
    | None => Ok (LErr false)
    | Some (st, s1) =>
        if version =? 1 then
          let (init, s2) := strtol s1 in
          let init := to_char init in
          if same_pos s1 s2 || is_nul s2 then Ok (LErr true)
          else if negb (init =? 0) && negb (init =? 1) then Ok (LErr true)
          else read_fields version id st (Some (init =? 1)) s2
        else read_fields version id st (if version =? 0 then Some false else None) s1
    end.

(** automaton_io.c:61-218: the loop over the lines; [None] stands for "goto gc"
    with head = NULL. There delete_aut is called for every node allocated so far,
    and reads their field [trans], which has never been set: undefined unless
    there is no node. *)
Fixpoint read_lines (state_len : nat) (version : Z) (rows : list row) (ls : list string)
  : out (option (Z * list row)) :=
  match ls with
  | [] => Ok (Some (version, rows))
  | l :: ls' =>
      if skipped l then read_lines state_len version rows ls'
      else
        r <- read_line state_len version l ;;
        match r with
        | LErr allocated =>
            match rows with
            | [] => if allocated then Crash else Ok None
            | _ => Crash
            end
        | LVersion v => read_lines state_len v rows ls'
        | LRow v w => read_lines state_len v (rows ++ [w]) ls'
        end
  end.

(** position of the first row with that ID *)
Fixpoint find_row (rows : list row) (id : Z) : option nat :=
  match rows with
  | [] => None
  | w :: r => if w_id w =? id then Some O
              else match find_row r id with Some k => Some (S k) | None => None end
  end.
(** automaton_io.c:265-280: [trans] are the IDs of trans_array[i]; reading beyond
    them is undefined. An unknown ID leads to "goto gc" where nodes already chained
    are freed twice. *)
Fixpoint resolve (rows : list row) (n : nat) (trans : list Z) : out (list nat) :=
  match n with
  | O => Ok []
  | S n' =>
      match trans with
      | [] => Crash
      | t :: ts =>
          match find_row rows t with
          | None => Crash
          | Some k => l <- resolve rows n' ts ;; Ok (k :: l)
          end
      end
  end.
(** a node as it leaves the loader; the address is the position of its line.
    [None]: field [initial] uninitialised. When the node has no transitions its
    field [trans] stays uninitialised. *)
Record lnode := LNode {
  l_addr : nat; l_init : option bool; l_state : list Z; l_mode : Z; l_rgrad : Z; l_trans : list nat
}.
(** automaton_io.c:244-285: chain the nodes in the order of their IDs; the
    transitions of the node with ID [i] are looked up in trans_array[i] *)
Fixpoint chain (rows : list row) (n : nat) (i : nat) : out (list lnode) :=
  match n with
  | O => Ok []
  | S n' =>
      match find_row rows (Z.of_nat i) with
      | None => Crash
      | Some j =>
          match nth_error rows j, nth_error rows i with
          | Some w, Some wi =>
              tr <- resolve rows (List.length (w_trans w)) (w_trans wi) ;;
              rest <- chain rows n' (S i) ;;
              Ok (LNode j (w_init w) (w_state w) (w_mode w) (w_rgrad w) tr :: rest)
          | _, _ => Crash
          end
      end
  end.
(** automaton_io.c:21-306; the automaton and the version, [None] is NULL *)
Definition aut_aut_loadver (state_len : Z) (text : string) : out (option (list lnode * Z)) :=
  if state_len <? 1 then Ok None
  else
    r <- read_lines (Z.to_nat state_len) (-1) [] (fgets_lines text) ;;
    match r with
    | None | Some (_, []) => Ok None
    | Some (v, rows) => l <- chain rows (List.length rows) 0 ;; Ok (Some (l, v))
    end.
(** automaton_io.c:308-311 *)
Definition aut_aut_load (state_len : Z) (text : string) : out (option (list lnode)) :=
  r <- aut_aut_loadver state_len text ;;
  match r with None => Ok None | Some (l, _) => Ok (Some l) end.

(** automaton.c:257-270 delete_aut on the result: reads the field [trans] of every
    node *)
Definition delete_loaded (l : list lnode) : out unit :=
  if forallb (fun x => negb (List.length (l_trans x) =? 0)%nat) l then Ok tt else Crash.

(** automaton_io.c:314-364: the text and the returned value *)
Definition sp (z : Z) : string := " " ++ zdec z.
Fixpoint sps (l : list Z) : string :=
  match l with [] => "" | z :: r => sp z ++ sps r end.
Definition nl : string := String newline "".
Fixpoint take_state (n : nat) (st : list Z) : out (list Z) :=
  match n, st with
  | O, _ => Ok []
  | S _, [] => Crash
  | S n', z :: r => l <- take_state n' r ;; Ok (z :: l)
  end.
Fixpoint dump_nodes (head : aut) (state_len : nat) (v1 : bool) (node : aut) (counter : Z) : out string :=
  match node with
  | [] => Ok ""
  | x :: r =>
      st <- take_state state_len (astate x) ;;
      rest <- dump_nodes head state_len v1 r (counter + 1) ;;
      Ok (zdec counter ++ sps st ++
          (if v1 then sp (if ainit x then 1 else 0) else "") ++
          sps [amode x; argrad x] ++ sps (map (anode_index head) (atrans x)) ++ nl ++ rest)%string
  end.
Definition aut_aut_dumpver (head : aut) (state_len : Z) (version : Z) : out (string * Z) :=
  if (version =? 0) || (version =? 1) then
    s <- dump_nodes head (Z.to_nat state_len) (version =? 1) head 0 ;;
    Ok ((zdec version ++ nl ++ s)%string, 0)
  else Ok ((zdec version ++ nl)%string, -1).
Definition aut_aut_dump (head : aut) (state_len : Z) : out string :=
  r <- aut_aut_dumpver head state_len 1 ;; Ok (fst r).
