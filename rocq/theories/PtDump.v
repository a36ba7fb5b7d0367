(** Model of option -p of gr1c: "dump parse trees to DOT files, and echo formulas to
    screen" (src/main.c:391-481, src/util.c:442-548, src/ptree.c:530-612 and 757-804).

    A tree has no addresses here; [addr p] is the address of the node at position [p]: [] is
    the root, [false :: p] and [true :: p] the left and right child of the node at [p].
    print_GR1_spec writes to stdout, without time (lines 455-460), and the settings of the
    log are restored; what is written is a text. fprintf and fclose do not fail. *)
From Coq Require Import List ZArith Bool Ascii String.
From Verif Require Import Base Strs Ptree Support Solve Automaton Nonbool Main FormCheck FormPrint AutIO Lex Parse Output Options Program.
Import ListNotations.
Open Scope string_scope.
Open Scope Z_scope.

Definition quote : string := String "034" "".
Definition backslash_n : string := String "092" "n".

(** ptree.c:530-597 print_node. The name of a variable is not NULL, or printf crashes. *)
Definition print_node (node : ptree) : out string :=
  match node with
  | NULL => Crash
  | pnd t n v _ _ =>
      match t with
      | PT_EMPTY => Ok "(empty)"
      | PT_VARIABLE => match n with None => Crash | Some x => Ok x end
      | PT_NEXT_VARIABLE => match n with None => Crash | Some x => Ok (x ++ "'") end
      | PT_CONSTANT => Ok (zdec v)
      | PT_NEG => Ok "!"
      | PT_AND => Ok "&"
      | PT_OR => Ok "|"
      | PT_IMPLIES => Ok "->"
      | PT_EQUIV => Ok "<->"
      | PT_EQUALS => Ok "="
      | PT_NOTEQ => Ok "!="
      | PT_LT => Ok "<"
      | PT_GT => Ok ">"
      | PT_LE => Ok "<="
      | PT_GE => Ok ">="
      end
  end.
(** ptree.c:600-610 inorder_trav; the function writes a text *)
Fixpoint inorder_trav (head : ptree) (node_fn : list bool -> ptree -> out string) (p : list bool) : out string :=
  match head with
  | NULL => Ok ""
  | pnd _ _ _ l r =>
      a <- inorder_trav l node_fn (false :: p) ;;
      b <- node_fn p head ;;
      c <- inorder_trav r node_fn (true :: p) ;;
      Ok (a ++ b ++ c)
  end.
(** ptree.c:757-777 tree_dot_dump_node *)
Definition tree_dot_dump_node (addr : list bool -> Z) (p : list bool) (node : ptree) : out string :=
  match node with
  | NULL => Crash
  | pnd _ _ _ lch rch =>
      me <- print_node node ;;
      let start := quote ++ zdec (addr p) ++ ";" ++ backslash_n ++ me in
      a <- (match lch with
            | NULL => Ok ""
            | _ => c <- print_node lch ;;
                   Ok (start ++ quote ++ " -> " ++ quote ++ zdec (addr (false :: p)) ++ ";" ++ backslash_n ++ c ++ quote ++ nl)
            end) ;;
      b <- (match rch with
            | NULL => Ok ""
            | _ => c <- print_node rch ;;
                   Ok (start ++ quote ++ " -> " ++ quote ++ zdec (addr (true :: p)) ++ ";" ++ backslash_n ++ c ++ quote ++ nl)
            end) ;;
      Ok (start ++ quote ++ nl ++ a ++ b)
  end.
(** ptree.c:780-804 tree_dot_dump, if the file can be opened *)
Definition tree_dot_dump (addr : list bool -> Z) (head : ptree) : out string :=
  t <- inorder_trav head (tree_dot_dump_node addr) [] ;;
  Ok ("digraph PT {" ++ nl ++ t ++ "}" ++ nl).

(** "%05d" of a number that is not negative *)
Fixpoint zeros (k : nat) : string := match k with O => "" | S k' => String "0" (zeros k') end.
Definition zdec05 (n : nat) : string := let s := zdec (Z.of_nat n) in zeros (5 - String.length s) ++ s.
(** main.c:395-404 and, for the goals, 406-419: one file for each tree of an array *)
Fixpoint dump_array (kind : string) (i : nat) (trees : list ptree) : list (string * ptree) :=
  match trees with
  | [] => []
  | t :: r => ((kind ++ zdec05 i ++ "_ptree.dot"), t) :: dump_array kind (S i) r
  end.
(** main.c:392-419: the files and the trees that go into them. 64 bytes are enough for the
    names. *)
Definition dump_list (sp : raw_t) : list (string * ptree) :=
  ([("env_init_ptree.dot", r_einit sp); ("sys_init_ptree.dot", r_sinit sp)] ++
   dump_array "env_trans" 0 (r_etrans sp) ++ dump_array "sys_trans" 0 (r_strans sp) ++
   dump_array "env_goal" 0 (r_egoals sp) ++ dump_array "sys_goal" 0 (r_sgoals sp))%list.
(** each tree is dumped in turn; if a file cannot be opened, the program exits. [addr f] is
    for the tree that goes into file [f]. The result: what has been written, and whether the
    program is still running. *)
Fixpoint dump_trees (W : world) (addr : string -> list bool -> Z) (l : list (string * ptree))
    : out (list (string * string) * bool) :=
  match l with
  | [] => Ok ([], true)
  | (f, t) :: r =>
      if w_writable W f then
        s <- tree_dot_dump (addr f) t ;;
        d <- dump_trees W addr r ;;
        Ok ((f, s) :: fst d, snd d)
      else Ok ([], false)
  end.

(** main.c:426-446 (and 454-474): the loop over a list of variables *)
Fixpoint echo_vars (i : nat) (l : ptree) : out string :=
  match l with
  | NULL => Ok ""
  | pnd _ n v lch _ =>
      match n with
      | None => Crash
      | Some x =>
          let comma := match lch with NULL => "" | _ => ", " end in
          r <- echo_vars (S i) lch ;;
          Ok (x ++ " (" ++ zdec (Z.of_nat i) ++
              (if v =? -1 then "; bool)" else "; {0.." ++ zdec v ++ "})") ++ comma ++ r)
      end
  end.
Definition echo_list (i : nat) (l : ptree) : out string :=
  match l with NULL => Ok "(none)" | _ => echo_vars i l end.
(** main.c:421-474 *)
Definition echo_indices (sp : raw_t) : out string :=
  e <- echo_list 0 (r_evars sp) ;;
  s <- echo_list (tree_size (r_evars sp)) (r_svars sp) ;;
  Ok ("Environment variables (indices; domains): " ++ e ++ nl ++ nl ++
      "System variables (indices; domains): " ++ s ++ nl ++ nl).

(** util.c:463-467 *)
Fixpoint print_names (l : ptree) : out string :=
  match l with
  | NULL => Ok ""
  | pnd _ n _ lch _ =>
      match n with None => Crash | Some x => r <- print_names lch ;; Ok (" " ++ x ++ r) end
  end.
(** util.c:492-497: the formulas after the first *)
Fixpoint print_more (sep : string) (l : list ptree) : out string :=
  match l with
  | [] => Ok ""
  | t :: r => a <- print_formula FORMULA_SYNTAX_GR1C t ;; b <- print_more sep r ;; Ok (" & " ++ sep ++ " " ++ a ++ b)
  end.
(** util.c:487-499, 502-514, 517-528, 531-542 *)
Definition print_array (sep : string) (l : list ptree) : out string :=
  match l with
  | [] => Ok "(none)"
  | t :: r => a <- print_formula FORMULA_SYNTAX_GR1C t ;; b <- print_more sep r ;; Ok (sep ++ " " ++ a ++ b)
  end.
(** util.c:442-548 print_GR1_spec *)
Definition print_GR1_spec (sp : raw_t) : out string :=
  ev <- print_names (r_evars sp) ;;
  sv <- print_names (r_svars sp) ;;
  ei <- print_formula FORMULA_SYNTAX_GR1C (r_einit sp) ;;
  si <- print_formula FORMULA_SYNTAX_GR1C (r_sinit sp) ;;
  et <- print_array "[]" (r_etrans sp) ;;
  st <- print_array "[]" (r_strans sp) ;;
  eg <- print_array "[]<>" (r_egoals sp) ;;
  sg <- print_array "[]<>" (r_sgoals sp) ;;
  Ok ("ENV:" ++ ev ++ ";" ++ nl ++ "SYS:" ++ sv ++ ";" ++ nl ++
      "ENV INIT:  " ++ ei ++ ";" ++ nl ++ "SYS INIT:  " ++ si ++ ";" ++ nl ++
      "ENV TRANS:  " ++ et ++ ";" ++ nl ++ "SYS TRANS:  " ++ st ++ ";" ++ nl ++
      "ENV GOALS:  " ++ eg ++ ";" ++ nl ++ "SYS GOALS:  " ++ sg ++ ";" ++ nl).

(** main.c:391-481: what is written to the files and to stdout, and whether the program is
    still running *)
Definition dump_and_echo (W : world) (addr : string -> list bool -> Z) (sp : raw_t)
    : out (list (string * string) * string * bool) :=
  d <- dump_trees W addr (dump_list sp) ;;
  if snd d then
    a <- echo_indices sp ;; b <- print_GR1_spec sp ;; Ok (fst d, a ++ b, true)
  else Ok (fst d, "", false).
(** main.c:335-481. [None]: the program returns before it comes to line 391. *)
Definition dump_phase (W : world) (addr : string -> list bool -> Z) (o : opts) (text : string)
    : out (option (list (string * string) * string * bool)) :=
  p <- yyparse text ;;
  match p with
  | None => Ok None
  | Some raw =>
      c <- check_gr1c_form raw (o_init o) ;;
      if fst c <? 0 then Ok None
      else match o_run o with
      | GR1C_MODE_SYNTAX => Ok None
      | _ => d <- dump_and_echo W addr (with_defaults raw) ;; Ok (Some d)
      end
  end.
Definition put_before (s : string) (r : outcome) : outcome :=
  match r with Exits c t f => Exits c (s ++ t) f | _ => r end.
(** main() with option -p allowed: the DOT files that are written, and the outcome. The text
    is parsed in [dump_phase] and again in [gr1c_go]; the program parses it once. *)
Definition gr1c_program_p (orc : oracle) (alloc : nat -> aut -> nat) (ptr : nat -> string) (date : string)
    (addr : string -> list bool -> Z) (fuel : nat) (W : world) (args : list string)
    : out (list (string * string) * outcome) :=
  s <- read_options args ;;
  match s with
  | Sub p a => Ok ([], Runs p a)
  | Stop c p => Ok ([], Prints c p)
  | Go o =>
      if negb (o_verbose o =? 0) || o_logging o then Ok ([], Other)
      else
        d <- (match o_ptdump o, open_input W (o_input o) with
              | true, Some text => dump_phase W addr o text
              | _, _ => Ok None
              end) ;;
        match d with
        | None => r <- gr1c_go orc alloc ptr date fuel W o ;; Ok ([], r)
        | Some (files, screen, true) => r <- gr1c_go orc alloc ptr date fuel W o ;; Ok (files, put_before screen r)
        | Some (files, screen, false) => Ok (files, Exits (-1) screen None)
        end
  end.
