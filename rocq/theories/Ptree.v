(** Model of src/ptree.c: parse trees, variable lists, integer expansion,
    printing, translation to BDDs. *)
From Coq Require Import List ZArith Lia Bool Arith String Ascii.
From Verif Require Import Base Bdd Strs.
Import ListNotations.
Open Scope string_scope.
Open Scope Z_scope.

(** include/ptree.h:30-51 node types *)
Inductive ty := PT_EMPTY | PT_VARIABLE | PT_NEXT_VARIABLE | PT_CONSTANT | PT_NEG
  | PT_AND | PT_OR | PT_IMPLIES | PT_EQUALS | PT_EQUIV | PT_LT | PT_GT | PT_LE
  | PT_GE | PT_NOTEQ.
Definition ty_eq_dec : forall a b : ty, {a = b} + {a <> b}.
Proof. decide equality. Defined.
Definition ty_eqb (a b : ty) : bool := if ty_eq_dec a b then true else false.

(** include/ptree.h:53-78 [ptree_t]; [name] is [None] for a NULL pointer. A tree
    is a value here: sharing between trees and freeing of nodes are not
    modelled. *)
Inductive ptree := NULL | pnd (t : ty) (name : option string) (value : Z) (left right : ptree).

Definition isvar (t : ty) : bool :=
  match t with PT_VARIABLE | PT_NEXT_VARIABLE => true | _ => false end.

(** ptree.c:20-48 init_ptree. The [value] field of an operator node is left
    uninitialised by the code and never read; it is 0 here. *)
Definition init_ptree (t : ty) (name : option string) (value : Z) : ptree :=
  match t with
  | PT_VARIABLE | PT_NEXT_VARIABLE => pnd t name value NULL NULL
  | PT_CONSTANT => pnd t None value NULL NULL
  | _ => pnd t None 0 NULL NULL
  end.
Definition set_left (h l : ptree) : ptree :=
  match h with NULL => NULL | pnd t n v _ r => pnd t n v l r end.
Definition set_right (h r : ptree) : ptree :=
  match h with NULL => NULL | pnd t n v l _ => pnd t n v l r end.

(** ptree.c:51-70 copy_ptree (allocation does not fail). *)
Fixpoint copy_ptree (head : ptree) : ptree :=
  match head with
  | NULL => NULL
  | pnd t n v l r => set_right (set_left (init_ptree t n v) (copy_ptree l)) (copy_ptree r)
  end.

(** ptree.c:92-154 min_tree_value, max_tree_value; [sel a b] is the comparison
    [a < b] resp. [a > b]. *)
Definition noval : Z := -9999.
Definition combine (sel : Z -> Z -> bool) (best childval : Z) : Z :=
  if negb (childval =? noval) && negb (best =? noval) then
    (if sel childval best then childval else best)
  else if negb (childval =? noval) then childval else best.
Fixpoint ext_tree_value (sel : Z -> Z -> bool) (head : ptree) : Z :=
  match head with
  | NULL => noval
  | pnd t _ v l r =>
      let best := if ty_eqb t PT_CONSTANT then v else noval in
      let best := combine sel best (ext_tree_value sel l) in
      combine sel best (ext_tree_value sel r)
  end.
Definition min_tree_value := ext_tree_value Z.ltb.
Definition max_tree_value := ext_tree_value Z.gtb.

(** strncmp(a, name, strlen(name)) == 0; strcmp(a, name) == 0 *)
Definition strncmp0 (a : option string) (name : string) : out bool :=
  match a with None => Crash | Some s => Ok (String.prefix name s) end.
Definition strcmp0 (a : option string) (name : string) : out bool :=
  match a with None => Crash | Some s => Ok (String.eqb s name) end.

(** ptree.c:156-242 rmin_tree_value, rmax_tree_value *)
Fixpoint rext_tree_value (sel : Z -> Z -> bool) (name : string) (head : ptree) : out Z :=
  match head with
  | NULL => Ok noval
  | pnd t _ _ l r =>
      best <- (if ty_eqb t PT_EQUALS then
                 match l, r with
                 | pnd tl nl vl _ _, pnd tr nr vr _ _ =>
                     a <- (if isvar tl && ty_eqb tr PT_CONSTANT then strncmp0 nl name
                           else Ok false) ;;
                     if a then Ok vr
                     else b <- (if isvar tr && ty_eqb tl PT_CONSTANT then strncmp0 nr name
                                else Ok false) ;;
                          if b then Ok vl else Ok noval
                 | _, _ => Crash
                 end
               else Ok noval) ;;
      cl <- rext_tree_value sel name l ;;
      cr <- rext_tree_value sel name r ;;
      Ok (combine sel (combine sel best cl) cr)
  end.
Definition rmin_tree_value := rext_tree_value Z.ltb.
Definition rmax_tree_value := rext_tree_value Z.gtb.

(** ptree.c:245-282 check_vars. The inner function is the [while (node)] scan. *)
Fixpoint scan_name (name : string) (node : ptree) : out bool :=
  match node with
  | NULL => Ok false
  | pnd _ n _ l _ => b <- strcmp0 n name ;; if b then Ok true else scan_name name l
  end.
Fixpoint check_vars (head var_list nextvar_list : ptree) : out (option string) :=
  match head with
  | NULL => Ok None
  | pnd t n _ l r =>
      bad <- (if isvar t then
                match n with
                | None => Crash
                | Some name =>
                    found <- scan_name name
                      (if ty_eqb t PT_VARIABLE then var_list else nextvar_list) ;;
                    if found then Ok None
                    else Ok (Some (if ty_eqb t PT_NEXT_VARIABLE then name ++ "'" else name))
                end
              else Ok None) ;;
      match bad with
      | Some x => Ok (Some x)
      | None =>
          bl <- check_vars l var_list nextvar_list ;;
          match bl with
          | Some x => Ok (Some x)
          | None => check_vars r var_list nextvar_list
          end
      end
  end.

(** ptree.c:522-527 tree_size *)
Fixpoint tree_size (head : ptree) : nat :=
  match head with NULL => O | pnd _ _ _ l r => S (tree_size l + tree_size r) end.

(** ptree.c:659-671 append_list_item; the result is the list as seen from [head]
    afterwards (the code returns a pointer to the new item). *)
Fixpoint append_list_item (head : ptree) (t : ty) (name : option string) (value : Z) : ptree :=
  match head with
  | NULL => init_ptree t name value
  | pnd t' n v l r => pnd t' n v (append_list_item l t name value) r
  end.

(** ptree.c:1120-1138 get_list_item *)
Fixpoint last_item (head : ptree) : ptree :=
  match head with
  | NULL => NULL
  | pnd _ _ _ l _ => match l with NULL => head | _ => last_item l end
  end.
Fixpoint nth_item (head : ptree) (i : nat) : ptree :=
  match i, head with
  | O, _ => head
  | S i', pnd _ _ _ l _ => nth_item l i'
  | S _, NULL => NULL
  end.
Definition get_list_item (head : ptree) (index : Z) : ptree :=
  match head with
  | NULL => NULL
  | _ => if index <? -1 then NULL
         else if index =? -1 then last_item head
         else nth_item head (Z.to_nat index)
  end.

(** ptree.c:1090-1117 find_list_item *)
Definition item_matches (t : ty) (name : option string) (value : Z)
    (t' : ty) (name' : option string) (value' : Z) : bool :=
  ty_eqb t' t &&
  (if isvar t' then
     match name, name' with Some a, Some b => String.eqb b a | _, _ => false end
   else if ty_eqb t' PT_CONSTANT then value' =? value
   else true).
Fixpoint find_list_from (head : ptree) (t : ty) (name : option string) (value : Z)
    (index : Z) : Z :=
  match head with
  | NULL => -1
  | pnd t' n v l _ =>
      if item_matches t name value t' n v then index
      else find_list_from l t name value (index + 1)
  end.
Definition find_list_item (head : ptree) (t : ty) (name : option string) (value : Z) : Z :=
  find_list_from head t name value 0.

(** ptree.c:674-719 remove_list_item: the returned pointer, and the list as seen
    from [head] afterwards ([None] when [head] itself was freed). *)
Fixpoint remove_after (head : ptree) (k : nat) : option (ptree * ptree) :=
  match head, k with
  | NULL, _ => None
  | pnd t n v l r, O =>
      match l with
      | NULL => None
      | pnd _ _ _ l' _ => let h := pnd t n v l' r in Some (h, h)
      end
  | pnd t n v l r, S k' =>
      match remove_after l k' with
      | Some (ret, l') => Some (ret, pnd t n v l' r)
      | None => None
      end
  end.
Definition remove_list_item (head : ptree) (index : Z) : out (ptree * option ptree) :=
  let len := Z.of_nat (tree_size head) in
  match head with
  | NULL => Ok (NULL, Some NULL)
  | pnd _ _ _ l _ =>
      if (index <? -1) || (len <=? index) then Ok (NULL, Some head)
      else if (index =? 0) || ((len =? 1) && (index =? -1)) then Ok (l, None)
      else
        let index := if index =? -1 then len - 1 else index in
        match remove_after head (Z.to_nat (index - 1)) with
        | Some (ret, h) => Ok (ret, Some h)
        | None => Crash
        end
  end.

(** ptree.c:722-729 pusht_terminal *)
Definition pusht_terminal (head : ptree) (t : ty) (name : option string) (value : Z) : ptree :=
  set_left (init_ptree t name value) head.

(** ptree.c:732-754 pusht_operator. [cut h]: walk down the left links to the end
    of the top operand; the rest of the stack found there, and [h] without it. *)
Definition stops (t : ty) : bool :=
  match t with
  | PT_EMPTY | PT_VARIABLE | PT_NEXT_VARIABLE | PT_CONSTANT | PT_NEG => true
  | _ => false
  end.
Fixpoint cut (prev : ptree) : ptree * ptree :=
  match prev with
  | NULL => (NULL, NULL)
  | pnd t n v l r =>
      match l with
      | NULL => (NULL, prev)
      | _ => if stops t then (l, pnd t n v NULL r)
             else let (rest, l') := cut l in (rest, pnd t n v l' r)
      end
  end.
Definition pusht_operator (head : ptree) (t : ty) : ptree :=
  match head with
  | NULL => NULL
  | _ => let (rest, top) := cut head in
         set_right (set_left (init_ptree t None 0) rest) top
  end.

(** ptree.c:615-656 merge_ptrees; the argument [len] is the length of the list. *)
Fixpoint merge_loop (t : ty) (rev_rest : list ptree) (first : ptree) : ptree :=
  match rev_rest with
  | [] => first
  | h :: r => set_left (set_right (init_ptree t None (-1)) h) (merge_loop t r first)
  end.
Definition merge_ptrees (heads : list ptree) (t : ty) : ptree :=
  match heads with
  | [] => NULL
  | [h] => h
  | first :: rest =>
      match t with
      | PT_AND | PT_OR | PT_IMPLIES => merge_loop t (rev rest) first
      | _ => NULL
      end
  end.

(** ** Integer variables *)

(** [(int)(ceil(log2(n)))] for n >= 1. Floating point is not modelled: for
    int arguments the double computation gives the exact ceiling. *)
Definition ceil_log2 (n : Z) : Z := Z.log2_up n.

(** snprintf into a buffer of VARNAME_STRING_LEN = 1024 chars (ptree.c:285) *)
Definition varname_cap : nat := Z.to_nat 1023.
Definition varname (name : string) (i : Z) : string :=
  substring 0 varname_cap (name ++ zdec i).

Fixpoint zseq_from (lo : Z) (k : nat) : list Z :=
  match k with O => [] | S k' => lo :: zseq_from (lo + 1) k' end.
(** the values of i in [for (i = lo; i <= hi; i++)] *)
Definition zseq (lo hi : Z) : list Z := zseq_from lo (Z.to_nat (hi - lo + 1)).

(** ptree.c:286-305 var_to_bool *)
Definition var_to_bool (name : string) (maxval : Z) : ptree :=
  if maxval <? 0 then NULL
  else
    let bits := ceil_log2 (maxval + 1) in
    fold_left (fun h i => append_list_item h PT_VARIABLE (Some (varname name i)) 0)
      (zseq 1 (bits - 1))
      (init_ptree PT_VARIABLE (Some (varname name 0)) 0).

Definition iscmp (t : ty) : bool :=
  match t with PT_LT | PT_GT | PT_LE | PT_GE | PT_NOTEQ => true | _ => false end.

Definition eq_node (tense : ty) (name : string) (i : Z) : ptree :=
  set_right (set_left (init_ptree PT_EQUALS None 0) (init_ptree tense (Some name) 0))
    (init_ptree PT_CONSTANT None i).

(** ptree.c:311-399 expand_nonbool_varnum. A NULL child is dereferenced. *)
Definition expand_nonbool_varnum (head : ptree) (name : string) (maxval : Z) : out ptree :=
  match head with
  | NULL => Ok NULL
  | pnd op _ _ l r =>
      if negb (iscmp op) then Ok head else
      match l, r with
      | pnd tl nl vl _ _, pnd tr nr vr _ _ =>
          a <- (if isvar tl && ty_eqb tr PT_CONSTANT then strcmp0 nl name else Ok false) ;;
          b <- (if a then Ok true
                else if isvar tr && ty_eqb tl PT_CONSTANT then strcmp0 nr name
                else Ok false) ;;
          if negb b then Ok head else
          let this_val := if ty_eqb tl PT_CONSTANT then vl else vr in
          let tense := if ty_eqb tl PT_CONSTANT then tr else tl in
          Ok (match op with
              | PT_NOTEQ =>
                  if (this_val <? 0) || (maxval <? this_val) then init_ptree PT_CONSTANT None 1
                  else merge_ptrees
                         (map (eq_node tense name)
                            (filter (fun i => negb (i =? this_val)) (zseq 0 maxval))) PT_OR
              | PT_LT =>
                  if this_val <=? 0 then init_ptree PT_CONSTANT None 0
                  else merge_ptrees (map (eq_node tense name) (zseq 0 (this_val - 1))) PT_OR
              | PT_GT =>
                  if maxval <=? this_val then init_ptree PT_CONSTANT None 0
                  else merge_ptrees (map (eq_node tense name) (zseq (this_val + 1) maxval)) PT_OR
              | PT_LE =>
                  if this_val <? 0 then init_ptree PT_CONSTANT None 0
                  else merge_ptrees (map (eq_node tense name) (zseq 0 this_val)) PT_OR
              | _ (* PT_GE *) =>
                  if maxval <? this_val then init_ptree PT_CONSTANT None 0
                  else merge_ptrees (map (eq_node tense name) (zseq this_val maxval)) PT_OR
              end)
      | _, _ => Crash
      end
  end.

(** ptree.c:465-478: literal for bit i *)
Definition bit_literal (varlist : ptree) (is_next : bool) (this_val : Z) (i : Z) : out ptree :=
  match get_list_item varlist i with
  | NULL => Crash
  | pnd t n v _ _ =>
      let leaf := pnd (if is_next then PT_NEXT_VARIABLE else t) n v NULL NULL in
      Ok (if Z.testbit this_val i then leaf
          else set_right (init_ptree PT_NEG None 0) leaf)
  end.
Fixpoint map_out {A B} (f : A -> out B) (l : list A) : out (list B) :=
  match l with
  | [] => Ok []
  | x :: l' => a <- f x ;; b <- map_out f l' ;; Ok (a :: b)
  end.

(** ptree.c:402-488 expand_to_bool; recursive on a tree that changes on the way,
    hence the recursion bound. *)
Fixpoint expand_to_bool (fuel : nat) (head : ptree) (name : string) (maxval : Z) : out ptree :=
  match fuel with
  | O => Fuel
  | S f =>
    match head with
    | NULL => Ok NULL
    | pnd t0 _ _ _ _ =>
      let num_bits := if 0 <? maxval then ceil_log2 (maxval + 1) else 1 in
      head <- (if iscmp t0 then expand_nonbool_varnum head name maxval else Ok head) ;;
      match head with
      | NULL => Crash   (* head->type with head == NULL *)
      | pnd t n v l r =>
        hit <- (if ty_eqb t PT_EQUALS then
                  match l, r with
                  | pnd tl nl _ _ _, pnd tr nr _ _ _ =>
                      a <- (if ty_eqb tl PT_CONSTANT then Ok false else strcmp0 nl name) ;;
                      if a then Ok true
                      else if ty_eqb tr PT_CONSTANT then Ok false else strcmp0 nr name
                  | _, _ => Crash
                  end
                else Ok false) ;;
        if hit then
          match l, r with
          | pnd tl _ vl _ _, pnd tr _ vr _ _ =>
              match var_to_bool name maxval with
              | NULL => Ok NULL
              | varlist =>
                let this_val := if ty_eqb tl PT_CONSTANT then vl else vr in
                let is_next := if ty_eqb tl PT_CONSTANT then negb (ty_eqb tr PT_VARIABLE)
                               else negb (ty_eqb tl PT_VARIABLE) in
                if (2 ^ num_bits - 1 <? this_val) || (this_val <? 0)
                then Ok (init_ptree PT_CONSTANT None 0)
                else heads <- map_out (bit_literal varlist is_next this_val)
                                (zseq 0 (num_bits - 1)) ;;
                     Ok (merge_ptrees heads PT_AND)
              end
          | _, _ => Crash
          end
        else
          l' <- expand_to_bool f l name maxval ;;
          r' <- expand_to_bool f r name maxval ;;
          Ok (pnd t n v l' r')
      end
    end
  end.

(** ptree.c:491-519 unreach_expanded_bool *)
Definition neq_node (t : ty) (name : string) (i : Z) : ptree :=
  set_right (init_ptree PT_NEG None 0) (eq_node t name i).
Definition unreach_expanded_bool (name : string) (lower upper : Z) (t : ty) : ptree :=
  if upper <? lower then NULL
  else if negb (isvar t) then NULL
  else fold_left
         (fun node i => set_left (set_right (init_ptree PT_AND None 0) node) (neq_node t name i))
         (zseq (lower + 1) upper) (neq_node t name lower).

(** ** Printing *)

(** ptree.c:807-961 print_formula; [spin] is [format_flags == FORMULA_SYNTAX_SPIN]. *)
Definition str_of (n : option string) : string :=
  match n with Some s => s | None => "(null)" end.
Definition op_text (spin : bool) (t : ty) : string :=
  match t with
  | PT_AND => if spin then "&&" else "&"
  | PT_OR => if spin then "||" else "|"
  | PT_IMPLIES => "->"
  | PT_EQUIV => "<->"
  | PT_EQUALS => if spin then "==" else "="
  | PT_NOTEQ => "!="
  | PT_LT => "<"
  | PT_GT => ">"
  | PT_GE => ">="
  | PT_LE => "<="
  | _ => ""
  end.
(** the test at ptree.c:855-858 (resp. 951-954 with the sides exchanged) *)
Definition num_beside_var (num var : ptree) : option Z :=
  match num, var with
  | pnd PT_CONSTANT _ v _ _, pnd t _ d _ _ => if isvar t && (0 <=? d) then Some v else None
  | _, _ => None
  end.
Fixpoint print_formula (spin : bool) (head : ptree) : string :=
  match head with
  | NULL => ""
  | pnd t n v l r =>
      let binary :=
        "(" ++ match num_beside_var l r with Some k => zdec k | None => print_formula spin l end
        ++ op_text spin t
        ++ match num_beside_var r l with Some k => zdec k | None => print_formula spin r end
        ++ ")" in
      match t with
      | PT_IMPLIES =>
          if spin then "(!" ++ print_formula spin l ++ "||" ++ print_formula spin r ++ ")"
          else binary
      | PT_EQUIV =>
          if spin then
            "((" ++ print_formula spin l ++ "&&" ++ print_formula spin r ++ ")||(!"
                 ++ print_formula spin l ++ "&&!" ++ print_formula spin r ++ "))"
          else binary
      | PT_AND | PT_OR | PT_EQUALS | PT_NOTEQ | PT_LT | PT_GT | PT_GE | PT_LE => binary
      | PT_NEG => "(!" ++ print_formula spin r ++ ")"
      | PT_VARIABLE => str_of n
      | PT_NEXT_VARIABLE => str_of n ++ (if spin then "_next" else "'")
      | PT_CONSTANT =>
          if v =? 0 then (if spin then "false" else "False")
          else if v =? 1 then (if spin then "true" else "True")
          else zdec v
      | PT_EMPTY => ""
      end
  end.

(** ** Translation to BDDs *)

(** ptree.c:964-1087 ptree_BDD; [m] is the number of manager variables. [Crash]
    stands for exit(-1) (variable not in the list) and for a NULL function
    handed to CUDD (node type without Boolean meaning). *)
Fixpoint ptree_BDD (m : nat) (head var_list : ptree) : out dt :=
  match head with
  | NULL => Crash
  | pnd t n v l r =>
      match t with
      | PT_AND => a <- ptree_BDD m l var_list ;; b <- ptree_BDD m r var_list ;; Ok (bAnd m a b)
      | PT_OR => a <- ptree_BDD m l var_list ;; b <- ptree_BDD m r var_list ;; Ok (bOr m a b)
      | PT_IMPLIES =>
          a <- ptree_BDD m l var_list ;; b <- ptree_BDD m r var_list ;; Ok (bOr m (bNot m a) b)
      | PT_EQUIV =>
          a <- ptree_BDD m l var_list ;; b <- ptree_BDD m r var_list ;;
          Ok (bAnd m (bOr m (bNot m a) b) (bOr m (bNot m b) a))
      | PT_NEG => a <- ptree_BDD m r var_list ;; Ok (bNot m a)
      | PT_VARIABLE =>
          let index := find_list_item var_list PT_VARIABLE n 0 in
          if index <? 0 then Crash
          else Ok (bAnd m (bOne m) (bVar m (Z.to_nat index)))
      | PT_NEXT_VARIABLE =>
          let index := find_list_item var_list PT_VARIABLE n 0 in
          if index <? 0 then Crash
          else Ok (bAnd m (bOne m) (bVar m (tree_size var_list + Z.to_nat index)))
      | PT_CONSTANT => Ok (if v =? 0 then bNot m (bOne m) else bOne m)
      | _ => Crash
      end
  end.
