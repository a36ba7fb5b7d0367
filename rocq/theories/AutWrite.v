(** Model of src/automaton_io.c:367-866: the writers for Graphviz DOT, TuLiP XML,
    the plain list and JSON. Each function yields the text written to [fp] (and the
    returned value where there is one). Writing does not fail.

    [%p] is implementation-defined: the parameter [ptr] gives the text for an
    address. The time stamp of the JSON format comes from the clock: the parameter
    [date] is the text strftime produced (its failure, lines 795-799, does not occur
    in a year of four digits). GR1C_VERSION is "0.13.4" (include/common.h:15-18,
    GR1C_DEVEL empty). *)
From Coq Require Import List ZArith Bool Arith Ascii String.
From Verif Require Import Base Strs Ptree Automaton AutIO.
Import ListNotations.
Open Scope string_scope.
Open Scope list_scope.
Open Scope Z_scope.

Definition GR1C_VERSION : string := "0.13.4".
(** the quotation mark, and texts between such marks in the C source *)
Definition q : string := String "034" "".
(** the backslash *)
Definition bs : string := String "092" "".

(** *(state+i) *)
Definition at_state (st : vec) (i : nat) : out Z :=
  match nth_error st i with Some z => Ok z | None => Crash end.
(** get_list_item( list, i ) followed by reads of ->name and ->value *)
Definition item_name (l : ptree) (i : nat) : out string :=
  match get_list_item l (Z.of_nat i) with
  | pnd _ (Some n) _ _ _ => Ok n
  | _ => Crash
  end.
Definition item_value (l : ptree) (i : nat) : out Z :=
  match get_list_item l (Z.of_nat i) with
  | pnd _ _ v _ _ => Ok v
  | NULL => Crash
  end.
(** for (i = 0; i < n; i++) fprintf( fp, ... ) *)
Definition cat (l : list string) : string := fold_right append "" l.
Definition for_print (n : nat) (f : nat -> out string) : out string :=
  l <- map_out f (seq 0 n) ;; Ok (cat l).

(** ** JSON *)

(** automaton_io.c:806-817 and 819-830: the two lists of variables; [sep] is what
    follows "[0," (nothing for ENV, a space for SYS) *)
Definition json_vars (l : ptree) (sep : string) : out string :=
  let n := tree_size l in
  for_print n (fun i =>
    name <- item_name l i ;;
    value <- item_value l i ;;
    Ok ("{" ++ q ++ name ++ q ++ ": " ++
        (if (0 <=? value)%Z then "[0," ++ sep ++ zdec value ++ "]}" else q ++ "boolean" ++ q ++ "}") ++
        (if (Z.of_nat i <? Z.of_nat n - 1)%Z then ", " else ""))%string).
(** automaton_io.c:834-862 *)
Fixpoint json_nodes (ptr : nat -> string) (n : nat) (head : aut) : out string :=
  match head with
  | [] => Ok ""
  | x :: next =>
      state <- for_print n (fun i =>
        z <- at_state (astate x) i ;;
        Ok (zdec z ++ (if (Z.of_nat i <? Z.of_nat n - 1)%Z then ", " else ""))%string) ;;
      let trans_len := List.length (atrans x) in
      trans <- for_print trans_len (fun i =>
        match nth_error (atrans x) i with
        | Some t => Ok (q ++ ptr t ++ q ++ (if (Z.of_nat i <? Z.of_nat trans_len - 1)%Z then ", " else ""))%string
        | None => Crash
        end) ;;
      rest <- json_nodes ptr n next ;;
      Ok (q ++ ptr (aid x) ++ q ++ ": {" ++ nl ++
          "    " ++ q ++ "state" ++ q ++ ": [" ++ state ++
          "]," ++ nl ++ "    " ++ q ++ "mode" ++ q ++ ": " ++ zdec (amode x) ++ "," ++ nl ++
          "    " ++ q ++ "rgrad" ++ q ++ ": " ++ zdec (argrad x) ++ "," ++ nl ++
          "    " ++ q ++ "initial" ++ q ++ ": " ++ (if ainit x then "true" else "false") ++ "," ++ nl ++
          "    " ++ q ++ "trans" ++ q ++ ": [" ++ trans ++ "] }" ++
          (match next with [] => "" | _ => "," end) ++ nl ++ rest)%string
  end.
(** automaton_io.c:776-866 json_aut_dump *)
Definition json_aut_dump (ptr : nat -> string) (date : string) (head : aut) (evar_list svar_list : ptree)
  : out (string * Z) :=
  env <- json_vars evar_list "" ;;
  sys <- json_vars svar_list " " ;;
  nodes <- json_nodes ptr (tree_size evar_list + tree_size svar_list) head ;;
  Ok (("{" ++ q ++ "version" ++ q ++ ": 1," ++ nl ++
       " " ++ q ++ "gr1c" ++ q ++ ": " ++ q ++ GR1C_VERSION ++ q ++ "," ++ nl ++
       " " ++ q ++ "date" ++ q ++ ": " ++ q ++ date ++ q ++ "," ++ nl ++
       " " ++ q ++ "extra" ++ q ++ ": " ++ q ++ q ++ "," ++ nl ++ nl ++
       " " ++ q ++ "ENV" ++ q ++ ": [" ++ env ++ "]," ++ nl ++
       " " ++ q ++ "SYS" ++ q ++ ": [" ++ sys ++ "]," ++ nl ++ nl ++
       " " ++ q ++ "nodes" ++ q ++ ": {" ++ nl ++ nodes ++ "}}" ++ nl)%string, 0).

(** ** Plain list *)

(** printf("%<w>d"): padding with blanks on the left *)
Fixpoint blanks (n : nat) : string := match n with O => "" | S n' => String " " (blanks n') end.
Definition padded (w : nat) (z : Z) : string := (blanks (w - String.length (zdec z)) ++ zdec z)%string.
(** automaton_io.c:745-773 list_aut_dump *)
Fixpoint list_nodes (head : aut) (state_len : Z) (node : aut) (counter : Z) : out string :=
  match node with
  | [] => Ok ""
  | x :: next =>
      state <-
        (if 0 <? state_len then
           first <- for_print (Z.to_nat (state_len - 1)) (fun i =>
             z <- at_state (astate x) i ;; Ok (zdec z ++ ",")%string) ;;
           last <- at_state (astate x) (Z.to_nat (state_len - 1)) ;;
           Ok (first ++ zdec last)%string
         else Ok "(nil)") ;;
      rest <- list_nodes head state_len next (counter + 1) ;;
      Ok (padded 4 counter ++ " " ++ (if ainit x then "(init) " else "") ++ ": " ++ state ++
          " - " ++ padded 2 (amode x) ++ " - " ++ padded 2 (argrad x) ++ " - [" ++
          cat (map (fun t => (" " ++ zdec (anode_index head t))%string) (atrans x)) ++ "]" ++ nl ++ rest)%string
  end.
Definition list_aut_dump (head : aut) (state_len : Z) : out string := list_nodes head state_len head 0.

(** ** TuLiP *)

(** automaton_io.c:675-686 and 689-700 *)
Definition tulip_vars (l : ptree) : out string :=
  for_print (tree_size l) (fun i =>
    name <- item_name l i ;;
    value <- item_value l i ;;
    Ok (if (0 <=? value)%Z
        then "    <item key=" ++ q ++ name ++ q ++ " value=" ++ q ++ "[0," ++ zdec value ++ "]" ++ q ++ " />" ++ nl
        else "    <item key=" ++ q ++ name ++ q ++ " value=" ++ q ++ "boolean" ++ q ++ " />" ++ nl)%string).
(** automaton_io.c:713-733 *)
Definition tulip_item (l : ptree) (st : vec) (offset i : nat) : out string :=
  name <- item_name l i ;;
  z <- at_state st (offset + i) ;;
  Ok ("        <item key=" ++ q ++ name ++ q ++ " value=" ++ q ++ zdec z ++ q ++ " />" ++ nl)%string.
Fixpoint tulip_nodes (head : aut) (evar_list svar_list : ptree) (node : aut) (counter : Z) : out string :=
  match node with
  | [] => Ok ""
  | x :: next =>
      let num_env := tree_size evar_list in
      env <- for_print num_env (tulip_item evar_list (astate x) 0) ;;
      sys <- for_print (tree_size svar_list) (tulip_item svar_list (astate x) num_env) ;;
      rest <- tulip_nodes head evar_list svar_list next (counter + 1) ;;
      Ok ("    <node>" ++ nl ++ "      <id>" ++ zdec counter ++ "</id><anno>" ++
          (if (negb (amode x =? -1) && negb (argrad x =? -1))%Z
           then zdec (amode x) ++ " " ++ zdec (argrad x) else "") ++
          "</anno>" ++ nl ++ "      <child_list>" ++
          cat (map (fun t => (" " ++ zdec (anode_index head t))%string) (atrans x)) ++
          "</child_list>" ++ nl ++ "      <state>" ++ nl ++ env ++ sys ++
          "      </state>" ++ nl ++ "    </node>" ++ nl ++ rest)%string
  end.
(** automaton_io.c:656-742 tulip_aut_dump *)
Definition tulip_aut_dump (head : aut) (evar_list svar_list : ptree) : out (string * Z) :=
  env <- tulip_vars evar_list ;;
  sys <- tulip_vars svar_list ;;
  nodes <- tulip_nodes head evar_list svar_list head 0 ;;
  Ok (("<?xml version=" ++ q ++ "1.0" ++ q ++ " encoding=" ++ q ++ "UTF-8" ++ q ++ "?>" ++ nl ++
       "<tulipcon xmlns=" ++ q ++ "http://tulip-control.sourceforge.net/ns/1" ++ q ++
       " version=" ++ q ++ "1" ++ q ++ ">" ++ nl ++
       "  <env_vars>" ++ nl ++ env ++ "  </env_vars>" ++ nl ++
       "  <sys_vars>" ++ nl ++ sys ++ "  </sys_vars>" ++ nl ++
       "  <spec>" ++ nl ++ "    <env_init></env_init><env_safety></env_safety><env_prog></env_prog>" ++
       "<sys_init></sys_init><sys_safety></sys_safety><sys_prog></sys_prog>" ++ nl ++
       "  </spec>" ++ nl ++
       "  <aut type=" ++ q ++ "basic" ++ q ++ ">" ++ nl ++ nodes ++ "  </aut>" ++ nl ++
       "  <extra>created using gr1c, version " ++ GR1C_VERSION ++ "</extra>" ++ nl ++ "</tulipcon>" ++ nl)%string, 0).

(** ** DOT *)

(** include/automaton.h:51-57: the flags; DOT_AUT_ALL is 0, so [flags & DOT_AUT_ALL]
    is false always *)
Record dot_flags := DotFlags { DOT_AUT_BINARY : bool; DOT_AUT_EDGEINPUT : bool; DOT_AUT_ATTRIB : bool }.
Definition flag_all : bool := false.

(** automaton_io.c:405-410, 536-542: the last index below [n] whose value, read at
    [offset], is not 0; -1 if there is none *)
Fixpoint last_nonzero (st : vec) (offset n : nat) : out Z :=
  match n with
  | O => Ok (-1)
  | S i => z <- at_state st (offset + i) ;;
           if z =? 0 then last_nonzero st offset i else Ok (Z.of_nat i)
  end.
(** automaton_io.c:401-411 and 532-543 *)
Definition last_env (f : dot_flags) (st : vec) (num_env : nat) : out Z :=
  if DOT_AUT_BINARY f then last_nonzero st 0 num_env else Ok (Z.of_nat num_env - 1).
Definition last_sys (f : dot_flags) (st : vec) (num_env num_sys : nat) : out Z :=
  if DOT_AUT_BINARY f then last_nonzero st num_env num_sys else Ok (Z.of_nat num_sys - 1).

(** snprintf( this_node_str+nb, INPUT_STRING_LEN-nb, ... ) and the test of [nb]
    after it. [None] stands for [return -1]. *)
Definition snp (buf : string) (s : string) : option string :=
  let b := (buf ++ s)%string in
  if input_string_len <=? Z.of_nat (String.length b) then None else Some b.
Definition snp_if (buf : option string) (s : string) : option string :=
  match buf with Some b => snp b s | None => None end.
(** a loop over [seq i n] that stops on -1 *)
Fixpoint snp_loop (f : nat -> option string -> out (option string)) (i n : nat) (buf : option string)
  : out (option string) :=
  match n with
  | O => Ok buf
  | S n' => match buf with
            | None => Ok None
            | Some _ => b <- f i buf ;; snp_loop f (S i) n' b
            end
  end.
(** the body of the loops 419-464 (env) and 473-511 (sys); [tail] is what follows the
    last entry *)
Definition buf_entry (f : dot_flags) (l : ptree) (st : vec) (offset : nat) (last : Z) (tail : string)
    (j : nat) (buf : option string) : out (option string) :=
  z <- at_state st (offset + j) ;;
  if DOT_AUT_BINARY f && (z =? 0) then Ok buf
  else
    name <- item_name l j ;;
    if Z.of_nat j =? last then
      let b := if DOT_AUT_BINARY f then snp_if buf name else snp_if buf (name ++ "=" ++ zdec z) in
      Ok (if String.eqb tail "" then b else snp_if b tail)
    else
      Ok (if DOT_AUT_BINARY f then snp_if buf (name ++ ", ") else snp_if buf (name ++ "=" ++ zdec z ++ ", ")).
(** automaton_io.c:390-516: the buffered node string; [None] stands for [return -1] *)
Definition node_str (f : dot_flags) (evar_list svar_list : ptree) (counter : Z) (x : anode) : out (option string) :=
  let num_env := tree_size evar_list in
  let num_sys := tree_size svar_list in
  let b0 := snp "" (q ++ zdec counter ++ ";" ++ bs ++ "n") in
  let b1 := if DOT_AUT_ATTRIB f
            then snp_if b0 ("(" ++ zdec (amode x) ++ ", " ++ zdec (argrad x) ++ ")" ++ bs ++ "n") else b0 in
  le <- last_env f (astate x) num_env ;;
  ls <- last_sys f (astate x) num_env num_sys ;;
  b2 <- (if (le <? 0) && (ls <? 0) then Ok (snp_if b1 "{}")
         else
           b <- (if negb (DOT_AUT_EDGEINPUT f) then
                   snp_loop (buf_entry f evar_list (astate x) 0 le
                     (if ((0 <=? ls) || flag_all) && negb (DOT_AUT_EDGEINPUT f) then ", " else "")) 0 num_env b1
                 else Ok b1) ;;
           if (ls <? 0) && DOT_AUT_EDGEINPUT f then Ok (snp_if b "{}")
           else snp_loop (buf_entry f svar_list (astate x) num_env ls "") 0 num_sys b) ;;
  Ok (snp_if b2 q).
(** the body of the loops 548-576, 582-608 and 617-641, which write to [fp] *)
Definition edge_entry (f : dot_flags) (l : ptree) (st : vec) (offset : nat) (last : Z) (tail : string) (j : nat)
  : out string :=
  z <- at_state st (offset + j) ;;
  if DOT_AUT_BINARY f && (z =? 0) then Ok ""
  else
    name <- item_name l j ;;
    if Z.of_nat j =? last
    then Ok ((if DOT_AUT_BINARY f then name else name ++ "=" ++ zdec z) ++ tail)%string
    else Ok (if DOT_AUT_BINARY f then name ++ ", " else name ++ "=" ++ zdec z ++ ", ")%string.
(** automaton_io.c:526-644: the target of an edge, and the label of the edge; the
    transition is dereferenced *)
Definition edge_str (f : dot_flags) (evar_list svar_list : ptree) (head : aut) (t : nat) : out string :=
  match deref head t with
  | None => Crash
  | Some y =>
      let num_env := tree_size evar_list in
      let num_sys := tree_size svar_list in
      le <- last_env f (astate y) num_env ;;
      ls <- last_sys f (astate y) num_env num_sys ;;
      body <-
        (if (le <? 0) && (ls <? 0) then Ok "{}"
         else
           a <- (if negb (DOT_AUT_EDGEINPUT f) then
                   for_print num_env (edge_entry f evar_list (astate y) 0 le
                     (if ((0 <=? ls) || flag_all) && negb (DOT_AUT_EDGEINPUT f) then ", " else ""))
                 else Ok "") ;;
           b <- (if (ls <? 0) && DOT_AUT_EDGEINPUT f then Ok "{}"
                 else for_print num_sys (edge_entry f svar_list (astate y) num_env ls "")) ;;
           Ok (a ++ b)%string) ;;
      label <-
        (if DOT_AUT_EDGEINPUT f then
           c <- (if le <? 0 then Ok "{}"
                 else for_print num_env (edge_entry f evar_list (astate y) 0 le "")) ;;
           Ok ("[label=" ++ q ++ c ++ q ++ "]")%string
         else Ok "") ;;
      Ok (q ++ zdec (anode_index head t) ++ ";" ++ bs ++ "n" ++
          (if DOT_AUT_ATTRIB f
           then "(" ++ zdec (amode y) ++ ", " ++ zdec (argrad y) ++ ")" ++ bs ++ "n" else "") ++
          body ++ q ++ label)%string
  end.
(** automaton_io.c:388-649: the text written and whether the end was reached *)
Fixpoint dot_nodes (f : dot_flags) (evar_list svar_list : ptree) (head : aut) (node : aut) (counter : Z)
  : out (string * bool) :=
  match node with
  | [] => Ok ("", true)
  | x :: next =>
      b <- node_str f evar_list svar_list counter x ;;
      match b with
      | None => Ok ("", false)
      | Some s =>
          edges <- map_out (fun t => e <- edge_str f evar_list svar_list head t ;;
                                     Ok ("    " ++ s ++ " -> " ++ e ++ nl)%string) (atrans x) ;;
          rest <- dot_nodes f evar_list svar_list head next (counter + 1) ;;
          Ok (("    " ++ s ++ nl ++ (if ainit x then "    " ++ q ++ q ++ " -> " ++ s ++ nl else "") ++
               cat edges ++ fst rest)%string, snd rest)
      end
  end.
(** automaton_io.c:367-653 dot_aut_dump *)
Definition dot_aut_dump (f : dot_flags) (head : aut) (evar_list svar_list : ptree) : out (string * Z) :=
  r <- dot_nodes f evar_list svar_list head head 0 ;;
  let pre := ("/* created using gr1c, version " ++ GR1C_VERSION ++ " */" ++ nl ++
              "digraph A {" ++ nl ++ "    " ++ q ++ q ++ " [shape=none]" ++ nl)%string in
  Ok (if snd r then ((pre ++ fst r ++ "}" ++ nl)%string, 0) else ((pre ++ fst r)%string, -1)).
