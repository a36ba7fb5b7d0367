(** Model of src/automaton_io.c:869-1178: the verification model for Spin.

    [spin_aut_dump] yields the text written to [fp], the text written to [formula_fp]
    ([None] if both are the same stream) and the returned value. Writing does not fail,
    malloc( 0 ) does not return NULL. Lists are read with get_list_item instead of a
    pointer that moves along. *)
From Coq Require Import List ZArith Bool Arith Ascii String.
From Verif Require Import Base Strs Ptree FormPrint Solve Support Automaton AutIO AutWrite Nonbool Main.
Import ListNotations.
Open Scope string_scope.
Open Scope list_scope.
Open Scope Z_scope.

(** printf("%04d") *)
Fixpoint zeros (n : nat) : string := match n with O => "" | S n' => String "0" (zeros n') end.
Definition dec4 (z : Z) : string := (zeros (4 - String.length (zdec z)) ++ zdec z)%string.
Definition is_NULL (p : ptree) : bool := match p with NULL => true | _ => false end.

(** automaton_io.c:869-895 spin_aut_ltl_formula *)
Definition spin_aut_ltl_formula (num_env : nat) (env_init sys_init : ptree) (num_env_goals num_sys_goals : nat)
  : string :=
  ((if (0 <? num_env)%nat then
      "(" ++ (if is_NULL env_init then "" else "X envinit && ") ++
      "[] (!checketrans || envtrans)" ++
      cat (map (fun i => (" && []<> envgoal" ++ dec4 (Z.of_nat i))%string) (seq 0 num_env_goals)) ++
      ") -> ("
    else "") ++
   (if is_NULL sys_init then "" else "X sysinit && ") ++
   "[] (!checkstrans || systrans)" ++
   cat (map (fun i => (" && []<> sysgoal" ++ dec4 (Z.of_nat i))%string) (seq 0 num_sys_goals)) ++
   " && [] !pmlfault" ++
   (if (0 <? num_env)%nat then ")" else "") ++ nl)%string.

(** automaton_io.c:946-955, 972-981: the transition rules *)
Fixpoint spin_rules (l : list ptree) : out string :=
  match l with
  | [] => Ok ""
  | p :: r =>
      a <- print_formula FORMULA_SYNTAX_SPIN p ;;
      b <- spin_rules r ;;
      Ok (a ++ (match r with [] => "" | _ => " && " end) ++ b)%string
  end.
Definition spin_trans (l : list ptree) : out string :=
  match l with [] => Ok "true" | _ => spin_rules l end.
(** automaton_io.c:956-961, 982-987 *)
Definition spin_goals (name : string) (l : list ptree) : out string :=
  for_print (List.length l) (fun i =>
    a <- print_formula FORMULA_SYNTAX_SPIN (nth i l NULL) ;;
    Ok (nl ++ "#define " ++ name ++ dec4 (Z.of_nat i) ++ " " ++ a)%string).
(** automaton_io.c:940-944, 963-966 *)
Definition spin_init (name : string) (p : ptree) : out string :=
  if is_NULL p then Ok ""
  else a <- print_formula FORMULA_SYNTAX_SPIN p ;; Ok (nl ++ "#define " ++ name ++ " " ++ a)%string.

(** "true" and "false" for Boolean variables, else %d *)
Definition spin_value (value z : Z) : string :=
  if value =? -1 then (if z =? 0 then "false" else "true") else zdec z.
(** automaton_io.c:1005-1022 *)
Definition spin_decls (vars : ptree) : out string :=
  for_print (tree_size vars) (fun i =>
    name <- item_name vars i ;;
    value <- item_value vars i ;;
    let type := if value =? -1 then "bool " else "int " in
    Ok (type ++ name ++ ";" ++ nl ++ type ++ name ++ "_next;" ++ nl)%string).
(** automaton_io.c:1036-1061: the initial nodes *)
Fixpoint spin_initial (vars : ptree) (n : nat) (node : aut) (counter : Z) : out string :=
  match node with
  | [] => Ok ""
  | x :: next =>
      a <- (if ainit x then
              s <- for_print n (fun i =>
                name <- item_name vars i ;;
                z <- at_state (astate x) i ;;
                value <- item_value vars i ;;
                Ok ("; " ++ name ++ "=" ++ spin_value value z)%string) ;;
              Ok (nl ++ ":: (1) -> current_node=" ++ zdec counter ++ s)%string
            else Ok "") ;;
      b <- spin_initial vars n next (counter + 1) ;;
      Ok (a ++ b)%string
  end.
(** automaton_io.c:1087-1098: the counter of environment moves; [None] when all digits
    overflow. [i] is the index of the first digit of [c]. *)
Fixpoint next_env (vars : ptree) (i : nat) (c : vec) : out (option vec) :=
  match c with
  | [] => Ok None
  | z :: r =>
      value <- item_value vars i ;;
      if ((0 <? z) && (value =? -1)) || ((value <=? z) && (0 <=? value))
      then r' <- next_env vars (S i) r ;;
           Ok (match r' with None => None | Some r'' => Some (0 :: r'') end)
      else Ok (Some (z + 1 :: r))
  end.
(** automaton_io.c:1069-1101 *)
Fixpoint spin_moves (fuel : nat) (vars : ptree) (num_env : nat) (env_counter : vec) : out string :=
  match fuel with
  | O => Fuel
  | S f =>
      s <- for_print num_env (fun i =>
        name <- item_name vars i ;;
        value <- item_value vars i ;;
        z <- at_state env_counter i ;;
        Ok (" " ++ name ++ "_next=" ++ spin_value value z ++
            (if (Z.of_nat i <? Z.of_nat num_env - 1)%Z then ";" else ""))%string) ;;
      c <- next_env vars 0 env_counter ;;
      rest <- (match c with None => Ok "" | Some c => spin_moves f vars num_env c end) ;;
      Ok (nl ++ ":: (1) ->" ++ s ++ rest)%string
  end.
(** automaton_io.c:1111-1148: the transition to [t] of the node number [counter] *)
Definition spin_edge (head : aut) (vars svars : ptree) (num_env num_sys : nat) (counter : Z) (t : nat) : out string :=
  match deref head t with
  | None => Crash
  | Some y =>
      guard <- for_print num_env (fun i =>
        name <- item_name vars i ;;
        value <- item_value vars i ;;
        z <- at_state (astate y) i ;;
        Ok (" && " ++ (if (value =? -1)%Z then (if (z =? 0)%Z then "!" else "") ++ name ++ "_next"
                       else name ++ "_next == " ++ zdec z))%string) ;;
      sets <- for_print num_sys (fun i =>
        name <- item_name svars i ;;
        value <- item_value svars i ;;
        z <- at_state (astate y) (num_env + i) ;;
        Ok ("; " ++ name ++ "_next=" ++ spin_value value z)%string) ;;
      Ok (nl ++ ":: (current_node == " ++ zdec counter ++ guard ++ ") -> current_node=" ++
          zdec (anode_index head t) ++ sets)%string
  end.
(** automaton_io.c:1106-1153 *)
Fixpoint spin_edges (head : aut) (vars svars : ptree) (num_env num_sys : nat) (node : aut) (counter : Z) : out string :=
  match node with
  | [] => Ok ""
  | x :: next =>
      a <- map_out (spin_edge head vars svars num_env num_sys counter) (atrans x) ;;
      b <- spin_edges head vars svars num_env num_sys next (counter + 1) ;;
      Ok (cat a ++ b)%string
  end.
(** automaton_io.c:1158-1165 *)
Definition spin_apply (vars : ptree) : out string :=
  for_print (tree_size vars) (fun i =>
    name <- item_name vars i ;;
    Ok (name ++ " = " ++ name ++ "_next" ++ (if (S i <? tree_size vars)%nat then "; " else ""))%string).

(** automaton_io.c:897-1178 spin_aut_dump; [same]: [fp] and [formula_fp] are the same
    stream *)
Definition spin_aut_dump (fuel : nat) (same : bool) (head : aut) (evar_list svar_list env_init sys_init : ptree)
    (env_trans_array sys_trans_array env_goals sys_goals : list ptree) : out (string * option string * Z) :=
  let num_env := tree_size evar_list in
  let num_sys := tree_size svar_list in
  let formula := spin_aut_ltl_formula num_env env_init sys_init (List.length env_goals) (List.length sys_goals) in
  let vars := link evar_list svar_list in
  envdefs <- (if (0 <? num_env)%nat then
                a <- spin_init "envinit" env_init ;;
                b <- spin_trans env_trans_array ;;
                c <- spin_goals "envgoal" env_goals ;;
                Ok (a ++ nl ++ "#define envtrans " ++ b ++ c)%string
              else Ok "") ;;
  sysinit <- spin_init "sysinit" sys_init ;;
  systrans <- spin_trans sys_trans_array ;;
  sysgoals <- spin_goals "sysgoal" sys_goals ;;
  decls <- spin_decls vars ;;
  initial <- spin_initial vars (num_env + num_sys) head 0 ;;
  moves <- (if (0 <? num_env)%nat then
              m <- spin_moves fuel vars num_env (repeat 0 num_env) ;;
              Ok ("ENV_MOVE:" ++ nl ++ "if" ++ m ++ nl ++ "fi;" ++ nl ++
                  "checketrans = true; checketrans = false;" ++ nl ++ nl)%string
            else Ok "") ;;
  edges <- spin_edges head vars svar_list num_env num_sys head 0 ;;
  apply <- spin_apply vars ;;
  Ok (("/* Spin Promela model created by gr1c, version " ++ GR1C_VERSION ++ " */" ++ nl ++ nl ++
       "/* LTL formula" ++ nl ++ formula ++ "*/" ++ nl ++ nl ++
       envdefs ++ sysinit ++ nl ++ "#define systrans " ++ systrans ++ sysgoals ++ nl ++ nl ++
       decls ++
       (if (0 <? num_env)%nat then nl ++ "bool checketrans = false;  /* Check env transition rule? */" else "") ++
       nl ++ "bool checkstrans = false;  /* Check sys transition rule? */" ++ nl ++
       "bool pmlfault = false;" ++ nl ++ nl ++
       "init" ++ nl ++ "{" ++ nl ++ "int current_node;" ++ nl ++ nl ++
       "d_step {" ++ nl ++ "if" ++ initial ++ nl ++ "fi" ++ nl ++ "};" ++ nl ++ nl ++
       moves ++
       "SYS_MOVE:" ++ nl ++ "if" ++ edges ++ nl ++ ":: else -> pmlfault=true" ++ nl ++ "fi;" ++ nl ++
       "checkstrans = true; checkstrans = false;" ++ nl ++ nl ++
       "atomic { " ++ apply ++
       (if (0 <? num_env)%nat then " };" ++ nl ++ nl ++ "goto ENV_MOVE" ++ nl ++ "}" ++ nl ++ nl
        else " };" ++ nl ++ nl ++ "goto SYS_MOVE" ++ nl ++ "}" ++ nl ++ nl))%string,
      if same then None else Some formula, 0).

(** gr1c -P: main.c:361-388, 482-508 (the formulas are copied before integer variables are
    expanded), 510-638, 675-684. The text is what is written to stdout; with -P the
    strategy goes to a file. *)
Definition gr1c_verify (orc : oracle) (alloc : nat -> aut -> nat) (fuel : nat) (flags : init_flags_t) (sp : raw_t)
  : out (main_result * string) :=
  let original := with_defaults sp in
  r <- gr1c_main orc alloc fuel MODE_SYNTHESIS flags sp ;;
  match r with
  | Strategy strategy ev sv =>
      d <- spin_aut_dump fuel true strategy ev sv (r_einit original) (r_sinit original)
             (r_etrans original) (r_strans original) (r_egoals original) (r_sgoals original) ;;
      Ok (r, fst (fst d))
  | _ => Ok (r, "")
  end.
