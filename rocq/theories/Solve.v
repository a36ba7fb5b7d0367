(** Model of the parts of src/solve_operators.c and src/solve.c that work on the
    global specification [spc]: compute_winning_set, check_realizable. *)
From Coq Require Import List ZArith Bool Arith String.
From Verif Require Import Base Bdd Support Ops Strs Ptree.
Import ListNotations.
Open Scope nat_scope.

(** include/common.h:34-55 [specification_t], the fields these functions use.
    NULL stands for an omitted initial condition; the lengths [num_egoals],
    [num_sgoals] are the lengths of the lists. *)
Record spc_t := {
  evar_list : ptree;
  svar_list : ptree;
  env_init : ptree;
  sys_init : ptree;
  env_trans : ptree;
  sys_trans : ptree;
  env_goals : list ptree;
  sys_goals : list ptree
}.

(** include/solve.h:17-20 *)
Inductive init_flags_t := UNDEFINED_INIT | ALL_ENV_EXIST_SYS_INIT | ALL_INIT | ONE_SIDE_INIT.

(** solve_operators.c:38-53 (also solve.c:110-125, 838-855): the system variables
    appended to the environment variables; the link is removed afterwards. *)
Fixpoint link (evar_list svar_list : ptree) : ptree :=
  match evar_list with
  | NULL => svar_list
  | pnd t n v l r => pnd t n v (link l svar_list) r
  end.

Section OnSpec.
  Variable sp : spc_t.
  Definition num_env : nat := tree_size (evar_list sp).
  Definition num_sys : nat := tree_size (svar_list sp).
  (** the manager is created with one variable and one primed variable for each
      (main.c:567-569) *)
  Definition nvars : nat := 2 * (num_env + num_sys).
  Definition all_vars : ptree := link (evar_list sp) (svar_list sp).

  (** solve_operators.c:29-36, solve.c:82-89: goal True when there is none *)
  Definition env_goals' : list ptree :=
    match env_goals sp with [] => [init_ptree PT_CONSTANT None 1] | l => l end.
  Definition to_BDD (t : ptree) : out dt := ptree_BDD nvars t all_vars.
  (** solve.c:857-868: an omitted initial condition is True *)
  Definition init_BDD (t : ptree) : out dt :=
    match t with NULL => Ok (bOne nvars) | _ => to_BDD t end.

  (** the BDDs built from the specification (solve_operators.c:55-81,
      solve.c:140-165): etrans, strans, egoals, sgoals *)
  Definition spec_BDDs : out (dt * dt * list dt * list dt) :=
    et <- to_BDD (env_trans sp) ;;
    st <- to_BDD (sys_trans sp) ;;
    eg <- map_out to_BDD env_goals' ;;
    sg <- map_out to_BDD (sys_goals sp) ;;
    Ok (et, st, eg, sg).

  (** solve_operators.c:21-111 compute_winning_set *)
  Definition compute_winning_set (fuel : nat) : out dt :=
    b <- spec_BDDs ;;
    match b with
    | (et, st, eg, sg) => compute_winning_set_BDD num_env num_sys et st fuel eg sg
    end.

  (** solve.c:803-981 check_realizable_internal: is [W] returned (true) or NULL? *)
  Definition realizable_BDD (flags : init_flags_t) (einit sinit W : dt) : bool :=
    let m := nvars in
    match flags with
    | ALL_INIT =>
        let tmp := bAnd m einit sinit in
        let tmp2 := bAnd m tmp W in
        if dt_eqb tmp (bNot m (bOne m)) || negb (bLeq m tmp tmp2) || negb (bLeq m tmp2 tmp)
        then false else true
    | ALL_ENV_EXIST_SYS_INIT =>
        let tmp := bAnd m sinit einit in
        let tmp3 := bAnd m tmp W in
        let ddcube := cube_sys (repeat 0%Z m) num_env num_sys in
        let tmp2 := bExist m ddcube tmp in
        let tmp := bExist m ddcube tmp3 in
        if negb (bLeq m tmp tmp2) || negb (bLeq m tmp2 tmp) then false else true
    | ONE_SIDE_INIT =>
        match sys_init sp with
        | NULL =>
            let tmp := bAnd m einit W in
            if negb (bLeq m tmp einit) || negb (bLeq m einit tmp) then false else true
        | _ =>
            let tmp := bAnd m sinit W in
            if negb (bLeq m tmp (bNot m (bOne m))) || negb (bLeq m (bNot m (bOne m)) tmp)
            then true else false
        end
    | UNDEFINED_INIT => false
    end.
  Definition check_realizable_internal (flags : init_flags_t) (W : dt) : out (option dt) :=
    einit <- init_BDD (env_init sp) ;;
    sinit <- init_BDD (sys_init sp) ;;
    Ok (if realizable_BDD flags einit sinit W then Some W else None).

  (** solve.c:795-800 check_realizable; [None] is a NULL result *)
  Definition check_realizable (fuel : nat) (flags : init_flags_t) : out (option dt) :=
    W <- compute_winning_set fuel ;; check_realizable_internal flags W.
End OnSpec.
