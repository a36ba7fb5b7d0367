(** Model of src/util.c:551-677, check_gr1c_form. *)
From Coq Require Import List ZArith Bool String.
From Verif Require Import Base Ptree Solve Nonbool.
Import ListNotations.
Open Scope Z_scope.

(** the loops over arrays of formulas; [true]: some part contains an unexpected
    variable *)
Fixpoint any_bad (l : list ptree) (var_list nextvar_list : ptree) : out bool :=
  match l with
  | [] => Ok false
  | t :: l' =>
      b <- check_vars t var_list nextvar_list ;;
      match b with Some _ => Ok true | None => any_bad l' var_list nextvar_list end
  end.
(** [init != NULL && check_vars(...) != NULL]; check_vars of NULL is NULL *)
Definition bad_init (t : ptree) (var_list : ptree) : out bool :=
  b <- check_vars t var_list NULL ;;
  match b with Some _ => Ok true | None => Ok false end.
(** run the check; on a violation return -1 with the list as it is then *)
Definition guard (bad : out bool) (svar_list : ptree) (k : out (Z * ptree)) : out (Z * ptree) :=
  b <- bad ;; if b then Ok (-1, svar_list) else k.
(** the result, and svar_list as the caller sees it afterwards. Messages to stderr
    are left out. The check appends evar_list to a nonempty svar_list (line 606-608)
    and cuts it off again at the end (668-670), but not on the error returns in
    between. *)
Definition check_gr1c_form (sp : raw_t) (init_flags : init_flags_t) : out (Z * ptree) :=
  let e := r_evars sp in
  let s := r_svars sp in
  if (tree_size e =? 0)%nat && (tree_size s =? 0)%nat then Ok (-1, s)
  else
    let both := match s with NULL => e | _ => link s e end in
    (* what the caller's pointer leads to while the lists are chained *)
    let seen := match s with NULL => NULL | _ => both end in
    let rest :=
      guard (bad_init (r_einit sp) both) seen
     (guard (bad_init (r_sinit sp) both) seen
     (guard (any_bad (r_etrans sp) both e) seen
     (guard (any_bad (r_strans sp) both both) seen
     (guard (any_bad (r_egoals sp) both NULL) seen
     (guard (any_bad (r_sgoals sp) both NULL) seen
      (Ok (0, s))))))) in
    match init_flags with
    | ALL_ENV_EXIST_SYS_INIT =>
        guard (bad_init (r_einit sp) e) s (guard (bad_init (r_sinit sp) s) s rest)
    | ONE_SIDE_INIT =>
        if negb (is_null (r_einit sp)) && negb (is_null (r_sinit sp)) then Ok (-1, s) else rest
    | _ => rest
    end.
