(** Model of the treatment of integer variables: src/util.c:22-439, 680-742,
    src/automaton.c:305-424, and the part of src/main.c that prepares the
    specification for the solver. *)
From Coq Require Import List ZArith Bool Arith String.
From Verif Require Import Base Strs Ptree Solve Automaton.
Import ListNotations.
Open Scope string_scope.
Open Scope list_scope.
Open Scope Z_scope.

(** util.c:22-31 bitvec_to_int; the shift [1 << i] is evaluated for the nonzero
    entries only and is undefined for i >= 31 (int has 32 bits). *)
Fixpoint bitvec_from (vec : vec) (i result : Z) : out Z :=
  match vec with
  | [] => Ok result
  | b :: r =>
      if b =? 0 then bitvec_from r (i + 1) result
      else if 31 <=? i then Crash
      else bitvec_from r (i + 1) (result + 2 ^ i)
  end.
Definition bitvec_to_int (vec : vec) : out Z := bitvec_from vec 0 0.

(** util.c:34-53 int_to_bitvec; [None] is a NULL result *)
Definition int_to_bitvec (x vec_len : Z) : out (option vec) :=
  if vec_len <? 1 then Ok None
  else if 31 <? vec_len then Crash
  else Ok (Some (map (fun i => if Z.testbit x i then 1 else 0) (zseq 0 (vec_len - 1)))).

(** util.c:78-91: names and domains of the non-Boolean variables, in order *)
Fixpoint nonbool_items (l : ptree) : ptree :=
  match l with
  | NULL => NULL
  | pnd _ n v l' _ =>
      if 0 <=? v then pnd PT_VARIABLE n v (nonbool_items l') NULL else nonbool_items l'
  end.
(** util.c:98-127 (and 129-157): each non-Boolean item replaced by its bits *)
Fixpoint expand_items (l : ptree) : out ptree :=
  match l with
  | NULL => Ok NULL
  | pnd t n v l' r =>
      rest <- expand_items l' ;;
      if 0 <=? v then
        match n with
        | None => Crash
        | Some name => match var_to_bool name v with
                       | NULL => Crash
                       | bits => Ok (link bits rest)
                       end
        end
      else Ok (pnd t n v rest r)
  end.
(** util.c:56-160 expand_nonbool_variables: new evar_list, new svar_list, and the
    returned list of non-Boolean variables *)
Definition expand_nonbool_variables (evar_list svar_list : ptree) : out (ptree * ptree * ptree) :=
  e <- expand_items evar_list ;;
  s <- expand_items svar_list ;;
  Ok (e, s, nonbool_items (link evar_list svar_list)).

(** util.c:163-196 expand_nonbool_state. [offw]: the pairs (offset, width) not
    yet used, j the position written next, k the position read next; reading or
    writing outside of the arrays is [Crash]. *)
Definition store_at (a : vec) (j : Z) (x : Z) : out vec :=
  if (0 <=? j) && (j <? Z.of_nat (List.length a))
  then Ok (firstn (Z.to_nat j) a ++ x :: skipn (S (Z.to_nat j)) a) else Crash.
Fixpoint store_seq (a : vec) (j : Z) (l : vec) : out vec :=
  match l with
  | [] => Ok a
  | x :: l' => a' <- store_at a j x ;; store_seq a' (j + 1) l'
  end.
Fixpoint ens_loop (fuel : nat) (mapped_len : Z) (offw : list (Z * Z)) (j : Z)
    (state_k : vec) (mapped : vec) : out vec :=
  if mapped_len <=? j then Ok mapped else
  match fuel with
  | O => Fuel
  | S f =>
      match state_k with
      | [] => Crash
      | x :: state_k' =>
          match offw with
          | (o, w) :: offw' =>
              if j <? o then
                mapped' <- store_at mapped j x ;;
                ens_loop f mapped_len offw (j + 1) state_k' mapped'
              else
                frag <- int_to_bitvec x w ;;
                match frag with
                | None => (* NULL is not read when w <= 0 *)
                    ens_loop f mapped_len offw' o state_k' mapped
                | Some fr =>
                    mapped' <- store_seq mapped o fr ;;
                    ens_loop f mapped_len offw' (o + w) state_k' mapped'
                end
          | [] =>
              mapped' <- store_at mapped j x ;;
              ens_loop f mapped_len [] (j + 1) state_k' mapped'
          end
      end
  end.
(** [fuel]: each round reads one component of the state *)
Definition expand_nonbool_state (state : vec) (offw : list (Z * Z)) (mapped_len : Z)
    : out (option vec) :=
  if mapped_len <=? 0 then Ok None
  else r <- ens_loop (S (List.length state)) mapped_len offw 0 state
              (repeat 0 (Z.to_nat mapped_len)) ;; Ok (Some r).

(** ** expand_nonbool_GR1 *)

(** include/common.h:34-55: the specification as the parser leaves it *)
Record raw_t := {
  r_evars : ptree;
  r_svars : ptree;
  r_einit : ptree;
  r_sinit : ptree;
  r_etrans : list ptree;
  r_strans : list ptree;
  r_egoals : list ptree;
  r_sgoals : list ptree
}.

(** util.c:220-221; floating point as in [ceil_log2] *)
Definition maxbitval (value : Z) : Z :=
  2 ^ ceil_log2 (if 0 <? value then value + 1 else 2).
Definition is_one_side (f : init_flags_t) : bool :=
  match f with ONE_SIDE_INIT => true | _ => false end.
Definition is_null (t : ptree) : bool := match t with NULL => true | _ => false end.
(** util.c:229-234 etc.: the old formula to the left, the new one to the right *)
Definition and_tree (old new : ptree) : ptree :=
  set_left (set_right (init_ptree PT_AND None 0) new) old.
Definition or_true (t : ptree) : ptree :=
  match t with NULL => init_ptree PT_CONSTANT None 1 | _ => t end.

(** util.c:212-262: one environment variable; 264-315: one system variable *)
Definition block_env (flags : init_flags_t) (name : string) (value : Z) (sp : raw_t) : raw_t :=
  let mb := maxbitval value in
  if value <? mb - 1 then
    let u := unreach_expanded_bool name (value + 1) (mb - 1) PT_VARIABLE in
    let u' := unreach_expanded_bool name (value + 1) (mb - 1) PT_NEXT_VARIABLE in
    let on_sys := is_one_side flags && negb (is_null (r_sinit sp)) in
    {| r_evars := r_evars sp; r_svars := r_svars sp;
       r_einit := if on_sys then r_einit sp else and_tree (or_true (r_einit sp)) u;
       r_sinit := if on_sys then and_tree (r_sinit sp) u else r_sinit sp;
       r_etrans := r_etrans sp ++ [u; u'];
       r_strans := r_strans sp;
       r_egoals := r_egoals sp; r_sgoals := r_sgoals sp |}
  else sp.
Definition block_sys (flags : init_flags_t) (name : string) (value : Z) (sp : raw_t) : raw_t :=
  let mb := maxbitval value in
  if value <? mb - 1 then
    let u := unreach_expanded_bool name (value + 1) (mb - 1) PT_VARIABLE in
    let u' := unreach_expanded_bool name (value + 1) (mb - 1) PT_NEXT_VARIABLE in
    let on_env := is_one_side flags && is_null (r_sinit sp) in
    {| r_evars := r_evars sp; r_svars := r_svars sp;
       r_einit := if on_env then and_tree (or_true (r_einit sp)) u else r_einit sp;
       r_sinit := if on_env then r_sinit sp else and_tree (or_true (r_sinit sp)) u;
       r_etrans := r_etrans sp;
       r_strans := r_strans sp ++ [u; u'];
       r_egoals := r_egoals sp; r_sgoals := r_sgoals sp |}
  else sp.
(** the loops over the variable lists; value -1 is Boolean *)
Fixpoint block_all (block : string -> Z -> raw_t -> raw_t) (l : ptree) (sp : raw_t) : out raw_t :=
  match l with
  | NULL => Ok sp
  | pnd _ n v l' _ =>
      if v =? -1 then block_all block l' sp
      else match n with
           | None => Crash
           | Some name => block_all block l' (block name v sp)
           end
  end.

(** util.c:333-427: expansion of one variable everywhere; [None] is the error
    return -1 *)
Definition expand_opt (fuel : nat) (t : ptree) (name : string) (v : Z) : out (option ptree) :=
  r <- expand_to_bool fuel t name v ;;
  match r with NULL => Ok None | _ => Ok (Some r) end.
Definition expand_init (fuel : nat) (t : ptree) (name : string) (v : Z) : out (option ptree) :=
  match t with NULL => Ok (Some NULL) | _ => expand_opt fuel t name v end.
Fixpoint expand_list (fuel : nat) (l : list ptree) (name : string) (v : Z)
    : out (option (list ptree)) :=
  match l with
  | [] => Ok (Some [])
  | t :: l' =>
      a <- expand_opt fuel t name v ;;
      match a with
      | None => Ok None
      | Some t' =>
          b <- expand_list fuel l' name v ;;
          match b with None => Ok None | Some r => Ok (Some (t' :: r)) end
      end
  end.
Definition obind {A B} (x : out (option A)) (f : A -> out (option B)) : out (option B) :=
  a <- x ;; match a with None => Ok None | Some y => f y end.
Definition expand_var (fuel : nat) (name : string) (v : Z) (sp : raw_t) : out (option raw_t) :=
  obind (expand_init fuel (r_sinit sp) name v) (fun si =>
  obind (expand_init fuel (r_einit sp) name v) (fun ei =>
  obind (expand_list fuel (r_etrans sp) name v) (fun et =>
  obind (expand_list fuel (r_strans sp) name v) (fun st =>
  obind (expand_list fuel (r_egoals sp) name v) (fun eg =>
  obind (expand_list fuel (r_sgoals sp) name v) (fun sg =>
  Ok (Some {| r_evars := r_evars sp; r_svars := r_svars sp; r_einit := ei; r_sinit := si;
              r_etrans := et; r_strans := st; r_egoals := eg; r_sgoals := sg |}))))))).
Fixpoint expand_vars (fuel : nat) (l : ptree) (sp : raw_t) : out (option raw_t) :=
  match l with
  | NULL => Ok (Some sp)
  | pnd _ n v l' _ =>
      if 0 <=? v then
        match n with
        | None => Crash
        | Some name => obind (expand_var fuel name v sp) (fun sp' => expand_vars fuel l' sp')
        end
      else expand_vars fuel l' sp
  end.
(** util.c:199-439 *)
Definition expand_nonbool_GR1 (fuel : nat) (flags : init_flags_t) (sp : raw_t)
    : out (option raw_t) :=
  sp <- block_all (block_env flags) (r_evars sp) sp ;;
  sp <- block_all (block_sys flags) (r_svars sp) sp ;;
  expand_vars fuel (link (r_evars sp) (r_svars sp)) sp.

(** ** Preparation in main.c *)

(** main.c:361-388: omission implies empty *)
Definition or_const_true (l : list ptree) : list ptree :=
  match l with [] => [init_ptree PT_CONSTANT None 1] | _ => l end.
Definition with_defaults (sp : raw_t) : raw_t :=
  {| r_evars := r_evars sp; r_svars := r_svars sp; r_einit := r_einit sp; r_sinit := r_sinit sp;
     r_etrans := or_const_true (r_etrans sp); r_strans := or_const_true (r_strans sp);
     r_egoals := r_egoals sp; r_sgoals := or_const_true (r_sgoals sp) |}.
(** main.c:361-388, 510-554: the specification handed to the solver and the list
    of non-Boolean variables; [None] is an error exit. merge_ptrees of a single
    tree is that tree, so lines 535-554 are one call for a nonempty array. *)
Definition prepare (fuel : nat) (flags : init_flags_t) (sp : raw_t)
    : out (option (spc_t * ptree)) :=
  obind (expand_nonbool_GR1 fuel flags (with_defaults sp)) (fun sp' =>
  vs <- expand_nonbool_variables (r_evars sp') (r_svars sp') ;;
  match vs with
  | (ev, sv, nb) =>
      match r_etrans sp', r_strans sp' with
      | [], _ | _, [] => Ok None
      | et, st =>
          Ok (Some ({| evar_list := ev; svar_list := sv;
                       env_init := r_einit sp'; sys_init := r_sinit sp';
                       env_trans := merge_ptrees et PT_AND; sys_trans := merge_ptrees st PT_AND;
                       env_goals := r_egoals sp'; sys_goals := r_sgoals sp' |}, nb))
      end
  end).

(** ** Offsets and automata *)

(** [strstr(a, name) == a] *)
Definition starts_with (a : option string) (name : string) : out bool :=
  match a with None => Crash | Some s => Ok (String.prefix name s) end.
(** automaton.c:316-322: first item of the list whose name starts with [name]:
    its index (counted from [k]) and the list from there on, or the index after
    the last item *)
Fixpoint find_prefix (l : ptree) (name : string) (k : nat) : out (nat * option ptree) :=
  match l with
  | NULL => Ok (k, None)
  | pnd _ n _ l' _ =>
      b <- starts_with n name ;;
      if b then Ok (k, Some l) else find_prefix l' name (S k)
  end.
(** automaton.c:335-342: number of further items whose names start with [name],
    and the rest of the list *)
Fixpoint run_prefix (l : ptree) (name : string) : out (nat * ptree) :=
  match l with
  | NULL => Ok (O, NULL)
  | pnd _ n _ l' _ =>
      b <- starts_with n name ;;
      if b then r <- run_prefix l' name ;; Ok (S (fst r), snd r) else Ok (O, l)
  end.
(** start index, number of further items of the run *)
Definition find_run (evar_list svar_list : ptree) (name : string) : out (option (nat * nat)) :=
  a <- find_prefix evar_list name O ;;
  r <- match a with
       | (k, Some l) => Ok (k, Some l)
       | (k, None) => find_prefix svar_list name k
       end ;;
  match r with
  | (k, Some (pnd _ _ _ l' _)) => t <- run_prefix l' name ;; Ok (Some (k, fst t))
  | _ => Ok None
  end.

(** util.c:682-742 get_offsets_list; [None] is a NULL result for a nonempty list
    of non-Boolean variables *)
Fixpoint get_offsets_list (evar_list svar_list nonbool : ptree) : out (option (list (Z * Z))) :=
  match nonbool with
  | NULL => Ok (Some [])
  | pnd _ n _ rest _ =>
      match n with
      | None => Crash
      | Some name =>
          r <- find_run evar_list svar_list name ;;
          match r with
          | None => Ok None
          | Some (k, more) =>
              obind (get_offsets_list evar_list svar_list rest) (fun l =>
              Ok (Some ((Z.of_nat k, Z.of_nat (more + 1)) :: l)))
          end
      end
  end.

(** automaton.c:343-355: the variable list with the run starting at [var]
    replaced by one item *)
Fixpoint drop_run (l : ptree) (k : nat) : ptree :=
  match k, l with
  | O, _ => l
  | S k', pnd _ _ _ l' _ => drop_run l' k'
  | S _, NULL => NULL
  end.
Fixpoint compact_list (l : ptree) (k more : nat) (name : string) (maxval : Z) : ptree :=
  match l, k with
  | NULL, _ => NULL
  | pnd t _ _ l' r, O => pnd t (Some name) maxval (drop_run l' more) r
  | pnd t n v l' r, S k' => pnd t n v (compact_list l' k' more name maxval) r
  end.
(** automaton.c:357-377: one state; [len] is num_env+num_sys *)
Definition compact_state (len k more : nat) (s : vec) : out vec :=
  if (List.length s <? len)%nat then Crash
  else x <- bitvec_to_int (firstn (S more) (skipn k s)) ;;
       Ok (firstn k s ++ x :: firstn (len - (k + S more)) (skipn (k + S more) s)).
Definition set_state (s : vec) (x : anode) : anode :=
  Node (aid x) (ainit x) s (amode x) (argrad x) (atrans x).
(** automaton.c:305-380 aut_compact_nonbool: the automaton, evar_list and
    svar_list afterwards, and the result *)
Definition aut_compact_nonbool (head : aut) (evar_list svar_list : ptree) (name : string)
    (maxval : Z) : out (aut * ptree * ptree * Z) :=
  let ne := tree_size evar_list in
  let len := (ne + tree_size svar_list)%nat in
  r <- find_run evar_list svar_list name ;;
  match r with
  | None => Ok (head, evar_list, svar_list, -1)
  | Some (k, more) =>
      head' <- map_out (fun x => s <- compact_state len k more (astate x) ;; Ok (set_state s x))
                 head ;;
      Ok (head',
          if (k <? ne)%nat then compact_list evar_list k more name maxval else evar_list,
          if (k <? ne)%nat then svar_list else compact_list svar_list (k - ne) more name maxval,
          Z.of_nat (len - more))
  end.
(** main.c:628-634: all non-Boolean variables in turn *)
Fixpoint compact_all (head : aut) (evar_list svar_list nonbool : ptree)
    : out (aut * ptree * ptree) :=
  match nonbool with
  | NULL => Ok (head, evar_list, svar_list)
  | pnd _ n v rest _ =>
      match n with
      | None => Crash
      | Some name =>
          r <- aut_compact_nonbool head evar_list svar_list name v ;;
          match r with (head', e, s, _) => compact_all head' e s rest end
      end
  end.

(** automaton.c:385-424 aut_expand_bool: the automaton afterwards and the result *)
Fixpoint expand_states (head : aut) (offw : list (Z * Z)) (mapped_len : Z) : out (option aut) :=
  match head with
  | [] => Ok (Some [])
  | x :: r =>
      obind (expand_nonbool_state (astate x) offw mapped_len) (fun s =>
      obind (expand_states r offw mapped_len) (fun r' => Ok (Some (set_state s x :: r'))))
  end.
Definition aut_expand_bool (head : aut) (evar_list svar_list nonbool : ptree)
    : out (aut * Z) :=
  match head with
  | [] => Ok (head, -1)
  | _ =>
      match nonbool with
      | NULL => Ok (head, 0)
      | _ =>
          o <- get_offsets_list evar_list svar_list nonbool ;;
          match o with
          | None => Ok (head, -1)
          | Some offw =>
              r <- expand_states head offw
                     (Z.of_nat (tree_size evar_list + tree_size svar_list)) ;;
              match r with None => Ok (head, -1) | Some head' => Ok (head', 0) end
          end
      end
  end.
