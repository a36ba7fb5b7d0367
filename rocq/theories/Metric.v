(** Model of src/solve_metric.c: distance bounds between sets of states.

    Simplification: distances are of C type double there; they are sums of
    absolute values of ints, hence integers, and exact as long as they stay below
    2^53. They are modelled by [Z]. Log output is left out. *)
From Coq Require Import List ZArith Bool Arith String Ascii.
From Verif Require Import Base Bdd Support Ops Strs Ptree Solve Nonbool.
Import ListNotations.
Open Scope list_scope.
Open Scope Z_scope.

(** ** get_offsets *)
(** strtok( str, " " ) called until it returns NULL: the maximal substrings
    without the character ' '; [cur] is the part read of the current one *)
Fixpoint strtok_from (cur : string) (s : string) : list string :=
  match s with
  | EmptyString => match cur with EmptyString => [] | _ => [cur] end
  | String c r =>
      if Ascii.eqb c " "%char
      then match cur with EmptyString => strtok_from EmptyString r
                     | _ => cur :: strtok_from EmptyString r end
      else strtok_from (cur ++ String c EmptyString)%string r
  end.
Definition strtok_all (s : string) : list string := strtok_from EmptyString s.

(** solve_metric.c:47-90: one entry (start, length of run) for each token; [None]
    is the NULL returned when a token is not found *)
Fixpoint token_offsets (evar_list svar_list : ptree) (toks : list string)
    : out (option (list (Z * Z))) :=
  match toks with
  | [] => Ok (Some [])
  | tok :: rest =>
      r <- find_run evar_list svar_list tok ;;
      match r with
      | None => Ok None
      | Some (k, more) =>
          obind (token_offsets evar_list svar_list rest) (fun l =>
          Ok (Some ((Z.of_nat k, Z.of_nat (more + 1)) :: l)))
      end
  end.
(** solve_metric.c:26-94 get_offsets; the argument is never NULL *)
Definition get_offsets (evar_list svar_list : ptree) (metric_vars : string)
    : out (option (list (Z * Z))) :=
  match strtok_all metric_vars with
  | [] => Ok None
  | toks => token_offsets evar_list svar_list toks
  end.

(** ** Bounds *)
Section Bounds.
  (** num_env + num_sys; bound for the loops; what the cube generator yields *)
  Variables (n fuel : nat) (orc : oracle).

  (** bitvec_to_int( state+off, w ): reading outside of the array is undefined *)
  Definition field_at (state : vec) (o : Z * Z) : out Z :=
    if (fst o <? 0) || (Z.of_nat (List.length state) <? fst o + snd o) then Crash
    else bitvec_to_int (slice (Z.to_nat (fst o)) (Z.to_nat (snd o)) state).
  (** solve_metric.c:130-132, 140-142, 162-164 *)
  Definition mapped (offw : list (Z * Z)) (state : vec) : out (list Z) :=
    map_out (field_at state) offw.
  (** solve_metric.c:151-153, 173-175 *)
  Fixpoint norm1 (this_mapped ref_mapped : list Z) (dist : Z) : Z :=
    match this_mapped, ref_mapped with
    | a :: this', b :: ref' => norm1 this' ref' (dist + Z.abs (a - b))
    | _, _ => dist
    end.
  (** solve_metric.c:154-157, 176-179, 268-271; -1 stands for "unset" *)
  Definition bound_step (mm : Z * Z) (dist : Z) : Z * Z :=
    let (Min, Max) := mm in
    ((if (Min =? -1) || (dist <? Min) then dist else Min),
     (if (Max =? -1) || (dist >? Max) then dist else Max)).
  (** solve_metric.c:136-181, 220-257: the states listed by the cubes of [T],
      called as the [t]-th cube generation *)
  Definition states_of (t : nat) (T : dt) : out (list vec) :=
    concat_out (fun gcube => enum_cube fuel (slice 0 n gcube)) (orc t T).

  (** solve_metric.c:97-188 bounds_state: (Min, Max) *)
  Definition bounds_state (t : nat) (T : dt) (ref_state : vec) (offw : list (Z * Z))
      : out (Z * Z) :=
    ref_mapped <- mapped offw ref_state ;;
    states <- states_of t T ;;
    dists <- map_out (fun state => this_mapped <- mapped offw state ;;
                                   Ok (norm1 this_mapped ref_mapped 0)) states ;;
    Ok (fold_left bound_step dists (-1, -1)).

  (** solve_metric.c:265-271: the loop over the states found *)
  Fixpoint bounds_loop (t : nat) (G : dt) (offw : list (Z * Z)) (states : list vec)
      (mm : Z * Z) : out (Z * Z) :=
    match states with
    | [] => Ok mm
    | s :: rest =>
        b <- bounds_state t G s offw ;;
        bounds_loop (S t) G offw rest (bound_step mm (fst b))
    end.
  (** solve_metric.c:191-292 bounds_DDset: (Min, Max) and the number of cube
      generations started so far *)
  Definition bounds_DDset (t : nat) (T G : dt) (offw : list (Z * Z))
      : out ((Z * Z) * nat) :=
    states <- states_of t T ;;
    mm <- bounds_loop (S t) G offw states (-1, -1) ;;
    Ok (mm, (S t + List.length states)%nat).

  (** solve_metric.c:420-434: levels j, j+1, ... of one goal; [Yj] is the j-th set,
      [Ys] the ones after it, [goal] is goal and W *)
  Fixpoint level_bounds (t : nat) (goal : dt) (offw : list (Z * Z)) (Yj : dt) (Ys : list dt)
      : out (list (Z * Z) * nat) :=
    match Ys with
    | [] => Ok ([], t)
    | Y1 :: Ys' =>
        b <- bounds_DDset t (bAnd (2 * n) Y1 (bNot (2 * n) Yj)) goal offw ;;
        r <- level_bounds (snd b) goal offw Y1 Ys' ;;
        Ok (fst b :: fst r, snd r)
    end.
  (** solve_metric.c:411-435: one list of (Min, Max) for each goal. The arrays have
      num_sublevels-1 entries; entry 0 is written in any case. *)
  Fixpoint goal_bounds (t : nat) (W : dt) (offw : list (Z * Z)) (sgoals : list dt)
      (R : list (list dt * list (list dt))) : out (list (list (Z * Z))) :=
    match sgoals, R with
    | sg :: sgoals', (Ys, _) :: R' =>
        match Ys with
        | _ :: Y1 :: Ys' =>
            b <- level_bounds t (bAnd (2 * n) sg W) offw Y1 Ys' ;;
            l <- goal_bounds (snd b) W offw sgoals' R' ;;
            Ok (((0, 0) :: fst b) :: l)
        | _ => Crash
        end
    | _, _ => Ok []
    end.
End Bounds.

(** solve_metric.c:376-469 compute_minmax (with 299-373
    compute_winning_set_saveBDDs): for each goal and level (Min, Max); [None] is
    the result -1. The winning set and the BDDs, returned through pointers, are
    left out. *)
Definition compute_minmax (sp : spc_t) (fuel : nat) (orc : oracle) (offw : list (Z * Z))
    : out (option (list (list (Z * Z)))) :=
  b <- spec_BDDs sp ;;
  match b with
  | (et, st, eg, sg) =>
      W <- compute_winning_set_BDD (num_env sp) (num_sys sp) et st fuel eg sg ;;
      R <- compute_sublevel_sets (num_env sp) (num_sys sp) et st fuel W eg sg ;;
      match R with
      | None => Ok None
      | Some R => l <- goal_bounds (num_env sp + num_sys sp) fuel orc 0 W offw sg R ;;
                  Ok (Some l)
      end
  end.

(** ** compute_horizon *)
(** solve_metric.c:505-508: k from [k] down to 1 *)
Fixpoint horiz_loop (mm : list (Z * Z)) (j k : nat) (horiz_j : Z) : Z :=
  match k with
  | O => horiz_j
  | S k' => horiz_loop mm j k'
              (if snd (nth k' mm (0, 0)) >=? fst (nth (j - 1) mm (0, 0))
               then Z.of_nat j - Z.of_nat k else horiz_j)
  end.
(** solve_metric.c:503-511; [js] are the values of j *)
Fixpoint horizon_goal (mm : list (Z * Z)) (js : list nat) (horizon : Z) : Z :=
  match js with
  | [] => horizon
  | j :: rest =>
      let horiz_j := horiz_loop mm j (j - 2) 1 in
      horizon_goal mm rest (if horiz_j >? horizon then horiz_j else horizon)
  end.
(** solve_metric.c:502-512; num_sublevels is one more than the number of entries *)
Fixpoint horizon_loop (l : list (list (Z * Z))) (horizon : Z) : Z :=
  match l with
  | [] => horizon
  | mm :: rest => horizon_loop rest (horizon_goal mm (seq 3 (List.length mm - 2)) horizon)
  end.
(** solve_metric.c:472-526 compute_horizon *)
Definition compute_horizon (sp : spc_t) (fuel : nat) (orc : oracle) (metric_vars : string)
    : out Z :=
  o <- get_offsets (evar_list sp) (svar_list sp) metric_vars ;;
  match o with
  | None => Ok (-1)
  | Some offw =>
      r <- compute_minmax sp fuel orc offw ;;
      match r with
      | None => Ok (-1)
      | Some l => Ok (horizon_loop l (-1))
      end
  end.
