(** Model of src/solve_operators.c, at the level of BDDs. *)
From Coq Require Import List ZArith Lia Bool Arith.
From Verif Require Import Base Bdd Support.
Import ListNotations.
Open Scope nat_scope.

Section Ops.
  (** number of environment and system variables, transition functions *)
  Variables (ne ns : nat) (etrans strans : dt).
  Let m := 2 * (ne + ns).

  (** the scratch array [cube], freshly allocated (solve_operators.c:139,367);
      every use overwrites it completely *)
  Definition cube0 : list Z := repeat 0%Z m.
  Definition EXm (C : dt) : dt := compute_existsmodal C etrans strans ne ns cube0.

  (** [Cudd_bddLeq(a,b) && Cudd_bddLeq(b,a)] *)
  Definition same (a b : dt) : bool := bLeq m a b && bLeq m b a.

  (** solve_operators.c:253-286 (and 468-500): greatest fixpoint for X;
      [SZ] is the conjunction of the system goal and [Z_i] (resp. [W]). *)
  Definition x_step (sg Z Y_exmod eg : dt) (X_prev : dt) : out dt :=
    let X := EXm X_prev in
    let tmp2 := bOr m (bAnd m sg Z) Y_exmod in
    let tmp := bAnd m X (bNot m eg) in
    let X := bOr m tmp2 tmp in
    Ok (bAnd m X X_prev).
  Definition x_loop (fuel : nat) (sg Z Y_exmod eg : dt) : out dt :=
    do_until fuel same (x_step sg Z Y_exmod eg) (bOne m).

  (** solve_operators.c:235-297: union over the environment goals. *)
  Fixpoint y_union (fuel : nat) (sg Z Y_exmod : dt) (egoals : list dt) (Y : dt)
      : out dt :=
    match egoals with
    | [] => Ok Y
    | eg :: r => X <- x_loop fuel sg Z Y_exmod eg ;;
                 y_union fuel sg Z Y_exmod r (bOr m Y X)
    end.
  (** solve_operators.c:221-302 one iteration of the least fixpoint for Y. *)
  Definition y_step (fuel : nat) (egoals : list dt) (sg Z : dt) (Y_prev : dt) : out dt :=
    let Y_exmod := EXm Y_prev in
    Y <- y_union fuel sg Z Y_exmod egoals (bZero m) ;;
    Ok (bOr m Y Y_prev).
  Definition y_loop (fuel : nat) (egoals : list dt) (sg Z : dt) : out dt :=
    do_until fuel same (y_step fuel egoals sg Z) (bZero m).

  (** solve_operators.c:192-318 one pass over the system goals, from index [i];
      [k] is the number of system goals. *)
  Fixpoint z_pass (fuel : nat) (egoals : list dt) (k i : nat) (sgoals Z_prev : list dt)
      : out (list dt) :=
    match sgoals with
    | [] => Ok []
    | sg :: r =>
        let Zn := if i =? k - 1 then nth 0 Z_prev (bZero m)
                  else nth (i + 1) Z_prev (bZero m) in
        let Zi := EXm Zn in
        Y <- y_loop fuel egoals sg Zi ;;
        l <- z_pass fuel egoals k (i + 1) r Z_prev ;;
        Ok (bAnd m Y (nth i Z_prev (bZero m)) :: l)
    end.
  (** solve_operators.c:320-327 negation of [Z_changed] *)
  Fixpoint z_same (Z Z_prev : list dt) : bool :=
    match Z, Z_prev with
    | a :: r, b :: r' => if same a b then z_same r r' else false
    | _, _ => true
    end.

  (** solve_operators.c:114-342 compute_winning_set_BDD. With no system goal the
      code reads through the NULL pointer [Z] (line 331). *)
  Definition compute_winning_set_BDD (fuel : nat) (egoals sgoals : list dt) : out dt :=
    Z <- do_until fuel z_same
           (z_pass fuel egoals (length sgoals) 0 sgoals)
           (repeat (bOne m) (length sgoals)) ;;
    match Z with
    | Zfirst :: _ => Ok Zfirst
    | [] => Crash
    end.

  (** solve_operators.c:459-515: the X sets of one sublevel and their union. *)
  Fixpoint sub_union (fuel : nat) (sg W Y_exmod : dt) (egoals : list dt)
      (Xs : list dt) (Y : dt) : out (list dt * dt) :=
    match egoals with
    | [] => Ok (Xs, Y)
    | eg :: r => X <- x_loop fuel sg W Y_exmod eg ;;
                 sub_union fuel sg W Y_exmod r (Xs ++ [X]) (bOr m Y X)
    end.
  (** solve_operators.c:435-547: the [while (True)] loop for one system goal;
      [Ys] and [Xs] are the arrays built so far, [Yp] the last entry of [Ys]. *)
  Fixpoint sub_loop (fuel xfuel : nat) (egoals : list dt) (sg W : dt)
      (Ys : list dt) (Yp : dt) (Xs : list (list dt)) : out (list dt * list (list dt)) :=
    match fuel with
    | O => Fuel
    | S f =>
        p <- sub_union xfuel sg W (EXm Yp) egoals [] (bZero m) ;;
        let Y := bOr m (snd p) Yp in
        if same Y Yp then Ok (Ys, Xs)
        else sub_loop f xfuel egoals sg W (Ys ++ [Y]) Y (Xs ++ [fst p])
    end.
  Fixpoint sub_goals (fuel : nat) (egoals : list dt) (W : dt) (sgoals : list dt)
      : out (list (list dt * list (list dt))) :=
    match sgoals with
    | [] => Ok []
    | sg :: r =>
        p <- sub_loop fuel fuel egoals sg W [bZero m] (bZero m)
               [repeat (bZero m) (length egoals)] ;;
        l <- sub_goals fuel egoals W r ;;
        Ok (p :: l)
    end.
  (** solve_operators.c:345-553 compute_sublevel_sets. For each system goal i the
      pair (Y_i, X_i): the array of sublevel sets, whose length is
      [num_sublevels[i]], and the array of arrays [X_ijr]. [None] models the
      NULL returned when there is no system goal. *)
  Definition compute_sublevel_sets (fuel : nat) (W : dt) (egoals sgoals : list dt)
      : out (option (list (list dt * list (list dt)))) :=
    match sgoals with
    | [] => Ok None
    | _ => l <- sub_goals fuel egoals W sgoals ;; Ok (Some l)
    end.
End Ops.
