(** Model of src/solve_support.c (except [read_state_str], see ReadState.v). *)
From Coq Require Import List ZArith Lia Bool Arith.
From Verif Require Import Base Bdd.
Import ListNotations.
Open Scope Z_scope.

(** [a[i] = x]; writing past the end is excluded by the hypotheses on lengths
    of the theorems that use it. *)
Fixpoint upd (a : list Z) (i : nat) (x : Z) : list Z :=
  match a, i with
  | [], _ => []
  | _ :: a', O => x :: a'
  | y :: a', S i' => y :: upd a' i' x
  end.
(** [for (i = lo; i < lo+k; i++) a[i] = x;] *)
Fixpoint fill (a : list Z) (lo k : nat) (x : Z) : list Z :=
  match k with O => a | S k' => fill (upd a lo x) (S lo) k' x end.
(** [for (i = 0; i < len; i++) a[lo+i] = src[i];] *)
Fixpoint copy_into (a : list Z) (lo : nat) (src : list Z) : list Z :=
  match src with [] => a | x :: s => copy_into (upd a lo x) (S lo) s end.

(** solve_support.c:64-74 initialize_cube; [len] is the length of [gcube]. *)
Definition initialize_cube (gcube : list Z) : vec :=
  map (fun g => if g =? 2 then 0 else g) gcube.

(** solve_support.c:76-89 increment_cube; loop index running from [i]-1 down to 0. *)
Fixpoint increment_loop (i : nat) (cube gcube : list Z) : vec :=
  match i with
  | O => cube
  | S i' =>
      if nth i' gcube 0 =? 2 then
        let c := nth i' cube 0 + 1 in
        if c >? 1 then increment_loop i' (upd cube i' 0) gcube
        else upd cube i' c
      else increment_loop i' cube gcube
  end.
Definition increment_cube (cube gcube : list Z) : vec :=
  increment_loop (length gcube) cube gcube.

(** solve_support.c:91-99 saturated_cube. *)
Fixpoint saturated_cube (cube gcube : list Z) : bool :=
  match cube, gcube with
  | c :: cube', g :: gcube' =>
      if (g =? 2) && (c =? 0) then false else saturated_cube cube' gcube'
  | _, _ => true
  end.

(** The loop idiom used throughout (e.g. solve_support.c:253-287,
    solve.c:273-299): [initialize; while (!saturated) { BODY; increment; } BODY].
    The list of vectors for which BODY runs, in order. *)
Fixpoint enum_loop (fuel : nat) (cube gcube : list Z) : out (list vec) :=
  match fuel with
  | O => Fuel
  | S f => if saturated_cube cube gcube then Ok [cube]
           else l <- enum_loop f (increment_cube cube gcube) gcube ;;
                Ok (cube :: l)
  end.
Definition enum_cube (fuel : nat) (gcube : list Z) : out (list vec) :=
  enum_loop fuel (initialize_cube gcube) gcube.

(** solve_support.c:101-108 state_to_cube. *)
Definition state_to_cube (state : vec) (cube : list Z) : list Z :=
  fill (copy_into cube 0 state) (length state) (length state) 2.

(** solve_support.c:111-149 cube_env, cube_sys, cube_prime_env, cube_prime_sys;
    the argument [cube] is the previous contents of the array. *)
Definition cube_env (cube : list Z) (ne ns : nat) : list Z :=
  fill (fill cube ne (2 * (ne + ns) - ne) 2) 0 ne 1.
Definition cube_sys (cube : list Z) (ne ns : nat) : list Z :=
  fill (fill cube 0 (2 * (ne + ns)) 2) ne ns 1.
Definition cube_prime_env (cube : list Z) (ne ns : nat) : list Z :=
  fill (fill cube 0 (2 * (ne + ns)) 2) (ne + ns) ne 1.
Definition cube_prime_sys (cube : list Z) (ne ns : nat) : list Z :=
  fill (fill cube 0 (2 * ne + ns) 2) (2 * ne + ns) ns 1.

(** solve_support.c:152-160 statecmp, for arrays of the same length. *)
Fixpoint statecmp (s1 s2 : vec) : bool :=
  match s1, s2 with
  | x :: a, y :: b => if x =? y then statecmp a b else false
  | _, _ => true
  end.

(** solve_support.c:163-190 state_to_cof; [m] is [cube_len], which equals the
    number of manager variables at every call. [None] models a NULL return. *)
Definition state_to_cof (m : nat) (cube : list Z) (state : vec) (trans : dt)
    (offset : nat) : option dt :=
  let cube := copy_into (fill cube 0 m 2) offset state in
  match cubeBDD cube with
  | Some ddcube => Some (bCof m ddcube trans)
  | None => None
  end.

(** solve_support.c:193-212 state_to_BDD. *)
Fixpoint state_to_BDD_loop (m : nat) (state : vec) (i : nat) (v : dt) : dt :=
  match state with
  | [] => v
  | x :: s =>
      let lit := if negb (x =? 0) then bVar m i else bNot m (bVar m i) in
      state_to_BDD_loop m s (S i) (bAnd m v lit)
  end.
Definition state_to_BDD (m : nat) (state : vec) (offset : nat) : dt :=
  state_to_BDD_loop m state offset (bOne m).

(** Cube generator of CUDD ([Cudd_ForeachCube], [Cudd_FirstCube]): an oracle
    indexed by the number of generator calls made so far, since the cubes
    produced depend on the current variable order. *)
Definition oracle := nat -> dt -> list (list Z).

(** array slice [a+lo .. a+lo+k-1] *)
Definition slice {A} (lo k : nat) (a : list A) : list A := firstn k (skipn lo a).

Fixpoint concat_out {A B} (f : A -> out (list B)) (l : list A) : out (list B) :=
  match l with
  | [] => Ok []
  | x :: l' => a <- f x ;; b <- concat_out f l' ;; Ok (a ++ b)
  end.

(** solve_support.c:215-293 get_env_moves; [cubes] is what the generator yields.
    The result list stands for [env_moves] and its length for [emoves_len].
    A NULL result of [state_to_cof] is passed on to CUDD, hence [Crash]. *)
Definition env_moves_set (cube : list Z) (state : vec) (etrans : dt)
    (ne ns : nat) : out dt :=
  let m := (2 * (ne + ns))%nat in
  match state_to_cof m cube state etrans 0 with
  | None => Crash
  | Some tmp => Ok (bExist m (cube_prime_sys cube ne ns) tmp)
  end.
Definition get_env_moves (fuel : nat) (orc : dt -> list (list Z)) (cube : list Z)
    (state : vec) (etrans : dt) (ne ns : nat) : out (list vec) :=
  tmp2 <- env_moves_set cube state etrans ne ns ;;
  concat_out (fun gcube => enum_cube fuel (slice (ne + ns) ne gcube)) (orc tmp2).

(** solve_support.c:297-357 compute_existsmodal. *)
Definition compute_existsmodal (C etrans strans : dt) (ne ns : nat)
    (cube : list Z) : dt :=
  let n := (ne + ns)%nat in
  let m := (2 * n)%nat in
  let C := bSwap m n C in
  let tmp := bAnd m strans C in
  let tmp2 := bExist m (cube_prime_sys cube ne ns) tmp in
  let tmp := bOr m (bNot m etrans) tmp2 in
  bUniv m (cube_prime_env cube ne ns) tmp.

(** Specification of the cube generator for [f] over [m] variables: cubes of the
    right shape, mentioning only variables [f] depends on, and containing each
    valuation satisfying [f] in exactly one cube and no other valuation. *)
Definition lit_match (c x : Z) : bool := (c =? 2) || (c =? x).
Fixpoint in_cube (c : list Z) (v : vec) : bool :=
  match c, v with
  | [], [] => true
  | a :: c', x :: v' => lit_match a x && in_cube c' v'
  | _, _ => false
  end.
Definition depends (m : nat) (f : dt) (i : nat) : Prop :=
  exists v, bitvec m v /\ ev f (upd v i 0) <> ev f (upd v i 1).
Definition islit (x : Z) : Prop := x = 0 \/ x = 1 \/ x = 2.
Definition cubes_ok (m : nat) (f : dt) (cs : list (list Z)) : Prop :=
  Forall (fun c => length c = m /\ Forall islit c /\
            forall i, (i < m)%nat -> nth i c 2 <> 2 -> depends m f i) cs /\
  forall v, bitvec m v ->
    length (filter (fun c => in_cube c v) cs) = if ev f v then 1%nat else 0%nat.
Definition oracle_ok (m : nat) (orc : oracle) : Prop :=
  forall t f, wf m f -> cubes_ok m f (orc t f).
