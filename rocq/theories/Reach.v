(** Model of synthesize_reachgame_BDD and synthesize_reachgame
    (src/patching_support.c:19-540) and of the use rg makes of them
    (src/rg_main.c:445-541).

    External choices are oracles as in Synth.v: [orc t f] is the list of cubes the
    CUDD generator yields for [f] at time [t], [alloc t A] the address malloc
    returns. Allocation never fails; logging and reference counting are left out.
    The stack of nodes is the list of their states: mode, reach annotation and
    initial flag of the stacked nodes are constant (-1, -1, False). *)
From Coq Require Import List ZArith Bool Arith.
From Verif Require Import Base Bdd Support Ops Strs Ptree Solve Automaton Synth.
Import ListNotations.
Open Scope nat_scope.

Section Reach.
  Variables (ne ns : nat) (orc : oracle) (alloc : nat -> aut -> nat).
  Let n := ne + ns.
  Let m := 2 * (ne + ns).

  Section Levels.
    Variables (et st Exit N : dt).

    (** patching_support.c:123-152: one iteration of the greatest fixpoint for X *)
    Definition rx_step (Y_exmod eg : dt) (X_prev : dt) : out dt :=
      let X := bAnd m (EXm ne ns et st X_prev) N in
      let tmp2 := bOr m Exit Y_exmod in
      let tmp := bAnd m X (bNot m eg) in
      let X := bOr m tmp2 tmp in
      Ok (bAnd m X X_prev).
    (** patching_support.c:115-155 *)
    Definition rx_loop (fuel : nat) (Y_exmod eg : dt) : out dt :=
      do_until fuel (same ne ns) (rx_step Y_exmod eg) (bOne m).
    (** patching_support.c:113-170: the X sets of one level and their union *)
    Fixpoint rx_union (fuel : nat) (Y_exmod : dt) (egoals : list dt) (Xs : list dt) (Y : dt)
        : out (list dt * dt) :=
      match egoals with
      | [] => Ok (Xs, Y)
      | eg :: r => X <- rx_loop fuel Y_exmod eg ;;
                   rx_union fuel Y_exmod r (Xs ++ [X]) (bOr m Y X)
      end.
    (** patching_support.c:86-210: [Ys] and [Xs] are the arrays built so far, [Yp] the
        last entry of [Ys]; [None] when NULL is returned *)
    Fixpoint reach_loop (fuel xfuel : nat) (Entry : dt) (egoals : list dt)
        (Ys : list dt) (Yp : dt) (Xs : list (list dt)) : out (option levels_t) :=
      match fuel with
      | O => Fuel
      | S f =>
          let Y_exmod := bAnd m (EXm ne ns et st Yp) N in
          p <- rx_union xfuel Y_exmod egoals [] (bZero m) ;;
          let Y := bOr m (snd p) Yp in
          let tmp := bOr m Entry Y in
          if bLeq m tmp Y && bLeq m Y tmp
          then Ok (Some (if same ne ns Y Yp then (Ys, Xs) else (Ys ++ [Y], Xs ++ [fst p])))
          else if same ne ns Y Yp then Ok None
          else reach_loop f xfuel Entry egoals (Ys ++ [Y]) Y (Xs ++ [fst p])
      end.
    (** patching_support.c:61-210 *)
    Definition reach_levels (fuel : nat) (Entry : dt) (egoals : list dt)
        : out (option levels_t) :=
      reach_loop fuel fuel Entry egoals [Exit] Exit
        [repeat (bZero m) (length egoals)].
  End Levels.

  Section Step.
    (** strans_into_N (patching_support.c:215-225), etrans, the level sets *)
    Variables (stN et : dt) (L : levels_t).

    (** patching_support.c:344-373: the first X set of the row that can be reached,
        with the set of successors in it *)
    Fixpoint rtry_row (row : list dt) (s e : vec) : out (option (dt * dt)) :=
      match row with
      | [] => Ok None
      | X :: r => tmp <- toward ne ns stN X s e ;;
                  if is_zero ne ns tmp then rtry_row r s e else Ok (Some (X, tmp))
      end.
    (** patching_support.c:343-381: offset 1, then offset 0; only called with [j > 0]
        (the branch for [j = 0], lines 382-401, is unreachable: line 286 skips these
        nodes) *)
    Definition rfallback (j : nat) (s e : vec) : out (option (dt * dt)) :=
      match nth_error (snd L) (j - 1) with
      | None => Crash
      | Some row =>
          r <- rtry_row row s e ;;
          match r with
          | Some p => Ok (Some p)
          | None => match nth_error (snd L) j with
                    | None => Crash
                    | Some row => rtry_row row s e
                    end
          end
      end.
    (** patching_support.c:311-430: the cube chosen for the move [e]; [T] is the set
        whose primed version is in Y_i_primed. Returns the cube, the set in Y_i_primed
        afterwards and the time; [None] when NULL is returned. *)
    Definition rchoose (t : nat) (T : dt) (j : nat) (s e : vec)
        : out (option (list Z * dt) * nat) :=
      tmp <- toward ne ns stN T s e ;;
      match orc t tmp with
      | c :: _ => Ok (Some (c, T), S t)
      | [] =>
          r <- rfallback j s e ;;
          match r with
          | None => Ok (None, S t)
          | Some (T', tmp) =>
              match orc (S t) tmp with
              | c :: _ => Ok (Some (c, T'), S (S t))
              | [] => Ok (None, S (S t))
              end
          end
      end.

    Record rstate := RS { r_str : aut; r_stk : list vec; r_clk : nat }.

    (** patching_support.c:310-470: one environment move at the node with state [s];
        [None] when NULL is returned *)
    Definition rmove (s : vec) (j : nat) (e : vec) (T : dt) (q : rstate)
        : out (option (dt * rstate)) :=
      r <- rchoose (r_clk q) T j s e ;;
      match r with
      | (None, _) => Ok None
      | (Some (c, T'), t) =>
          let s' := next_state ne ns c e in
          let A := r_str q in
          let q1 := match find_anode A (-1) s' with
                    | Some _ => RS A (r_stk q) t
                    | None => RS (insert_anode A (alloc t A) (-1) (-1) false s')
                                 (s' :: r_stk q) (S t)
                    end in
          p <- append_anode_trans (r_str q1) (-1) s (-1) s' ;;
          match p with
          | (A', true) => Ok (Some (T', RS A' (r_stk q1) (r_clk q1)))
          | (_, false) => Ok None
          end
      end.
    Fixpoint rmoves (s : vec) (j : nat) (es : list vec) (T : dt) (q : rstate)
        : out (option rstate) :=
      match es with
      | [] => Ok (Some q)
      | e :: r => o <- rmove s j e T q ;;
                  match o with
                  | None => Ok None
                  | Some (T', q') => rmoves s j r T' q'
                  end
      end.
    (** patching_support.c:267-472: one iteration of the main loop for the state [s] on
        top of the stack; [stk] is the rest of the stack *)
    Definition riteration (fuel : nat) (s : vec) (stk : list vec) (A : aut) (t : nat)
        : out (option rstate) :=
      j <- level_search ne ns (length (fst L)) (fst L) s ;;
      match find_anode A (-1) s with
      | None => Crash
      | Some node =>
          let A := store A (aid node) (set_rgrad (Z.of_nat j)) in
          if (0 <? length (atrans node)) || (j =? 0) then Ok (Some (RS A stk t))
          else
            match nth_error (fst L) (j - 1) with
            | None => Crash
            | Some T =>
                if 0 <? ne
                then es <- get_env_moves fuel (orc t) (cube0 ne ns) s et ne ns ;;
                     rmoves s j es T (RS A stk (S t))
                else rmoves s j [[]] T (RS A stk t)
            end
      end.
    Fixpoint rmain (fuel ifuel : nat) (q : rstate) : out (option aut) :=
      match r_stk q with
      | [] => Ok (Some (r_str q))
      | s :: stk =>
          match fuel with
          | O => Fuel
          | S f =>
              o <- riteration ifuel s stk (r_str q) (r_clk q) ;;
              match o with
              | None => Ok None
              | Some q' => rmain f ifuel q'
              end
          end
      end.
  End Step.

  (** patching_support.c:253-265: the stacked nodes are inserted into the strategy,
      from the top of the stack on *)
  Fixpoint rinsert (stk : list vec) (A : aut) (t : nat) : aut * nat :=
    match stk with
    | [] => (A, t)
    | s :: r => rinsert r (insert_anode A (alloc t A) (-1) (-1) false s) (S t)
    end.

  (** patching_support.c:19-490; the empty list stands for NULL *)
  Definition synthesize_reachgame_BDD (fuel : nat) (Entry Exit et st : dt) (egs : list dt)
      (N : dt) : out aut :=
    o <- reach_levels et st Exit N fuel Entry egs ;;
    match o with
    | None => Ok []
    | Some L =>
        let stN := bAnd m st (bSwap m n N) in
        l <- completions_of orc fuel 0 Entry n ;;
        let stk := rev l in
        let (A, t) := rinsert stk [] 1 in
        r <- rmain stN et L fuel fuel (RS A stk t) ;;
        match r with
        | None => Ok []
        | Some A => Ok A
        end
    end.

  (** patching_support.c:507-532: the characteristic function of a list of states *)
  Definition states_BDD (l : list vec) : dt :=
    fold_left (fun acc s => bOr m acc (state_to_BDD m s 0)) l (bZero m).
  (** patching_support.c:493-540 *)
  Definition synthesize_reachgame (fuel : nat) (Entry Exit : list vec) (et st : dt)
      (egs : list dt) (N : dt) : out aut :=
    synthesize_reachgame_BDD fuel (states_BDD Entry) (states_BDD Exit) et st egs N.
End Reach.

(** rg_main.c:445-541 on the global specification, whose variables are all Boolean;
    rg has checked that there is at most one system goal (lines 230-235) *)
Definition rg_synthesize (sp : spc_t) (orc : oracle) (alloc : nat -> aut -> nat) (fuel : nat)
    : out aut :=
  einit <- init_BDD sp (env_init sp) ;;
  sinit <- init_BDD sp (sys_init sp) ;;
  b <- spec_BDDs sp ;;
  match b with
  | (et, st, eg, sg) =>
      let m := 2 * (num_env sp + num_sys sp) in
      let Entry := bAnd m einit sinit in
      let Exit := match sg with [] => bZero m | g :: _ => g end in
      synthesize_reachgame_BDD (num_env sp) (num_sys sp) orc alloc fuel Entry Exit et st eg
        (bOne m)
  end.
