(** Model of synthesize (src/solve.c:43-792).

    External choices are oracles: [orc t f] is the list of cubes the CUDD generator
    yields for [f] at time [t] (it depends on the current variable order), and
    [alloc t A] the address malloc returns for a new node when the strategy is [A].
    Allocation never fails; logging and reference counting are left out. The
    assignments to [cube] and [state] whose old contents are never read again are
    left out too: every function that receives [cube] overwrites it (see Support.v). *)
From Coq Require Import List ZArith Bool Arith.
From Verif Require Import Base Bdd Support Ops Strs Ptree Solve Automaton.
Import ListNotations.
Open Scope nat_scope.

(** one goal's arrays after the shift: [Y+i] and [X_ijr+i] *)
Definition levels_t := (list dt * list (list dt))%type.

Section Synth.
  Variables (ne ns : nat) (orc : oracle) (alloc : nat -> aut -> nat).
  Let n := ne + ns.
  Let m := 2 * (ne + ns).

  (** solve.c:202-226: Y_0 is deleted, Y_1 replaced by goal /\ W, indices shifted
      down. With a single sublevel (empty winning set) [Y+i+1] is out of bounds. *)
  Definition shift_levels (W sg : dt) (p : levels_t) : out levels_t :=
    match p with
    | (_ :: _ :: Ys, _ :: Xs) => Ok (bAnd m sg W :: Ys, Xs)
    | _ => Crash
    end.
  Fixpoint shift_all (W : dt) (sgs : list dt) (ps : list levels_t) : out (list levels_t) :=
    match sgs, ps with
    | sg :: sgs', p :: ps' =>
        q <- shift_levels W sg p ;; qs <- shift_all W sgs' ps' ;; Ok (q :: qs)
    | [], _ => Ok []
    | _, [] => Crash
    end.

  (** Cudd_Eval on the cube of a state (solve.c:454-456, 683-684) *)
  Definition eval_at (f : dt) (s : vec) : bool := ev f (state_to_cube s (cube0 ne ns)).

  (** solve.c:459-467: [j] runs down from the number of sublevels while the state
      belongs to the level *)
  Fixpoint level_search (j : nat) (Y : list dt) (s : vec) : out nat :=
    match j with
    | O => Crash
    | S j' =>
        match nth_error Y j' with
        | None => Crash
        | Some f => if eval_at f s
                    then match j' with O => Ok 0 | _ => level_search j' Y s end
                    else Ok (S j')
        end
    end.
  (** solve.c:457-478: the mode advances while the goal holds; returns mode and j *)
  Fixpoint mode_search (fuel : nat) (L : list levels_t) (loop_mode mode : nat) (s : vec)
      : out (nat * nat) :=
    match fuel with
    | O => Fuel
    | S f =>
        match nth_error L mode with
        | None => Crash
        | Some (Y, _) =>
            j <- level_search (length Y) Y s ;;
            match j with
            | O => let mode' := if mode =? length L - 1 then 0 else mode + 1 in
                   if loop_mode =? mode' then Ok (mode', 0)
                   else mode_search f L loop_mode mode' s
            | _ => Ok (mode, j)
            end
        end
    end.

  Section Step.
    (** strans_into_W (solve.c:233-245), etrans *)
    Variables (stW et : dt) (L : list levels_t).

    (** solve.c:567-580 (and 603-616, 639-652): restriction to the successors of [s]
        that answer the environment move [e] *)
    Definition cof2 (s e : vec) (f : dt) : out dt :=
      match state_to_cof m (cube0 ne ns) s f 0 with
      | None => Crash
      | Some tmp2 =>
          if 0 <? ne
          then match state_to_cof m (cube0 ne ns) e tmp2 n with
               | None => Crash
               | Some tmp => Ok tmp
               end
          else Ok tmp2
      end.
    (** solve.c:552-580: successors in the set [Y] *)
    Definition toward (Y : dt) (s e : vec) : out dt := cof2 s e (bAnd m stW (bSwap m n Y)).
    (** solve.c:618-623 *)
    Definition is_zero (f : dt) : bool :=
      bLeq m f (bNot m (bOne m)) && bLeq m (bNot m (bOne m)) f.
    (** solve.c:592-624: the first X set of the row (of length num_egoals) that can be
        reached *)
    Fixpoint try_row (row : list dt) (s e : vec) : out (option dt) :=
      match row with
      | [] => Ok None
      | X :: r => tmp <- toward X s e ;;
                  if is_zero tmp then try_row r s e else Ok (Some tmp)
      end.
    (** solve.c:590-654 *)
    Definition fallback (X : list (list dt)) (j : nat) (s e : vec) : out (option dt) :=
      match j with
      | O => tmp <- cof2 s e (bAnd m stW (bOne m)) ;; Ok (Some tmp)
      | S j1 =>
          match nth_error X j1 with
          | None => Crash
          | Some row =>
              r <- try_row row s e ;;
              match r with
              | Some tmp => Ok (Some tmp)
              | None => match nth_error X j with
                        | None => Crash
                        | Some row => try_row row s e
                        end
              end
          end
      end.
    (** solve.c:552-685: the cube chosen for the move [e], and the number of generator
        calls made; [None] when the function gives up and returns NULL *)
    Definition choose (t : nat) (YX : levels_t) (j : nat) (s e : vec)
        : out (option (list Z) * nat) :=
      match nth_error (fst YX) (j - 1) with
      | None => Crash
      | Some Y =>
          tmp <- toward Y s e ;;
          match orc t tmp with
          | c :: _ => Ok (Some c, S t)
          | [] =>
              r <- fallback (snd YX) j s e ;;
              match r with
              | None => Ok (None, S t)
              | Some tmp =>
                  match orc (S t) tmp with
                  | c :: _ => Ok (Some c, S (S t))
                  | [] => Ok (None, S (S t))
                  end
              end
          end
      end.
    (** solve.c:680-682: the next state *)
    Definition next_state (c : list Z) (e : vec) : vec :=
      firstn ne e ++ skipn ne (initialize_cube (slice n n c)).

    Record sstate := SS { s_str : aut; s_stk : list (vec * nat); s_clk : nat }.

    (** solve.c:549-729: one environment move [e] at the node with state [s], mode
        [md]; [None] when NULL is returned *)
    Definition do_move (s : vec) (md j : nat) (e : vec) (st : sstate) : out (option sstate) :=
      match nth_error L md with
      | None => Crash
      | Some YX =>
          r <- choose (s_clk st) YX j s e ;;
          match r with
          | (None, _) => Ok None
          | (Some c, t) =>
              let s' := next_state c e in
              match nth_error (fst YX) 0 with
              | None => Crash
              | Some Y0 =>
                  let next_mode := if eval_at Y0 s'
                                   then (if md =? length L - 1 then 0 else md + 1) else md in
                  let A := s_str st in
                  let st1 := match find_anode A (Z.of_nat next_mode) s' with
                             | Some _ => SS A (s_stk st) t
                             | None => SS (insert_anode A (alloc t A) (Z.of_nat next_mode) (-1)
                                             false s')
                                          ((s', next_mode) :: s_stk st) (S t)
                             end in
                  p <- append_anode_trans (s_str st1) (Z.of_nat md) s (Z.of_nat next_mode) s' ;;
                  match p with
                  | (A', true) => Ok (Some (SS A' (s_stk st1) (s_clk st1)))
                  | (_, false) => Ok None
                  end
              end
          end
      end.
    Fixpoint do_moves (s : vec) (md j : nat) (es : list vec) (st : sstate)
        : out (option sstate) :=
      match es with
      | [] => Ok (Some st)
      | e :: r => o <- do_move s md j e st ;;
                  match o with
                  | None => Ok None
                  | Some st' => do_moves s md j r st'
                  end
      end.
    (** solve.c:538-729: the node at address [a] is expanded; the head of the stack has
        been popped *)
    Definition process (fuel : nat) (a : nat) (s : vec) (md j : nat) (st : sstate)
        : out (option sstate) :=
      let st := SS (store (s_str st) a (set_rgrad (Z.of_nat j))) (s_stk st) (s_clk st) in
      if 0 <? ne
      then es <- get_env_moves fuel (orc (s_clk st)) (cube0 ne ns) s et ne ns ;;
           do_moves s md j es (SS (s_str st) (s_stk st) (S (s_clk st)))
      else do_moves s md j [[]] st.
    (** solve.c:452-747: one iteration of the main loop, for the node [(s, loop_mode)]
        on top of the stack; [stk] is the rest of the stack *)
    Definition iteration (fuel : nat) (s : vec) (loop_mode : nat) (stk : list (vec * nat))
        (A : aut) (t : nat) : out (option sstate) :=
      p <- mode_search fuel L loop_mode loop_mode s ;;
      let md := fst p in
      let j := snd p in
      match find_anode A (Z.of_nat loop_mode) s with
      | None => Crash
      | Some node =>
          if 0 <? length (atrans node) then Ok (Some (SS A stk t))
          else if md =? loop_mode then process fuel (aid node) s md j (SS A stk t)
          else
            let A1 := delete_anode A (Some (aid node)) in
            match find_anode A1 (Z.of_nat md) s with
            | None =>
                let A2 := insert_anode A1 (alloc t A1) (Z.of_nat md) (-1) (ainit node) s in
                match find_anode A2 (Z.of_nat md) s with
                | None => Crash
                | Some new =>
                    let A3 := replace_anode_trans A2 (aid node) (Some (aid new)) in
                    process fuel (aid new) s md j (SS A3 stk (S t))
                end
            | Some new =>
                let A2 := replace_anode_trans A1 (aid node) (Some (aid new)) in
                if 0 <? length (atrans new) then Ok (Some (SS A2 stk t))
                else process fuel (aid new) s md j (SS A2 stk t)
            end
      end.
    Fixpoint main_loop (fuel ifuel : nat) (st : sstate) : out (option aut) :=
      match s_stk st with
      | [] => Ok (Some (s_str st))
      | (s, md) :: stk =>
          match fuel with
          | O => Fuel
          | S f =>
              o <- iteration ifuel s md stk (s_str st) (s_clk st) ;;
              match o with
              | None => Ok None
              | Some st' => main_loop f ifuel st'
              end
          end
      end.
  End Step.

  (** solve.c:428-445: the stacked initial nodes are inserted into the strategy, from
      the top of the stack on *)
  Fixpoint insert_initial (stk : list (vec * nat)) (A : aut) (t : nat) : aut * nat :=
    match stk with
    | [] => (A, t)
    | (s, md) :: r =>
        insert_initial r (insert_anode A (alloc t A) (Z.of_nat md) (-1) true s) (S t)
    end.

  (** solve.c:266-288: all completions of all cubes of [f], over the [len] first
      variables, in the order in which they are pushed *)
  Definition completions_of (fuel t : nat) (f : dt) (len : nat) : out (list vec) :=
    concat_out (fun gcube => enum_cube fuel (firstn len gcube)) (orc t f).
  (** solve.c:344-391: a system part for each environment part on the stack *)
  Fixpoint complete_sys (t : nat) (W sinit : dt) (es : list vec)
      : out (option (list vec) * nat) :=
    match es with
    | [] => Ok (Some [], t)
    | e :: r =>
        match cubeBDD (e ++ repeat 2%Z (m - ne)) with
        | None => Crash
        | Some ddcube =>
            let tmp2 := bAnd m (bCof m ddcube W) sinit in
            match orc t tmp2 with
            | [] => Ok (None, S t)
            | gcube :: _ =>
                let s := initialize_cube (firstn n gcube) in
                p <- complete_sys (S t) W sinit r ;;
                Ok (match fst p with
                    | Some l => Some ((e ++ skipn ne s) :: l)
                    | None => None
                    end, snd p)
            end
        end
    end.
  (** solve.c:252-425: the states pushed on the stack, top of the stack first *)
  Definition initial_stack (fuel : nat) (flags : init_flags_t) (sys_init_given : bool)
      (einit sinit W : dt) : out (option (list vec) * nat) :=
    match flags with
    | ALL_INIT =>
        l <- completions_of fuel 0 (bAnd m einit sinit) n ;; Ok (Some (rev l), 1)
    | ALL_ENV_EXIST_SYS_INIT =>
        let tmp := bExist m (repeat 2%Z ne ++ repeat 1%Z (m - ne)) einit in
        l <- completions_of fuel 0 tmp ne ;;
        complete_sys 1 W sinit (rev l)
    | ONE_SIDE_INIT =>
        if sys_init_given
        then match orc 0 (bAnd m sinit W) with
             | [] => Ok (None, 1)
             | gcube :: _ => Ok (Some [initialize_cube (firstn n gcube)], 1)
             end
        else l <- completions_of fuel 0 einit n ;; Ok (Some (rev l), 1)
    | UNDEFINED_INIT => Ok (None, 0)
    end.

  (** solve.c:173-247, 452-791, given the BDDs; the empty list stands for NULL *)
  Definition synthesize_BDD (fuel : nat) (flags : init_flags_t) (sys_init_given : bool)
      (einit sinit et st : dt) (egs sgs : list dt) : out aut :=
    W <- compute_winning_set_BDD ne ns et st fuel egs sgs ;;
    o <- compute_sublevel_sets ne ns et st fuel W egs sgs ;;
    match o with
    | None => Ok []
    | Some lev =>
        L <- shift_all W sgs lev ;;
        let stW := bAnd m st (bSwap m n W) in
        i <- initial_stack fuel flags sys_init_given einit sinit W ;;
        match i with
        | (None, _) => Ok []
        | (Some ss, t) =>
            let stk := map (fun s => (s, 0)) ss in
            let (A, t) := insert_initial stk [] t in
            r <- main_loop stW et L fuel fuel (SS A stk t) ;;
            match r with
            | None => Ok []
            | Some A => Ok A
            end
        end
    end.
End Synth.

(** solve.c:43-792 synthesize, on the global specification *)
Definition synthesize (sp : spc_t) (orc : oracle) (alloc : nat -> aut -> nat) (fuel : nat)
    (flags : init_flags_t) : out aut :=
  einit <- init_BDD sp (env_init sp) ;;
  sinit <- init_BDD sp (sys_init sp) ;;
  b <- spec_BDDs sp ;;
  match b with
  | (et, st, eg, sg) =>
      synthesize_BDD (num_env sp) (num_sys sp) orc alloc fuel flags
        (match sys_init sp with NULL => false | _ => true end) einit sinit et st eg sg
  end.

(** a concrete allocator: an address larger than all those in use *)
Definition alloc_max (t : nat) (A : aut) : nat := S (list_max (map aid A)).
