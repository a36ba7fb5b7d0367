(** Model of patch_localfixpoint and localfixpoint_goalmode (src/patching.c:68-1069),
    called by gr1c-patch for the option -e (exp/grpatch.c:546-566), for specifications
    whose variables are all Boolean (num_nonbool is 0, so that original_num_env and
    original_num_sys are num_env and num_sys; the branches for num_nonbool > 0 are left
    out).
    Conventions as in Hotswap.v and AddGoal.v. Logging and reference counting are left
    out, allocation never fails, integers do not overflow. *)
From Coq Require Import List ZArith Bool Arith Ascii String.
From Verif Require Import Base Bdd Support Ops Strs Ptree Solve Automaton Synth Reach ReadState AutIO Nonbool Hotswap.
Import ListNotations.
Open Scope string_scope.
Open Scope list_scope.
Open Scope nat_scope.

(** ** localfixpoint_goalmode *)
Section Goalmode.
  (** the states of N *)
  Variable N : list vec.
  (** patching.c:121-123 and others: linear search in N *)
  Definition inN (s : vec) : bool := existsb (statecmp s) N.

  Section Mode.
  Variable goal_mode : Z.
  (** patching.c:131-148: [l] are the transitions still to be examined. Writing beyond
      the N_len elements of Entry is a [Crash]. *)
  Fixpoint add_entries (A : aut) (l : list nat) (Entry : list anode) : out (list anode) :=
    match l with
    | [] => Ok Entry
    | t :: r =>
        match deref A t with
        | None => Crash
        | Some y =>
            if (amode y =? goal_mode)%Z && inN (astate y) then
              if existsb (fun e => statecmp (astate e) (astate y)) Entry then add_entries A r Entry
              else if List.length N <=? List.length Entry then Crash
              else add_entries A r (Entry ++ [y])
            else add_entries A r Entry
        end
    end.
  (** patching.c:113-152: [l] are the nodes still to be examined; Entry and Exit *)
  Fixpoint scan_nodes (A l : aut) (Entry Exit : list anode) : out (list anode * list anode) :=
    match l with
    | [] => Ok (Entry, Exit)
    | x :: r =>
        if (amode x =? goal_mode)%Z then
          if inN (astate x) then
            if List.length N <=? List.length Exit then Crash
            else scan_nodes A r Entry (Exit ++ [x])
          else Entry <- add_entries A (atrans x) Entry ;; scan_nodes A r Entry Exit
        else scan_nodes A r Entry Exit
    end.
  (** patching.c:157-165 *)
  Definition lower (m : Z) (x : anode) : Z :=
    if ((argrad x <? m) || (m =? -1))%Z then argrad x else m.
  Definition least_rgrad (Entry U : list anode) : Z := fold_left lower U (fold_left lower Entry (-1)%Z).
  (** patching.c:169-182: [done] are the elements 0, ..., i - 1 of Exit in reverse order;
      a removed element is overwritten with the last one *)
  Fixpoint drop_exits (fuel : nat) (min_rgrad : Z) (done rest : list anode) : list anode :=
    match fuel, rest with
    | S f, x :: r =>
        if (min_rgrad <=? argrad x)%Z then
          match rev r with
          | [] => rev done
          | z :: _ => drop_exits f min_rgrad done (z :: removelast r)
          end
        else drop_exits f min_rgrad (x :: done) r
    | _, _ => rev done ++ rest
    end.
  (** patching.c:219-227 *)
  Definition max_rgrad (L : aut) : Z := fold_left (fun m x => if (m <? argrad x)%Z then argrad x else m) L (-1)%Z.
  Definition min_rgrad_of (L : aut) : Z := fold_left lower L (-1)%Z.
  (** patching.c:229-244; [None]: NULL is returned *)
  Fixpoint connect_entries (Entry : list anode) (L A : aut) : option aut :=
    match Entry with
    | [] => Some A
    | e :: r => match with_state (astate e) L with
                | None => None
                | Some node => connect_entries r L (replace_anode_trans A (aid e) (Some (aid node)))
                end
    end.
  (** patching.c:246-283: [l] are the addresses of the nodes of the local strategy still
      to be visited. forward_modereach follows pointers through both lists. *)
  Fixpoint connect_exits (l : list nat) (Exit : list anode) (A L : aut) (Exit_rgrad : Z)
      : out (option (aut * aut * Z)) :=
    match l with
    | [] => Ok (Some (A, L, Exit_rgrad))
    | b :: r =>
        match deref L b with
        | None => Crash
        | Some node =>
            if no_trans node then
              match find (fun x => statecmp (astate node) (astate x)) Exit with
              | None => Ok None
              | Some x =>
                  let Exit_rgrad := if (Exit_rgrad <? argrad x)%Z then argrad x else Exit_rgrad in
                  H <- forward_modereach (S (List.length A + List.length L)) (A ++ L) (aid x) goal_mode N (-1) ;;
                  let A := firstn (List.length A) H in
                  let L := skipn (List.length A) H in
                  let A := store A (aid x) (set_mode (-1)) in
                  let L := store L b (set_mode (-2)) in
                  let L := replace_anode_trans L b (Some (aid x)) in
                  connect_exits r Exit A L Exit_rgrad
              end
            else connect_exits r Exit A L Exit_rgrad
        end
    end.
  (** patching.c:287-301 *)
  Definition mark_node (x : anode) : anode :=
    if (amode x =? goal_mode)%Z then (if inN (astate x) then set_mode (-2) x else x)
    else if (amode x =? -1)%Z then set_mode goal_mode x else x.
  (** patching.c:302-311 *)
  Definition to_delete (x : anode) : bool := (amode x =? -2)%Z.
  Fixpoint delete_old (fuel : nat) (A : aut) : out aut :=
    match fuel with
    | O => Fuel
    | S f => match find to_delete A with
             | None => Ok A
             | Some x => delete_old f (delete_anode (replace_anode_trans A (aid x) None) (Some (aid x)))
             end
    end.
  (** patching.c:312-320 *)
  Fixpoint delete_local (fuel : nat) (L : aut) : out aut :=
    match fuel with
    | O => Fuel
    | S f => match find to_delete L with
             | None => Ok L
             | Some x => delete_local f (delete_anode L (Some (aid x)))
             end
    end.
  (** patching.c:323-325: the loop does not end if [room] is not positive and [need]
      is; otherwise [i] does not exceed [need] *)
  Fixpoint scale (fuel : nat) (room need i : Z) : out Z :=
    match fuel with
    | O => Fuel
    | S f => if (room * i <? need)%Z then scale f room need (i + 1) else Ok i
    end.
  (** patching.c:326-337 *)
  Definition scale_old (i : Z) (x : anode) : anode := set_rgrad (argrad x * i) x.
  Definition scale_new (r : Z) (x : anode) : anode := set_rgrad (argrad x + r) (set_mode goal_mode x).

  (** patching.c:68-348 after the test of affected_len: [U] is affected[goal_mode], not
      empty; the result [None] is NULL *)
  Definition localfixpoint (ne ns : nat) (orc : oracle) (alloc : nat -> aut -> nat) (fuel : nat)
      (et st : dt) (egs : list dt) (N_BDD : dt) (A : aut) (U : list anode) : out (option aut) :=
    p <- scan_nodes A A [] [] ;;
    let Entry := fst p in
    let min_rgrad := least_rgrad Entry U in
    let Exit := drop_exits (S (List.length (snd p))) min_rgrad [] (snd p) in
    L <- synthesize_reachgame ne ns orc (fun t S => alloc t (S ++ A)) fuel
           (map astate Entry) (map astate Exit) et st egs N_BDD ;;
    match L with
    | [] => Ok None
    | _ =>
        let need := (max_rgrad L - min_rgrad_of L)%Z in
        match connect_entries Entry L A with
        | None => Ok None
        | Some A =>
            o <- connect_exits (map aid L) Exit A L (-1)%Z ;;
            match o with
            | None => Ok None
            | Some (A, L, Exit_rgrad) =>
                let A := map mark_node A in
                A <- delete_old (S (List.length A)) A ;;
                L <- delete_local (S (List.length L)) L ;;
                i <- scale (S (S (Z.to_nat need))) (min_rgrad - Exit_rgrad) need 1 ;;
                let A := map (scale_old i) A in
                let L := map (scale_new (Exit_rgrad * i)) L in
                match A with
                | [] => Crash
                | _ => Ok (Some (A ++ L))
                end
            end
        end
    end.
  End Mode.

  (** patching.c:1023-1034: [aff] are the affected nodes with the index of the array that
      holds them; [c] modes remain *)
  Fixpoint nodes_at (A : aut) (l : list nat) : out (list anode) :=
    match l with
    | [] => Ok []
    | a :: r => match deref A a with
                | None => Crash
                | Some x => s <- nodes_at A r ;; Ok (x :: s)
                end
    end.
  Definition affected_in (aff : list (Z * nat)) (goal_mode : Z) : list nat :=
    map snd (filter (fun p => (fst p =? goal_mode)%Z) aff).
  Fixpoint all_modes (c : nat) (goal_mode : Z) (ne ns : nat) (orc : oracle) (alloc : nat -> aut -> nat) (fuel : nat)
      (et st : dt) (egs : list dt) (N_BDD : dt) (A : aut) (aff : list (Z * nat)) : out (option aut) :=
    match c with
    | O => Ok (Some A)
    | S c' =>
        match affected_in aff goal_mode with
        | [] => all_modes c' (goal_mode + 1) ne ns orc alloc fuel et st egs N_BDD A aff
        | l => U <- nodes_at A l ;;
               o <- localfixpoint goal_mode ne ns orc alloc fuel et st egs N_BDD A U ;;
               match o with
               | None => Ok None
               | Some A => all_modes c' (goal_mode + 1) ne ns orc alloc fuel et st egs N_BDD A aff
               end
        end
    end.
End Goalmode.

(** ** The change file *)
(** patching.c:476, 1004: the strings fgets(line, 1024, change_fp) delivers; [k] counts
    what is left *)
Fixpoint change_lines (k : Z) (text : string) : list string :=
  match text with
  | EmptyString => []
  | String c r =>
      if Ascii.eqb c newline || (k =? 1)%Z then String c EmptyString :: change_lines 1023 r
      else match change_lines (k - 1) r with
           | [] => [String c EmptyString]
           | l :: ls => String c l :: ls
           end
  end.
(** patching.c:478, 709: blank and comment lines *)
Definition passed_over (line : string) : bool :=
  match line with
  | EmptyString => true
  | String c _ => Ascii.eqb c newline || Ascii.eqb c "#"%char
  end.
(** patching.c:474-522: N and the lines that remain, the first of them the first command;
    [None]: NULL is returned *)
Fixpoint read_N (n : nat) (lines : list string) : out (option (list vec * list string)) :=
  match lines with
  | [] => Ok (Some ([], []))
  | line :: r =>
      if passed_over line then read_N n r
      else
        p <- read_state_str line (Z.of_nat n) ;;
        if (fst p =? 0)%Z then Ok (Some ([], lines))
        else if (fst p <? Z.of_nat n)%Z then Ok None
        else q <- read_N n r ;;
             match q with
             | None => Ok None
             | Some (N, rest) => Ok (Some (snd p :: N, rest))
             end
  end.

Section Changes.
  Variables (ne ns : nat).
  Let n := ne + ns.
  Let m := 2 * (ne + ns).
  (** patching.c:534-543 *)
  Definition N_BDD (N : list vec) : dt := fold_left (fun acc s => bOr m acc (state_to_BDD m s 0)) N (bZero m).
  (** patching.c:579-611: does the part say anything about moves from states of N? [None]
      if Cudd_CubeArrayToBdd fails *)
  Fixpoint relevant (N : list vec) (part : dt) : option bool :=
    match N with
    | [] => Some false
    | s :: r =>
        if forallb (fun z => (z =? 0) || (z =? 1) || (z =? 2))%Z s then
          let tmp2 := bCof m (s ++ repeat 2%Z n) part in
          if negb (bLeq m tmp2 (bOne m)) || negb (bLeq m (bOne m) tmp2) then Some true
          else relevant r part
        else None
    end.
  (** patching.c:571-624 and 631-684 *)
  Fixpoint local_rule (N : list vec) (parts : list dt) (acc : dt) : option dt :=
    match parts with
    | [] => Some acc
    | part :: r => match relevant N part with
                   | None => None
                   | Some true => local_rule N r (bAnd m acc part)
                   | Some false => local_rule N r acc
                   end
    end.

  Variables (num_sgoals : nat) (A : aut) (N : list vec).
  (** the transitions of a node that satisfy a test *)
  Fixpoint some_trans (f : anode -> bool) (l : list nat) : out bool :=
    match l with
    | [] => Ok false
    | t :: r => match deref A t with
                | None => Crash
                | Some y => if f y then Ok true else some_trans f r
                end
    end.
  (** patching.c:790-871 and 948-981: of the nodes [l] those for which the test [f] holds
      are affected, their states must be in N; [None]: NULL is returned. [mode_ok] tells
      whether an index is inside of the arrays affected and affected_len. *)
  Definition mode_ok (z : Z) : bool := ((0 <=? z) && (z <? Z.of_nat num_sgoals))%Z.
  Fixpoint affected_nodes (f : anode -> out bool) (l : aut) (aff : list (Z * nat)) : out (option (list (Z * nat))) :=
    match l with
    | [] => Ok (Some aff)
    | x :: r =>
        b <- f x ;;
        if b then
          if mode_ok (amode x) then
            if inN N (astate x) then affected_nodes f r (aff ++ [(amode x, aid x)]) else Ok None
          else Crash
        else affected_nodes f r aff
    end.
  (** patching.c:791-792, 869: the nodes with the given state, mode after mode *)
  Fixpoint nodes_of (c : nat) (j : Z) (s : vec) : aut :=
    match c with
    | O => []
    | S c' => filter (fun x => (amode x =? j)%Z && statecmp (astate x) s) A ++ nodes_of c' (j + 1) s
    end.

  Record change_state := CS { cs_et : dt; cs_st : dt; cs_aff : list (Z * nat) }.
  (** patching.c:712-909; [v] are the num_read numbers *)
  Definition change_edge (restrict : bool) (v : vec) (q : change_state) : out (option change_state) :=
    let s := firstn n v in
    let s' := skipn n v in
    o <- (if restrict && (List.length v =? 2 * n) then
            affected_nodes (fun x => some_trans (fun y => statecmp (astate y) s') (atrans x))
              (nodes_of num_sgoals 0 s) (cs_aff q)
          else if negb restrict && (List.length v =? 2 * ne + ns) then
            affected_nodes (fun x => b <- some_trans (fun y => statecmp (firstn ne (astate y)) s') (atrans x) ;; Ok (negb b))
              (nodes_of num_sgoals 0 s) (cs_aff q)
          else Ok (Some (cs_aff q))) ;;
    match o with
    | None => Ok None
    | Some aff =>
        let vertex1 := state_to_BDD m s 0 in
        let vertex2 := state_to_BDD m s' n in
        let tmp := if restrict then bOr m (bNot m vertex1) (bNot m vertex2) else bAnd m vertex1 vertex2 in
        let put := fun old => if restrict then bAnd m tmp old else bOr m tmp old in
        if List.length v =? 2 * ne + ns then Ok (Some (CS (put (cs_et q)) (cs_st q) aff))
        else Ok (Some (CS (cs_et q) (put (cs_st q)) aff))
    end.
  (** patching.c:911-996 *)
  Definition block_sys (v : vec) (q : change_state) : out (option change_state) :=
    o <- affected_nodes (fun x => some_trans (fun y => statecmp v (skipn ne (astate y))) (atrans x)) A (cs_aff q) ;;
    match o with
    | None => Ok None
    | Some aff =>
        Ok (Some (CS (cs_et q) (bAnd m (cs_st q) (bNot m (state_to_BDD m v (2 * ne + ns)))) aff))
    end.
  (** the text behind the word *)
  Definition behind (w line : string) : string := String.substring (String.length w) (String.length line) line.
  (** patching.c:706-1005. With a wrong number of arguments to blocksys the pointer
      [state] is freed instead of [state_frag] (line 916): it is NULL before the first
      command and already freed ([used]) after it. *)
  Fixpoint run_commands (lines : list string) (used : bool) (q : change_state) : out (option change_state) :=
    match lines with
    | [] => Ok (Some q)
    | line :: r =>
        if passed_over line then run_commands r used q
        else if String.prefix "restrict " line || String.prefix "relax " line then
          let restrict := String.prefix "restrict " line in
          p <- read_state_str (behind (if restrict then "restrict " else "relax ") line) (Z.of_nat (2 * n)) ;;
          if (fst p =? Z.of_nat (2 * n))%Z || (fst p =? Z.of_nat (2 * ne + ns))%Z then
            o <- change_edge restrict (snd p) q ;;
            match o with None => Ok None | Some q => run_commands r true q end
          else Ok None
        else if String.prefix "blocksys " line then
          p <- read_state_str (behind "blocksys " line) (Z.of_nat ns) ;;
          if (fst p =? Z.of_nat ns)%Z then
            o <- block_sys (snd p) q ;;
            match o with None => Ok None | Some q => run_commands r true q end
          else if (0 <? fst p)%Z && used then Crash
          else Ok None
        else Ok None
    end.
End Changes.

(** patching.c:352-1069; [et_array] and [st_array] are spc.env_trans_array and
    spc.sys_trans_array; the empty list is NULL. A node read from the file without
    transitions has a field trans that was never set; it is freed with the node, by
    delete_aut (line 1037) or aut_prune_deadends (line 1040). *)
Definition patch_localfixpoint (sp : spc_t) (et_array st_array : list ptree) (orc : oracle)
    (alloc : nat -> aut -> nat) (fuel : nat) (strategy_text change_text : string) : out aut :=
  let ne := num_env sp in
  let ns := num_sys sp in
  let n := ne + ns in
  let k := List.length (sys_goals sp) in
  l <- aut_aut_load (Z.of_nat n) strategy_text ;;
  match l with
  | None => Ok []
  | Some Ld =>
      A <- of_loaded Ld ;;
      o <- read_N n (change_lines 1023 change_text) ;;
      match o with
      | None => Ok []
      | Some (N, lines) =>
          eps <- map_out (to_BDD sp) et_array ;;
          sps <- map_out (to_BDD sp) st_array ;;
          egs <- map_out (to_BDD sp) (env_goals' sp) ;;
          match local_rule ne ns N eps (bOne (2 * n)), local_rule ne ns N sps (bOne (2 * n)) with
          | Some et, Some st =>
              o <- run_commands ne ns k A N lines false (CS et st []) ;;
              match o with
              | None => Ok []
              | Some q =>
                  o <- all_modes N k 0 ne ns orc alloc fuel (cs_et q) (cs_st q) egs (N_BDD ne ns N) A (cs_aff q) ;;
                  match untouched A with
                  | [] => match o with
                          | None => Ok []
                          | Some B => aut_prune_deadends B
                          end
                  | _ => Crash
                  end
              end
          | _, _ => Ok []
          end
      end
  end.
