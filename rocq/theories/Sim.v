(** Model of src/sim.c: receding horizon simulation.

    Simplifications. Each list of nodes kept in [hstacks] and in [MEM] (nodes with
    mode 0 and without transitions) is represented by the list of the states, in the
    order of the list. Memory is not freed. Log output is left out. While the cubes of
    one function are listed another generator runs (bounds_state); the cubes of the
    outer one are fixed when it is started. rand() is a sequence of numbers, one for
    each iteration. Distances as in Metric.v. *)
From Coq Require Import List ZArith Bool Arith String Ascii.
From Verif Require Import Base Bdd Support Ops Strs Ptree Solve Automaton Synth Nonbool Metric.
Import ListNotations.
Open Scope list_scope.
Open Scope nat_scope.

(** the variables of sim_rhc used while the states within the horizon are listed:
    number of cube generations started so far, hstacks, next_state ([None]: as left by
    malloc), next_min *)
Record search := Search {
  sr_t : nat; sr_stacks : list (list vec); sr_next : option vec; sr_min : Z }.

(** sim.c:173-174, 267-272 and automaton.c:78-103 find_anode: is the state in the list *)
Definition found (stack : list vec) (s : vec) : bool := existsb (fun x => statecmp x s) stack.
(** insert_anode into the list number [d] (sim.c:175-176, 275-279): at the front *)
Fixpoint push (d : nat) (s : vec) (stacks : list (list vec)) : list (list vec) :=
  match stacks, d with
  | [], _ => []
  | l :: r, O => (s :: l) :: r
  | l :: r, S d' => l :: push d' s r
  end.

Section Sim.
  (** numbers of variables; cube generator; bound for loops; rand(); addresses
      returned by malloc for the nodes of the play *)
  Variables (ne ns : nat) (orc : oracle) (fuel : nat) (rand : nat -> Z) (alloc : nat -> aut -> nat).
  (** arguments W, etrans, strans, sgoals; offw *)
  Variables (W et st : dt) (sgoals : list dt) (offw : list (Z * Z)).
  Let n := ne + ns.
  Let m := 2 * (ne + ns).

  (** sim.c:105-116 strans_into_W *)
  Definition strans_into_W : dt := bAnd m st (bSwap m n W).

  (** sim.c:173-192, 199-219, 267-297, 303-331: one candidate at depth [d] (hdepth). It
      is skipped if it is in one of the lists 0, ..., d. [mem] is the list after the
      first element of MEM[MEM_index]. *)
  Definition visit (d : nat) (goalW : dt) (mem : list vec) (cand : vec) (q : search) : out search :=
    if existsb (fun stack => found stack cand) (firstn (S d) (sr_stacks q)) then Ok q
    else
      let stacks := push d cand (sr_stacks q) in
      if found mem cand then Ok (Search (sr_t q) stacks (sr_next q) (sr_min q))
      else
        b <- bounds_state n fuel orc (sr_t q) goalW cand offw ;;
        if ((sr_min q =? -1) || (fst b <? sr_min q))%Z
        then Ok (Search (S (sr_t q)) stacks (Some cand) (fst b))
        else Ok (Search (S (sr_t q)) stacks (sr_next q) (sr_min q)).
  Fixpoint visit_all (d : nat) (goalW : dt) (mem : list vec) (cands : list vec) (q : search) : out search :=
    match cands with
    | [] => Ok q
    | c :: r => q <- visit d goalW mem c q ;; visit_all d goalW mem r q
    end.

  (** sim.c:154-222, 247-337: the successors of [s] inside of W that answer the move
      [e] of the environment *)
  Definition explore (d : nat) (goalW : dt) (mem : list vec) (s e : vec) (q : search) : out search :=
    match state_to_cof m (cube0 ne ns) s strans_into_W 0 with
    | None => Crash
    | Some tmp =>
        match state_to_cof m (cube0 ne ns) e tmp n with
        | None => Crash
        | Some tmp2 =>
            ys <- concat_out (fun gcube => enum_cube fuel (slice (ns + 2 * ne) ns gcube))
                    (orc (sr_t q) tmp2) ;;
            visit_all d goalW mem (map (fun y => e ++ y) ys)
              (Search (S (sr_t q)) (sr_stacks q) (sr_next q) (sr_min q))
        end
    end.
  (** sim.c:245-338 *)
  Fixpoint explore_moves (d : nat) (goalW : dt) (mem : list vec) (s : vec) (env_moves : list vec)
      (q : search) : out search :=
    match env_moves with
    | [] => Ok q
    | e :: r => q <- explore d goalW mem s e q ;; explore_moves d goalW mem s r q
    end.
  (** sim.c:236-343: [nodes] is the list hstacks[hdepth-1] from the current node on *)
  Fixpoint explore_nodes (d : nat) (goalW : dt) (mem : list vec) (nodes : list vec) (q : search)
      : out search :=
    match nodes with
    | [] => Ok q
    | s :: r =>
        env_moves <- get_env_moves fuel (orc (sr_t q)) (cube0 ne ns) s et ne ns ;;
        q <- explore_moves d goalW mem s env_moves
               (Search (S (sr_t q)) (sr_stacks q) (sr_next q) (sr_min q)) ;;
        explore_nodes d goalW mem r q
    end.
  (** sim.c:234-347: hdepth takes the values [ds] *)
  Fixpoint explore_depths (ds : list nat) (goalW : dt) (mem : list vec) (q : search) : out search :=
    match ds with
    | [] => Ok q
    | d :: r =>
        q <- explore_nodes d goalW mem (nth (d - 1) (sr_stacks q) []) q ;;
        explore_depths r goalW mem q
    end.

  (** sim.c:371-392: [node] is in the list number [j]; [None]: no predecessor *)
  Fixpoint back_from (j : nat) (stacks : list (list vec)) (node : vec) : option vec :=
    match j with
    | O => Some node
    | S j' =>
        match find (fun prev => ev (bAnd m et st) (prev ++ node)) (nth j' stacks []) with
        | None => None
        | Some prev => back_from j' stacks prev
        end
    end.
  (** sim.c:355-397: the state to go to; [None] is the result NULL *)
  Definition backtrack (horizon : nat) (stacks : list (list vec)) (next : vec) : option vec :=
    if (1 <? horizon) && negb (found (nth 0 stacks []) next)
    then match find (fun j => found (nth j stacks []) next) (seq 1 (horizon - 1)) with
         | None => None
         | Some j => back_from j stacks next
         end
    else Some next.

  (** MEM: the state of the first node of each list and those of the others *)
  Definition memory := list (vec * list vec).
  (** sim.c:135-139, 178: the list MEM[MEM_index] *)
  Fixpoint mem_of (MEM : memory) (s : vec) : list vec :=
    match MEM with
    | [] => []
    | (h, l) :: r => if statecmp h s then l else mem_of r s
    end.
  (** sim.c:135-147, 349-353: the list for [s], appended if it is missing, with
      [next] at its end *)
  Fixpoint mem_add (MEM : memory) (s next : vec) : memory :=
    match MEM with
    | [] => [(s, [next])]
    | (h, l) :: r => if statecmp h s then (h, l ++ [next]) :: r else (h, l) :: mem_add r s next
    end.

  (** the variables of sim_rhc that live through the main loop: current_it,
      init_state, next_state, current_goal, MEM, hstacks, number of cube generations,
      play *)
  Record simst := Simst {
    si_it : nat; si_state : vec; si_next : option vec; si_goal : nat; si_mem : memory;
    si_stacks : list (list vec); si_t : nat; si_play : aut }.

  (** sim.c:125-133: has the goal been reached *)
  Definition next_goal (q : simst) : out (nat * memory) :=
    match nth_error sgoals (si_goal q) with
    | None => Crash
    | Some g =>
        if eval_at ne ns g (si_state q)
        then Ok ((si_goal q + 1) mod List.length sgoals, [])
        else Ok (si_goal q, si_mem q)
    end.
  (** sim.c:149-152: the move of the environment; the remainder of a division by zero
      is undefined *)
  Definition draw (k : nat) (env_moves : list vec) : out vec :=
    match env_moves with
    | [] => Crash
    | _ => match nth_error env_moves (Z.to_nat (rand k mod Z.of_nat (List.length env_moves))%Z) with
           | None => Crash
           | Some e => Ok e
           end
    end.
  (** sim.c:120-405: one iteration; [None] is the result NULL. Using next_state before
      something was stored there is undefined. *)
  Definition sim_step (horizon : nat) (q : simst) : out (option simst) :=
    r <- next_goal q ;;
    match r with (goal, MEM) =>
      match nth_error sgoals goal with
      | None => Crash
      | Some g =>
          env_moves <- get_env_moves fuel (orc (si_t q)) (cube0 ne ns) (si_state q) et ne ns ;;
          e <- draw (si_it q) env_moves ;;
          let goalW := bAnd m g W in
          let mem := mem_of MEM (si_state q) in
          s <- explore 0 goalW mem (si_state q) e
                 (Search (S (si_t q)) (si_stacks q) (si_next q) (-1)) ;;
          s <- explore_depths (seq 1 (horizon - 1)) goalW mem s ;;
          match sr_next s with
          | None => Crash
          | Some next =>
              match backtrack horizon (sr_stacks s) next with
              | None => Ok None
              | Some to =>
                  let it := S (si_it q) in
                  let play := insert_anode (si_play q) (alloc it (si_play q)) (Z.of_nat it) (-1) false to in
                  p <- append_anode_trans play (Z.of_nat (si_it q)) (si_state q) (Z.of_nat it) to ;;
                  Ok (Some (Simst it to (Some to) goal (mem_add MEM (si_state q) next)
                              (sr_stacks s) (sr_t s) (if snd p then fst p else [])))
              end
          end
      end
    end.
  (** sim.c:120-405: [k] iterations *)
  Fixpoint sim_loop (horizon k : nat) (q : simst) : out (option aut) :=
    match k with
    | O => Ok (Some (si_play q))
    | S k' =>
        r <- sim_step horizon q ;;
        match r with
        | None => Ok None
        | Some q => sim_loop horizon k' q
        end
    end.
  (** sim.c:81-119, with the number of cube generations made before *)
  Definition sim_start (horizon t : nat) (init_state : vec) : simst :=
    Simst 0 init_state None 0 [] (repeat [] horizon) t
      (insert_anode [] (alloc 0 []) 0 (-1) false init_state).
End Sim.

(** sim.c:23-417 sim_rhc: the play; [None] is NULL *)
Definition sim_rhc (sp : spc_t) (orc : oracle) (fuel : nat) (rand : nat -> Z)
    (alloc : nat -> aut -> nat) (t : nat) (W et st : dt) (sgoals : list dt)
    (metric_vars : string) (horizon : Z) (init_state : vec) (num_it : Z) : out (option aut) :=
  if (horizon <? 1)%Z then Ok None
  else
    o <- get_offsets (evar_list sp) (svar_list sp) metric_vars ;;
    match o with
    | None => Ok None
    | Some offw =>
        sim_loop (num_env sp) (num_sys sp) orc fuel rand alloc W et st sgoals offw
          (Z.to_nat horizon) (Z.to_nat num_it)
          (sim_start alloc (Z.to_nat horizon) t init_state)
    end.

(** exp/grjit.c:492-493, 525-526 with solve_metric.c:299-373
    compute_winning_set_saveBDDs: simulation with a given horizon *)
Definition simulate (sp : spc_t) (orc : oracle) (fuel : nat) (rand : nat -> Z)
    (alloc : nat -> aut -> nat) (metric_vars : string) (horizon : Z) (init_state : vec)
    (num_it : Z) : out (option aut) :=
  b <- spec_BDDs sp ;;
  match b with
  | (et, st, eg, sg) =>
      W <- compute_winning_set_BDD (num_env sp) (num_sys sp) et st fuel eg sg ;;
      sim_rhc sp orc fuel rand alloc 0 W et st sg metric_vars horizon init_state num_it
  end.
