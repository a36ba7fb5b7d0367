(** Model of rm_sysgoal (src/patching_hotswap.c:562-912), called by gr1c-patch for the
    option -r (exp/grpatch.c:512-556).

    The strategy read from the file and the strategy for the reachability game are two
    lists of nodes, as in the code. [alloc] never returns the address of a node of
    either. Logging and reference counting are left out, allocation never fails; the
    variable lists are those after expand_nonbool_variables, [nonbool] its result. *)
From Coq Require Import List ZArith Bool Arith.
From Verif Require Import Base Bdd Support Ops Strs Ptree Solve Automaton Synth Reach Nonbool AutIO.
Import ListNotations.
Open Scope nat_scope.

(** the nodes the loader returns. Field [initial] is uninitialised for unsupported file
    versions; it is read by every writer, here: [Crash] at once. *)
Fixpoint of_loaded (L : list lnode) : out aut :=
  match L with
  | [] => Ok []
  | x :: r =>
      match l_init x with
      | None => Crash
      | Some b => r' <- of_loaded r ;;
                  Ok (Node (l_addr x) b (l_state x) (l_mode x) (l_rgrad x) (l_trans x) :: r')
      end
  end.
(** the nodes whose field [trans] the loader leaves uninitialised
    (automaton_io.c:265-285) *)
Definition untouched (A : aut) : list nat := map aid (filter no_trans A).
Definition memb (a : nat) (l : list nat) : bool := existsb (Nat.eqb a) l.
Definition set_init (b : bool) (x : anode) : anode :=
  Node (aid x) b (astate x) (amode x) (argrad x) (atrans x).

(** patching_hotswap.c:735-741, 750-756: the array has [cap] elements; writing behind
    its end is a [Crash] *)
Definition push (cap : nat) (l : list nat) (a : nat) : out (list nat) :=
  if memb a l then Ok l else if length l <? cap then Ok (l ++ [a]) else Crash.
(** patching_hotswap.c:731-743, 748-758 *)
Fixpoint push_all (cap : nat) (A : aut) (want : Z -> bool) (trans : list nat) (l : list nat)
    : out (list nat) :=
  match trans with
  | [] => Ok l
  | t :: r =>
      match deref A t with
      | None => Crash
      | Some y => l' <- (if want (amode y) then push cap l t else Ok l) ;;
                  push_all cap A want r l'
      end
  end.
Section RmSysgoal.
  Variables (delete_i num_sgoals : Z).
  (** the modes to be deleted *)
  Definition next_i : Z := ((delete_i + 1) mod num_sgoals)%Z.
  Definition del_mode (m : Z) : bool := (m =? delete_i)%Z || (m =? next_i)%Z.
  (** patching_hotswap.c:727-763: the arrays Entry and Exit *)
  Fixpoint scan_modes (cap : nat) (A : aut) (nodes : aut) (Entry Exit : list nat)
      : out (list nat * list nat) :=
    match nodes with
    | [] => Ok (Entry, Exit)
    | x :: r =>
        Exit' <- (if del_mode (amode x)
                  then push_all cap A (fun m => negb (m =? next_i)%Z && negb (m =? delete_i)%Z)
                         (atrans x) Exit
                  else Ok Exit) ;;
        Entry' <- (if (amode x =? delete_i)%Z then Ok Entry
                   else push_all cap A (fun m => (m =? delete_i)%Z) (atrans x) Entry) ;;
        scan_modes cap A r Entry' Exit'
    end.
  Fixpoint states_at (A : aut) (l : list nat) : out (list vec) :=
    match l with
    | [] => Ok []
    | a :: r => match deref A a with
                | None => Crash
                | Some x => s <- states_at A r ;; Ok (astate x :: s)
                end
    end.

  (** patching_hotswap.c:824-839: connect the Entry nodes; [None]: NULL is returned *)
  Definition with_state (s : vec) (A : aut) : option anode :=
    find (fun x => statecmp s (astate x)) A.
  Fixpoint connect_entry (l : list nat) (strategy sub : aut) : out (option (aut * aut)) :=
    match l with
    | [] => Ok (Some (strategy, sub))
    | a :: r =>
        match deref strategy a with
        | None => Crash
        | Some x =>
            match with_state (astate x) sub with
            | None => Ok None
            | Some node =>
                connect_entry r (replace_anode_trans strategy a (Some (aid node)))
                  (store sub (aid node) (set_init (ainit x)))
            end
        end
    end.
  (** patching_hotswap.c:845-851: the first entry of Exit with the state [s] *)
  Fixpoint match_exit (strategy : aut) (Exit : list (option nat)) (s : vec)
      : out (option (anode * list (option nat))) :=
    match Exit with
    | [] => Ok None
    | None :: r => p <- match_exit strategy r s ;;
                   Ok (match p with None => None | Some (x, r') => Some (x, None :: r') end)
    | Some a :: r =>
        match deref strategy a with
        | None => Crash
        | Some x =>
            if statecmp s (astate x) then Ok (Some (x, None :: r))
            else p <- match_exit strategy r s ;;
                 Ok (match p with None => None | Some (x, r') => Some (x, Some a :: r') end)
        end
    end.
  (** patching_hotswap.c:859-863: the node takes over everything but the state *)
  Definition take_over (x node : anode) : anode :=
    Node (aid node) (ainit x) (astate node) (amode x) (argrad x) (atrans x).
  (** patching_hotswap.c:841-872: [nodes] are the addresses of the nodes of [sub] still
      to be visited *)
  Fixpoint connect_exit (nodes : list nat) (strategy sub : aut) (Exit : list (option nat))
      : out (option (aut * aut)) :=
    match nodes with
    | [] => Ok (Some (strategy, sub))
    | b :: r =>
        match deref sub b with
        | None => Crash
        | Some node =>
            if no_trans node then
              p <- match_exit strategy Exit (astate node) ;;
              match p with
              | None => Ok None
              | Some (x, Exit') =>
                  let sub := store sub b (take_over x) in
                  let strategy := store strategy (aid x) (set_trans []) in
                  let strategy := replace_anode_trans strategy (aid x) (Some b) in
                  let sub := replace_anode_trans sub (aid x) (Some b) in
                  connect_exit r (delete_anode strategy (Some (aid x))) sub Exit'
              end
            else connect_exit r strategy sub Exit
        end
    end.
  (** patching_hotswap.c:874-885; [raw]: nodes with uninitialised field [trans], which
      delete_anode would pass to free *)
  Fixpoint drop_modes (fuel : nat) (raw : list nat) (strategy sub : aut) : out (aut * aut) :=
    match find (fun x => del_mode (amode x)) strategy with
    | None => Ok (strategy, sub)
    | Some x =>
        match fuel with
        | O => Fuel
        | S f =>
            if memb (aid x) raw then Crash
            else drop_modes f raw
                   (delete_anode (replace_anode_trans strategy (aid x) None) (Some (aid x)))
                   (replace_anode_trans sub (aid x) None)
        end
    end.
  (** patching_hotswap.c:887-893 *)
  Definition name_mode (x : anode) : anode :=
    if (amode x =? -1)%Z then set_mode next_i x else x.

  Section Core.
    Variables (ne ns : nat) (orc : oracle) (alloc : nat -> aut -> nat) (et st : dt)
      (egs : list dt).
    (** patching_hotswap.c:688-909 on the loaded strategy; the empty list is NULL *)
    Definition rm_core (fuel : nat) (raw : list nat) (A : aut) : out aut :=
      let num_del_nodes := length (filter (fun x => del_mode (amode x)) A) in
      if num_del_nodes =? 0 then Ok []
      else
        p <- scan_modes num_del_nodes A A [] [] ;;
        let (Entry, Exit) := p in
        en <- states_at A Entry ;;
        ex <- states_at A Exit ;;
        sub <- synthesize_reachgame ne ns orc (fun t S => alloc t (S ++ A)%list) fuel en ex et st egs
                 (bOne (2 * (ne + ns))) ;;
        match sub with
        | [] => Ok []
        | _ =>
            o <- connect_entry Entry A sub ;;
            match o with
            | None => Ok []
            | Some (A1, S1) =>
                o <- connect_exit (map aid S1) A1 S1 (map Some Exit) ;;
                match o with
                | None => Ok []
                | Some (A2, S2) =>
                    p <- drop_modes (length A2) raw A2 S2 ;;
                    Ok (fst p ++ map name_mode (snd p))%list
                end
            end
        end.
  End Core.
End RmSysgoal.

(** patching_hotswap.c:562-912; [original] is original_num_env + original_num_sys *)
Definition rm_sysgoal (sp : spc_t) (nonbool : ptree) (orc : oracle) (alloc : nat -> aut -> nat)
    (fuel : nat) (original : Z) (text : String.string) (delete_i : Z) : out aut :=
  let num_sgoals := Z.of_nat (List.length (sys_goals sp)) in
  if ((delete_i <? 0) || (num_sgoals <=? delete_i))%Z then Ok []
  else if (num_sgoals <? 3)%Z then Ok []
  else
    l <- aut_aut_load original text ;;
    match l with
    | None => Ok []
    | Some L =>
        A <- of_loaded L ;;
        p <- aut_expand_bool A (evar_list sp) (svar_list sp) nonbool ;;
        if (snd p =? 0)%Z then
          et <- to_BDD sp (env_trans sp) ;;
          st <- to_BDD sp (sys_trans sp) ;;
          egs <- map_out (to_BDD sp) (env_goals' sp) ;;
          rm_core delete_i num_sgoals (num_env sp) (num_sys sp) orc alloc et st egs fuel
            (untouched A) (fst p)
        else Ok []
    end.
