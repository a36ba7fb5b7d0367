(** Model of add_metric_sysgoal (src/patching_hotswap.c:37-560), called by gr1c-patch for
    the option -f (exp/grpatch.c:567-597).

    Conventions as in Hotswap.v: the strategy read from the file and the component
    strategies are lists of nodes, [alloc] never returns the address of a node of either.
    Reading a node that has been freed is a [Crash], and so is passing a pointer that was
    never set to free. Logging and reference counting are left out, allocation never
    fails; the variable lists are those after expand_nonbool_variables, [nonbool] its
    result. *)
From Coq Require Import List ZArith Bool Arith.
From Verif Require Import Base Bdd Support Ops Strs Ptree Solve Automaton Synth Reach Nonbool AutIO Metric Hotswap.
Import ListNotations.
Open Scope nat_scope.

(** patching_hotswap.c:164-178: the distance of every system goal to the new one *)
Fixpoint goal_mins (n fuel : nat) (orc : oracle) (offw : list (Z * Z)) (new_sgoal : dt)
    (t : nat) (sgoals : list dt) : out (list Z) :=
  match sgoals with
  | [] => Ok []
  | sg :: r => b <- bounds_DDset n fuel orc t sg new_sgoal offw ;;
               l <- goal_mins n fuel orc offw new_sgoal (snd b) r ;;
               Ok (fst (fst b) :: l)
  end.
(** patching_hotswap.c:179-183: [i] is the index of the head of [Min]; [best] the best
    index so far, with distance [b] *)
Fixpoint argmin (Min : list Z) (i best b : Z) : Z :=
  match Min with
  | [] => best
  | x :: r => if (x <? b)%Z then argmin r (i + 1) i x else argmin r (i + 1) best b
  end.
(** patching_hotswap.c:161-194: istar[0]; Min[istar[0]] is not read if there are no
    goals *)
Definition istar0 (n fuel : nat) (orc : oracle) (offw : list (Z * Z)) (new_sgoal : dt)
    (sgoals : list dt) : out Z :=
  match offw with
  | [] => Ok (Z.of_nat (length sgoals) - 1)%Z
  | _ => l <- goal_mins n fuel orc offw new_sgoal 0 sgoals ;;
         Ok (match l with [] => 0%Z | x :: r => argmin r 1 0 x end)
  end.

(** patching_hotswap.c:217-221: a transition from mode [m2] to mode [m1] passes goal [m] *)
Definition passes (m m2 m1 : Z) : bool :=
  (((m2 <? m1) && (m2 <=? m) && (m <? m1)) || ((m1 <? m2) && ((m <? m1) || (m2 <=? m))))%Z.
(** patching_hotswap.c:205-252: the array Gi for goal [m]; the first transition from
    [node2] to [node1] decides, any other would decide alike *)
Definition passing (m : Z) (strategy : aut) : list nat :=
  map aid (filter (fun node1 =>
    existsb (fun node2 => memb (aid node1) (atrans node2) && passes m (amode node2) (amode node1)) strategy)
    strategy).

Section AddSysgoal.
  Variables (num_sgoals i0 : Z).
  (** patching_hotswap.c:196-200: istar[1] *)
  Definition istar1 : Z := if (i0 =? num_sgoals - 1)%Z then 0%Z else (i0 + 1)%Z.

  (** patching_hotswap.c:337-394: [l] are the elements of Gi[0] still to be visited;
      [None]: NULL is returned *)
  Fixpoint connect_new (raw Gi0 l : list nat) (strategy component : aut) (Gi_succ : list nat)
      : out (option (aut * aut * list nat)) :=
    match l with
    | [] => Ok (Some (strategy, component, Gi_succ))
    | a :: r =>
        match deref strategy a with
        | None => Crash
        | Some g =>
            if memb a raw then Crash
            else
              let Gi_succ := Gi_succ ++ filter (fun t => negb (memb t Gi0)) (atrans g) in
              let strategy := store strategy a (fun x => set_mode (num_sgoals + 1) (set_trans [] x)) in
              match with_state (astate g) component with
              | None => Ok None
              | Some node1 =>
                  let strategy := store strategy a (set_trans (atrans node1)) in
                  let component := store component (aid node1) (set_trans []) in
                  let strategy := replace_anode_trans strategy (aid node1) (Some a) in
                  let component := replace_anode_trans component (aid node1) (Some a) in
                  connect_new raw Gi0 r strategy (delete_anode component (Some (aid node1))) Gi_succ
              end
        end
    end.
  (** patching_hotswap.c:434-467: [l] are the elements of new_reached still to be
      visited *)
  Fixpoint connect_reached (l : list nat) (strategy component : aut) : out (option (aut * aut)) :=
    match l with
    | [] => Ok (Some (strategy, component))
    | a :: r =>
        match deref strategy a with
        | None => Crash
        | Some x =>
            let strategy := store strategy a (set_mode (-1)) in
            match with_state (astate x) component with
            | None => Ok None
            | Some node1 =>
                let strategy := store strategy a (fun x => set_rgrad (argrad node1) (set_trans (atrans node1) x)) in
                let component := store component (aid node1) (set_trans []) in
                let strategy := replace_anode_trans strategy (aid node1) (Some a) in
                let component := replace_anode_trans component (aid node1) (Some a) in
                connect_reached r strategy (delete_anode component (Some (aid node1)))
            end
        end
    end.
  (** patching_hotswap.c:474-487: the first element of Gi[1] with the state [s] *)
  Fixpoint first_at (strategy : aut) (Gi1 : list nat) (s : vec) : out (option anode) :=
    match Gi1 with
    | [] => Ok None
    | a :: r => match deref strategy a with
                | None => Crash
                | Some x => if statecmp (astate x) s then Ok (Some x) else first_at strategy r s
                end
    end.
  (** patching_hotswap.c:478-483: all but the state and the field initial *)
  Definition succeed (x node : anode) : anode :=
    Node (aid node) (ainit node) (astate node) (amode x) (argrad x) (atrans x).
  (** patching_hotswap.c:469-502: [nodes] are the addresses of the nodes of the component
      still to be visited *)
  Fixpoint connect_back (nodes Gi1 : list nat) (raw : list nat) (strategy component : aut)
      : out (option (aut * aut * list nat)) :=
    match nodes with
    | [] => Ok (Some (strategy, component, raw))
    | b :: r =>
        match deref component b with
        | None => Crash
        | Some node1 =>
            if no_trans node1 then
              o <- first_at strategy Gi1 (astate node1) ;;
              match o with
              | None => Ok None
              | Some x =>
                  let component := store component b (succeed x) in
                  let strategy := store strategy (aid x) (set_trans []) in
                  let strategy := replace_anode_trans strategy (aid x) (Some b) in
                  let component := replace_anode_trans component (aid x) (Some b) in
                  connect_back r Gi1 (if memb (aid x) raw then b :: raw else raw)
                    (delete_anode strategy (Some (aid x))) component
              end
            else connect_back r Gi1 raw strategy component
        end
    end.
  (** patching_hotswap.c:518-549: the labels *)
  Definition relabel_last (x : anode) : anode :=
    if (amode x =? num_sgoals + 1)%Z then set_mode num_sgoals x
    else if (amode x =? -1)%Z then set_mode 0 x else x.
  Definition relabel_new (x : anode) : anode :=
    if (amode x =? num_sgoals + 1)%Z then set_mode istar1 x
    else if (amode x =? -1)%Z then set_mode (istar1 + 1) x else x.
  Fixpoint shift_modes (count : nat) (i : Z) (A : aut) : aut :=
    match count with
    | O => A
    | S c => shift_modes c (i - 1) (map (fun x => if (amode x =? i)%Z then set_mode (amode x + 1) x else x) A)
    end.
  Definition update_labels (A : aut) : aut :=
    if (i0 =? num_sgoals - 1)%Z then map relabel_last A
    else map relabel_new (shift_modes (Z.to_nat (num_sgoals - istar1)) (num_sgoals - 1) A).

  (** delete_aut (automaton.c:257-270) and return NULL *)
  Definition give_up (raw : list nat) : out aut := match raw with [] => Ok [] | _ => Crash end.

  Section Core.
    Variables (ne ns : nat) (orc : oracle) (alloc : nat -> aut -> nat) (et st : dt)
      (egs : list dt) (new_sgoal : dt).
    (** patching_hotswap.c:205-559 on the loaded strategy; the empty list is NULL. The
        strategy is not empty. A node deleted by forward_prune is freed with its field
        trans. *)
    Definition add_core (fuel : nat) (raw : list nat) (A : aut) : out aut :=
      let Gi0 := passing i0 A in
      let Gi1 := passing istar1 A in
      g0 <- states_at A Gi0 ;;
      C1 <- synthesize_reachgame_BDD ne ns orc (fun t S => alloc t (S ++ A)%list) fuel
              (states_BDD ne ns g0) new_sgoal et st egs (bOne (2 * (ne + ns))) ;;
      match C1 with
      | [] => give_up raw
      | _ =>
          let new_reached := map aid (filter no_trans C1) in
          o <- connect_new raw Gi0 Gi0 A (map (set_mode (num_sgoals + 1)) C1) [] ;;
          match o with
          | None => give_up raw
          | Some (A1, C1, Gi_succ) =>
              let A1 := (A1 ++ C1)%list in
              nr <- states_at A1 new_reached ;;
              g1 <- states_at A1 Gi1 ;;
              C2 <- synthesize_reachgame ne ns orc (fun t S => alloc t (S ++ A1)%list) fuel nr g1
                      et st egs (bOne (2 * (ne + ns))) ;;
              match C2 with
              | [] => give_up raw
              | _ =>
                  o <- connect_reached new_reached A1 C2 ;;
                  match o with
                  | None => give_up raw
                  | Some (A2, C2) =>
                      o <- connect_back (map aid C2) Gi1 raw A2 C2 ;;
                      match o with
                      | None => give_up raw
                      | Some (A3, C3, raw) =>
                          match A3 with
                          | [] => Crash
                          | _ =>
                              let H := (A3 ++ C3)%list in
                              B <- forward_prune (S (length H)) H (map Some Gi_succ) ;;
                              if existsb (fun a => negb (memb a (map aid B))) raw then Crash
                              else Ok (update_labels B)
                          end
                      end
                  end
              end
          end
      end.
  End Core.
End AddSysgoal.

(** patching_hotswap.c:37-560; [original] is original_num_env + original_num_sys *)
Definition add_metric_sysgoal (sp : spc_t) (nonbool : ptree) (orc : oracle) (alloc : nat -> aut -> nat)
    (fuel : nat) (original : Z) (text : String.string) (offw : list (Z * Z)) (new_sysgoal : ptree)
    : out aut :=
  l <- aut_aut_load original text ;;
  match l with
  | None => Ok []
  | Some L =>
      A <- of_loaded L ;;
      p <- aut_expand_bool A (evar_list sp) (svar_list sp) nonbool ;;
      if (snd p =? 0)%Z then
        b <- spec_BDDs sp ;;
        match b with
        | (et, st, egs, sgoals) =>
            new_sgoal <- to_BDD sp new_sysgoal ;;
            i0 <- istar0 (num_env sp + num_sys sp) fuel orc offw new_sgoal sgoals ;;
            add_core (Z.of_nat (List.length sgoals)) i0 (num_env sp) (num_sys sp) orc alloc et st egs new_sgoal
              fuel (untouched A) (fst p)
        end
      else Ok []
  end.
