(** Model of src/automaton.c: the list of strategy nodes and its primitives.
    (aut_compact_nonbool and aut_expand_bool are in Nonbool.v.) *)
From Coq Require Import List ZArith Bool Arith.
From Verif Require Import Base Support.
Import ListNotations.
Open Scope nat_scope.

(** include/automaton.h:22-42 [anode_t]. [aid] stands for the address of the node,
    [atrans] for the array of [trans_len] pointers; the [next] links are the order
    of the list. Every node of an automaton has a state vector of the same
    length. *)
Record anode := Node {
  aid : nat;
  ainit : bool;
  astate : vec;
  amode : Z;
  argrad : Z;
  atrans : list nat
}.
(** a list of nodes; [[]] is the NULL pointer *)
Definition aut := list anode.
Definition set_trans (t : list nat) (x : anode) : anode :=
  Node (aid x) (ainit x) (astate x) (amode x) (argrad x) t.
Definition set_mode (m : Z) (x : anode) : anode :=
  Node (aid x) (ainit x) (astate x) m (argrad x) (atrans x).
Definition set_rgrad (r : Z) (x : anode) : anode :=
  Node (aid x) (ainit x) (astate x) (amode x) r (atrans x).

(** the node a pointer points to, if it is (still) in the list *)
Definition deref (head : aut) (a : nat) : option anode := find (fun x => aid x =? a) head.
(** store through a pointer *)
Definition store (head : aut) (a : nat) (f : anode -> anode) : aut :=
  map (fun x => if aid x =? a then f x else x) head.

(** automaton.c:19-50 insert_anode; [new] is the address malloc returns. *)
Definition insert_anode (head : aut) (new : nat) (mode rgrad : Z) (initial : bool)
    (state : vec) : aut := Node new initial state mode rgrad [] :: head.

(** automaton.c:78-103 find_anode *)
Fixpoint find_anode (head : aut) (mode : Z) (state : vec) : option anode :=
  match head with
  | [] => None
  | x :: r => if (amode x =? mode)%Z && statecmp (astate x) state then Some x
              else find_anode r mode state
  end.

(** automaton.c:106-133 find_anode_index *)
Fixpoint find_index_from (head : aut) (mode : Z) (state : vec) (c : Z) : Z :=
  match head with
  | [] => -1
  | x :: r => if (amode x =? mode)%Z && statecmp (astate x) state then c
              else find_index_from r mode state (c + 1)
  end.
Definition find_anode_index (head : aut) (mode : Z) (state : vec) : Z :=
  find_index_from head mode state 0.

(** automaton.c:136-147 anode_index *)
Fixpoint anode_index_from (head : aut) (node : nat) (c : Z) : Z :=
  match head with
  | [] => -1
  | x :: r => if aid x =? node then c else anode_index_from r node (c + 1)
  end.
Definition anode_index (head : aut) (node : nat) : Z := anode_index_from head node 0.

(** automaton.c:53-75 append_anode_trans: the automaton afterwards and whether
    [head] (true) or NULL (false) is returned. [base] is dereferenced without a
    test. *)
Definition append_anode_trans (head : aut) (mode : Z) (state : vec)
    (next_mode : Z) (next_state : vec) : out (aut * bool) :=
  match find_anode head mode state with
  | None => Crash
  | Some base =>
      match find_anode head next_mode next_state with
      | None => Ok (head, false)
      | Some t => Ok (store head (aid base) (fun x => set_trans (atrans x ++ [aid t]) x), true)
      end
  end.

(** automaton.c:150-179 delete_anode; the list the returned pointer points to. *)
Fixpoint unlink_next (prev : anode) (next : aut) (target : nat) : option aut :=
  match next with
  | [] => None
  | x :: r => if aid x =? target then Some (prev :: r)
              else match unlink_next x r target with
                   | Some l => Some (prev :: l)
                   | None => None
                   end
  end.
Definition delete_anode (head : aut) (target : option nat) : aut :=
  match head, target with
  | [], _ => []
  | _, None => []
  | x :: r, Some t =>
      if aid x =? t then r
      else match unlink_next x r t with Some l => l | None => [] end
  end.

(** automaton.c:182-216 replace_anode_trans. After a deletion the index is
    decremented, so the element moved into the gap is examined next. *)
Fixpoint replace_in (trans : list nat) (old : nat) (new : option nat) : list nat :=
  match trans with
  | [] => []
  | t :: r => if t =? old
              then match new with
                   | None => replace_in r old new
                   | Some x => x :: replace_in r old new
                   end
              else t :: replace_in r old new
  end.
Definition replace_anode_trans (head : aut) (old : nat) (new : option nat) : aut :=
  map (fun x => set_trans (replace_in (atrans x) old new) x) head.

(** automaton.c:245-255 pop_anode *)
Definition pop_anode (head : aut) : out aut :=
  match head with [] => Crash | _ :: r => Ok r end.

(** automaton.c:272-280 aut_size *)
Definition aut_size (head : aut) : Z := fold_left (fun c _ => (c + 1)%Z) head 0%Z.

(** automaton.c:219-242 aut_prune_deadends *)
Definition no_trans (x : anode) : bool := length (atrans x) =? 0.
Fixpoint prune_front (fuel : nat) (head : aut) : out aut :=
  match fuel with
  | O => Fuel
  | S f =>
      match head with
      | [] => Ok []
      | x :: _ =>
          if no_trans x
          then prune_front f (delete_anode (replace_anode_trans head (aid x) None) (Some (aid x)))
          else Ok head
      end
  end.
Fixpoint prune_loop (fuel : nat) (head : aut) : out aut :=
  match fuel with
  | O => Fuel
  | S f =>
      head <- prune_front (S (length head)) head ;;
      match head with
      | [] => Ok []
      | _ :: rest =>
          match find no_trans rest with
          | None => Ok head
          | Some node =>
              prune_loop f (delete_anode (replace_anode_trans head (aid node) None)
                              (Some (aid node)))
          end
      end
  end.
Definition aut_prune_deadends (head : aut) : out aut :=
  match head with [] => Ok [] | _ => prune_loop (S (length head)) head end.

(** automaton.c:283-302 forward_modereach. Pointers are followed, so a transition
    to a node that is not in the list is a [Crash]. The function returns 0
    always. *)
Fixpoint forward_modereach (fuel : nat) (A : aut) (node : nat) (mode : Z) (N : list vec)
    (magic_mode : Z) : out aut :=
  match fuel with
  | O => Fuel
  | S f =>
      match deref A node with
      | None => Crash
      | Some x =>
          (fix loop (trans : list nat) (A : aut) : out aut :=
             match trans with
             | [] => Ok A
             | t :: r =>
                 match deref A t with
                 | None => Crash
                 | Some y =>
                     if (amode y =? mode)%Z && existsb (statecmp (astate y)) N
                     then A' <- forward_modereach f (store A t (set_mode magic_mode)) t mode N
                                  magic_mode ;;
                          loop r A'
                     else loop r A
                 end
             end) (atrans x) A
      end
  end.

(** automaton.c:427-485 forward_prune. [U] is the array of pointers, [None] a
    deleted entry. [prune_scan] is the for loop: it looks for the first entry to
    delete. *)
Definition has_pred (head : aut) (a : nat) : bool :=
  existsb (fun x => existsb (fun t => t =? a) (atrans x)) head.
Fixpoint prune_scan (head : aut) (U : list (option nat)) : out (option anode) :=
  match U with
  | [] => Ok None
  | None :: r => prune_scan head r
  | Some a :: r =>
      match deref head a with
      | None => Crash
      | Some x => if ainit x then prune_scan head r
                  else if has_pred head a then prune_scan head r
                  else Ok (Some x)
      end
  end.
Definition null_out (a : nat) (U : list (option nat)) : list (option nat) :=
  map (fun u => match u with Some b => if b =? a then None else Some b | None => None end) U.
Fixpoint fprune_loop (fuel : nat) (head : aut) (U : list (option nat)) : out aut :=
  match fuel with
  | O => Fuel
  | S f =>
      p <- prune_scan head U ;;
      match p with
      | None => Ok head
      | Some x =>
          let U := U ++ map Some (atrans x) in
          let head := delete_anode head (Some (aid x)) in
          let U := null_out (aid x) U in
          match head with [] => Ok [] | _ => fprune_loop f head U end
      end
  end.
Definition forward_prune (fuel : nat) (head : aut) (U : list (option nat)) : out aut :=
  match head, U with
  | [], _ => Ok []
  | _, [] => Ok head
  | _, _ => fprune_loop fuel head U
  end.
