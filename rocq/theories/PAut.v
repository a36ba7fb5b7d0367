(** Properties C26, C27, C28 and C40: the automaton primitives.

    Reading guide. An automaton is the list of its nodes in the order of the [next]
    links; [ids A] are the addresses of the nodes, distinct by hypothesis; [closed A]
    says that no transition dangles. [edge A a b]: the node at [a] has a transition to
    [b]. *)
From Coq Require Import List ZArith Bool Arith Lia.
From Verif Require Import Base Support Automaton AutProofs AutProofs2.
Import ListNotations.
Open Scope nat_scope.

(** a small automaton: 1 -> 2 -> 3 -> 2, 1 -> 4, 5 -> 1, 4 is a dead end *)
Definition ex_aut : aut :=
  [ Node 1 true [0;0]%Z 0 (-1) [2; 4]; Node 4 false [1;1]%Z 0 (-1) [];
    Node 2 false [0;1]%Z 0 (-1) [3; 4; 3]; Node 3 false [1;0]%Z 1 (-1) [2];
    Node 5 false [1;0]%Z 0 (-1) [1] ].
Lemma ex_aut_nodup : NoDup (ids ex_aut).
Proof. repeat constructor; simpl; intuition discriminate. Qed.
Lemma ex_aut_closed : closed ex_aut.
Proof.
  intros x t Hx Ht. simpl in Hx. simpl.
  repeat (destruct Hx as [<-|Hx]; [simpl in Ht; intuition; subst; auto|]). destruct Hx.
Qed.

(** C26: pruning ends, and the result consists of the nodes from which an infinite
    path exists, in the old order, with exactly the transitions among them. *)
Theorem C26_prune_deadends_exact : forall A, NoDup (ids A) -> closed A ->
  exists keep : nat -> bool,
    aut_prune_deadends A = Ok
      (map (fun x => set_trans (filter keep (atrans x)) x) (filter (fun x => keep (aid x)) A)) /\
    forall a, In a (ids A) ->
      (keep a = true <-> exists p : nat -> nat, p 0 = a /\ forall t, edge A (p t) (p (S t))).
Proof. exact prune_deadends_exact. Qed.
Print Assumptions C26_prune_deadends_exact.
Example C26_instance : NoDup (ids ex_aut) /\ closed ex_aut /\
  aut_prune_deadends ex_aut = Ok
  [ Node 1 true [0;0]%Z 0 (-1) [2]; Node 2 false [0;1]%Z 0 (-1) [3; 3];
    Node 3 false [1;0]%Z 1 (-1) [2]; Node 5 false [1;0]%Z 0 (-1) [1] ].
Proof. split; [exact ex_aut_nodup|]. split; [exact ex_aut_closed|]. reflexivity. Qed.

(** C27: forward_prune ends; the nodes left are untouched and form a closed automaton
    (hence nothing reachable from a node left has been deleted); no initial node is
    deleted; a deleted node is reachable from a candidate; every candidate left and
    every successor left of a deleted node is initial or has a predecessor. *)
Theorem C27_forward_prune : forall A U fuel, length A < fuel -> NoDup (ids A) -> closed A ->
  (forall a, In (Some a) U -> In a (ids A)) ->
  exists A' (keep : nat -> bool), forward_prune fuel A U = Ok A' /\
    A' = filter (fun x => keep (aid x)) A /\
    closed A' /\
    (forall x, In x A -> keep (aid x) = false -> ainit x = false) /\
    (forall a, In a (ids A) -> keep a = false ->
       exists u, In (Some u) U /\ In u (ids A) /\ reach A u a) /\
    (forall a, In a (ids A') ->
       (In (Some a) U \/ exists d, In d (ids A) /\ keep d = false /\ edge A d a) ->
       (exists x, In x A' /\ aid x = a /\ ainit x = true) \/ exists b, edge A' b a).
Proof. exact forward_prune_spec. Qed.
Print Assumptions C27_forward_prune.
(** nothing reachable from an initial node is deleted *)
Theorem C27_reachable_kept : forall A U fuel A', NoDup (ids A) -> closed A ->
  (forall a, In (Some a) U -> In a (ids A)) -> length A < fuel ->
  forward_prune fuel A U = Ok A' ->
  forall x y, In x A -> In y A -> (ainit x = true \/ In x A') ->
    reach A (aid x) (aid y) -> In y A'.
Proof. exact forward_prune_reachable. Qed.
Print Assumptions C27_reachable_kept.
Example C27_instance : NoDup (ids ex_aut) /\ closed ex_aut /\
  (forall a, In (Some a) [Some 5; None; Some 3; Some 5] -> In a (ids ex_aut)) /\
  forward_prune 6 ex_aut [Some 5; None; Some 3; Some 5] = Ok (firstn 4 ex_aut).
Proof.
  split; [exact ex_aut_nodup|]. split; [exact ex_aut_closed|].
  split; [|reflexivity]. simpl. intros a H.
  destruct H as [H|[H|[H|[H|[]]]]]; inversion H; subst; auto 10.
Qed.

(** C28: lookups return the first match *)
Theorem C28_find_first : forall n A mode state,
  (forall x, In x A -> length (astate x) = n) -> length state = n ->
  (forall x, find_anode A mode state = Some x <->
     exists A1 A2, A = A1 ++ x :: A2 /\ amode x = mode /\ astate x = state /\
       forall y, In y A1 -> ~ (amode y = mode /\ astate y = state)) /\
  (find_anode A mode state = None <->
     forall y, In y A -> ~ (amode y = mode /\ astate y = state)).
Proof. exact find_spec. Qed.
Print Assumptions C28_find_first.
Theorem C28_find_index : forall n A mode state,
  (forall x, In x A -> length (astate x) = n) -> length state = n ->
  (exists k x, find_anode_index A mode state = Z.of_nat k /\ nth_error A k = Some x /\
     amode x = mode /\ astate x = state /\
     forall j y, j < k -> nth_error A j = Some y -> ~ (amode y = mode /\ astate y = state)) \/
  (find_anode_index A mode state = (-1)%Z /\
     forall y, In y A -> ~ (amode y = mode /\ astate y = state)).
Proof. exact find_index_ok. Qed.
Print Assumptions C28_find_index.
Theorem C28_anode_index : forall A a, NoDup (ids A) ->
  (forall k x, nth_error A k = Some x -> anode_index A (aid x) = Z.of_nat k) /\
  (~ In a (ids A) -> anode_index A a = (-1)%Z).
Proof. exact anode_index_spec. Qed.
Print Assumptions C28_anode_index.
(** delete removes exactly the target; a missing target loses the whole list *)
Theorem C28_delete : forall A t, NoDup (ids A) ->
  (forall A1 x A2, A = A1 ++ x :: A2 -> delete_anode A (Some (aid x)) = A1 ++ A2) /\
  (~ In t (ids A) -> delete_anode A (Some t) = []).
Proof. exact delete_spec. Qed.
Print Assumptions C28_delete.
(** replace rewrites exactly the transitions to [old], in place or by removal, and
    changes nothing else *)
Theorem C28_replace : forall A old,
  (forall new, replace_anode_trans A old (Some new) =
     map (fun x => set_trans (map (fun t => if t =? old then new else t) (atrans x)) x) A) /\
  replace_anode_trans A old None =
     map (fun x => set_trans (filter (fun t => negb (t =? old)) (atrans x)) x) A.
Proof. exact replace_spec. Qed.
Print Assumptions C28_replace.
(** append adds one transition at the end of the array of the first matching node *)
Theorem C28_append : forall A mode state mode' state', NoDup (ids A) ->
  (find_anode A mode state = None ->
     append_anode_trans A mode state mode' state' = Crash) /\
  (forall x, find_anode A mode state = Some x -> find_anode A mode' state' = None ->
     append_anode_trans A mode state mode' state' = Ok (A, false)) /\
  (forall x y, find_anode A mode state = Some x -> find_anode A mode' state' = Some y ->
     exists A1 A2, A = A1 ++ x :: A2 /\
       append_anode_trans A mode state mode' state' =
       Ok (A1 ++ set_trans (atrans x ++ [aid y]) x :: A2, true)).
Proof. exact append_spec. Qed.
Print Assumptions C28_append.
Theorem C28_insert_pop_size : forall A new mode rgrad initial state,
  pop_anode (insert_anode A new mode rgrad initial state) = Ok A /\
  find_anode (insert_anode A new mode rgrad initial state) mode state =
    Some (Node new initial state mode rgrad []) /\
  aut_size A = Z.of_nat (length A) /\
  aut_size (insert_anode A new mode rgrad initial state) = (aut_size A + 1)%Z.
Proof. exact insert_pop_size. Qed.
Print Assumptions C28_insert_pop_size.
Example C28_instance : NoDup (ids ex_aut) /\
  find_anode ex_aut 0 [1;0]%Z = Some (Node 5 false [1;0]%Z 0 (-1) [1]) /\
  find_anode_index ex_aut 1 [1;0]%Z = 3%Z /\ find_anode_index ex_aut 2 [1;0]%Z = (-1)%Z /\
  anode_index ex_aut 2 = 2%Z /\
  replace_anode_trans (firstn 3 ex_aut) 4 (Some 1) =
  [ Node 1 true [0;0]%Z 0 (-1) [2; 1]; Node 4 false [1;1]%Z 0 (-1) [];
    Node 2 false [0;1]%Z 0 (-1) [3; 1; 3] ] /\
  append_anode_trans (firstn 2 ex_aut) 0 [1;1]%Z 0 [0;0]%Z =
  Ok ([ Node 1 true [0;0]%Z 0 (-1) [2; 4]; Node 4 false [1;1]%Z 0 (-1) [1] ], true).
Proof. split; [exact ex_aut_nodup|]. repeat split. Qed.

(** C40: forward_modereach sets the mode of exactly the nodes reachable from the start,
    in one or more steps, through nodes of the mode with a state in [N]; nothing else
    changes. *)
Theorem C40_modereach_exact : forall mode magic N A, NoDup (ids A) -> closed A -> magic <> mode ->
  forall n fuel, In n (ids A) -> length A < fuel ->
  exists M : nat -> bool,
    forward_modereach fuel A n mode N magic =
      Ok (map (fun x => if M (aid x) then set_mode magic x else x) A) /\
    forall a, M a = true <-> mreach mode N A n a.
Proof. exact modereach_exact. Qed.
Print Assumptions C40_modereach_exact.
(** and without [magic <> mode] it may run for ever *)
Theorem C40_same_mode_diverges : exists A n mode N, NoDup (ids A) /\ closed A /\ In n (ids A) /\
  forall fuel, forward_modereach fuel A n mode N mode = Fuel.
Proof. exact modereach_diverges_ex. Qed.
Print Assumptions C40_same_mode_diverges.
Example C40_instance : NoDup (ids ex_aut) /\ closed ex_aut /\ In 1 (ids ex_aut) /\
  forward_modereach 6 ex_aut 1 0 [[0;1]; [1;0]; [0;0]]%Z (-9) = Ok
  [ Node 1 true [0;0]%Z 0 (-1) [2; 4]; Node 4 false [1;1]%Z 0 (-1) [];
    Node 2 false [0;1]%Z (-9) (-1) [3; 4; 3]; Node 3 false [1;0]%Z 1 (-1) [2];
    Node 5 false [1;0]%Z 0 (-1) [1] ].
Proof.
  split; [exact ex_aut_nodup|]. split; [exact ex_aut_closed|]. split; [simpl; auto|]. reflexivity.
Qed.
