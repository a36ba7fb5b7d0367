(** Specification: reachability games under environment goals, and what a strategy
    automaton for one must be. Not a model of code; it states what include/patching.h
    and doc promise: the system must reach a state of [target], staying in [N] on the
    way, or else the environment eventually stops satisfying one of its goals (or has
    no legal move). *)
From Coq Require Import List ZArith Bool.
From Verif Require Import Base Game Automaton AutProofs.
Import ListNotations.

Section ReachSpec.
  Context {S E : Type}.

  (** the game in which only the states of [N] may be visited *)
  Definition within (N : S -> bool) (G : game S E) : game S E := {|
    g_states := filter N (g_states G);
    g_envs := g_envs G;
    g_env := g_env G;
    g_etr := g_etr G;
    g_str := g_str G;
    g_egoals := g_egoals G;
    g_sgoals := g_sgoals G
  |}.

  Variable G : game S E.
  Variable target : S -> bool.

  (** finite plays consistent with a strategy; play stops at the target *)
  Inductive rhist (sg : strategy (S := S) (E := E)) (s0 : S) : list S -> Prop :=
  | rhist_start : rhist sg s0 [s0]
  | rhist_step : forall s h e, rhist sg s0 (s :: h) -> target s = false ->
      legal_env G s e -> rhist sg s0 (sg (s :: h) e :: s :: h).
  (** infinite sequences of states that follow the strategy as long as the target has
      not been reached *)
  Definition rplay (sg : strategy (S := S) (E := E)) (s0 : S) (p : nat -> S) : Prop :=
    p O = s0 /\ (forall t, In (p t) (g_states G)) /\
    forall t, (forall u, u <= t -> target (p u) = false) ->
      exists e, legal_env G (p t) e /\ p (Datatypes.S t) = sg (prefix p t) e.

  Definition reach_winning (sg : strategy (S := S) (E := E)) (s0 : S) : Prop :=
    (forall s h e, rhist sg s0 (s :: h) -> target s = false -> legal_env G s e ->
       legal_sys G s e (sg (s :: h) e)) /\
    (forall p, rplay sg s0 p ->
       (forall g, In g (g_egoals G) -> infinitely_often g p) ->
       exists t, target (p t) = true).
  Definition reach_wins (s0 : S) : Prop := exists sg, reach_winning sg s0.
End ReachSpec.

(** a strategy automaton for the reachability game: [noenv] when there is no
    environment variable; ENVTRANS then restricts the current state only, and the
    claims are made for states (or runs) where it holds *)
Record reach_strategy {E} (G : game vec E) (target entry : vec -> bool) (noenv : bool)
    (A : aut) : Prop := {
  rs_ids : NoDup (map aid A);
  rs_states : forall x, In x A -> In (astate x) (g_states G);
  rs_unique : forall x y, In x A -> In y A -> astate x = astate y -> x = y;
  rs_closed : forall x a, In x A -> In a (atrans x) -> exists y, In y A /\ aid y = a;
  rs_mode : forall x, In x A -> amode x = (-1)%Z;
  (** every entry state has a node *)
  rs_entry : forall s, In s (g_states G) -> entry s = true ->
    exists x, In x A /\ astate x = s;
  (** nothing else is in the automaton than what is reachable from an entry state *)
  rs_reachable : forall y, In y A ->
    exists x, In x A /\ entry (astate x) = true /\ reach A (aid x) (aid y);
  (** transitions are legal *)
  rs_safe : forall x y, In x A -> In y A -> In (aid y) (atrans x) ->
    target (astate x) = false /\ g_str G (astate x) (astate y) = true /\
    (noenv = false -> legal_env G (astate x) (g_env G (astate y)));
  (** every legal environment move is answered, by exactly one transition *)
  rs_answer : forall x e, In x A -> target (astate x) = false -> legal_env G (astate x) e ->
    exists y, In y A /\ In (aid y) (atrans x) /\ g_env G (astate y) = e /\
      forall z, In z A -> In (aid z) (atrans x) -> g_env G (astate z) = e -> z = y;
  rs_nodup : forall x, In x A -> NoDup (atrans x);
  (** a run that never ends although the environment keeps satisfying its goals has
      reached the target (so there is none) *)
  rs_live : forall p : nat -> anode,
    (forall t, In (p t) A /\ In (aid (p (S t))) (atrans (p t))) ->
    (noenv = true -> forall t, g_etr G (astate (p t)) (g_env G (astate (p t))) = true) ->
    (forall g, In g (g_egoals G) -> infinitely_often g (fun t => astate (p t))) ->
    exists t, target (astate (p t)) = true;
  (** a run ends in the target or where the environment has no legal move *)
  rs_end : forall x, In x A -> atrans x = [] ->
    target (astate x) = true \/ forall e, ~ legal_env G (astate x) e;
  (** the reach annotation marks the target with 0 and never grows along a run *)
  rs_zero : forall x, In x A -> (0 <= argrad x)%Z /\ (argrad x = 0%Z <-> target (astate x) = true);
  rs_down : forall x y, In x A -> In y A -> In (aid y) (atrans x) ->
    (noenv = true -> g_etr G (astate x) (g_env G (astate x)) = true) ->
    (argrad y <= argrad x)%Z
}.
