(** Specification: two-player GR(1) games, strategies and winning.

    This file is the independent specification used by the properties about
    realizability and synthesis. It is not a model of code; it states what the
    documentation promises (doc/spc_format.md, include/solve.h:36-85): the
    environment moves first within the bounds of its transition rule, the
    system answers within the bounds of its own; the system wins an infinite
    play iff (all environment goals infinitely often) implies (all system goals
    infinitely often); a player that cannot move loses. *)
From Coq Require Import List Bool.
Import ListNotations.

Record game (S E : Type) := {
  g_states : list S;            (** the (finite) state space *)
  g_envs   : list E;            (** the (finite) set of environment valuations *)
  g_env    : S -> E;            (** environment part of a state *)
  g_etr    : S -> E -> bool;    (** ENVTRANS: environment may choose [e] next *)
  g_str    : S -> S -> bool;    (** SYSTRANS *)
  g_egoals : list (S -> bool);
  g_sgoals : list (S -> bool)
}.
Arguments g_states {S E}. Arguments g_envs {S E}. Arguments g_env {S E}.
Arguments g_etr {S E}. Arguments g_str {S E}.
Arguments g_egoals {S E}. Arguments g_sgoals {S E}.

Section GameSpec.
  Context {S E : Type}.
  Variable G : game S E.

  (** [e] is a move the environment may make in [s]. *)
  Definition legal_env (s : S) (e : E) : Prop :=
    In e (g_envs G) /\ g_etr G s e = true.

  (** [s'] is a legal answer of the system to the move [e] made in [s]. *)
  Definition legal_sys (s : S) (e : E) (s' : S) : Prop :=
    In s' (g_states G) /\ g_env G s' = e /\ g_str G s s' = true.

  (** A system strategy maps the history (latest state first) and the next
      environment move to the next state. *)
  Definition strategy := list S -> E -> S.

  (** Finite plays from [s0] consistent with a strategy. *)
  Inductive hist (sg : strategy) (s0 : S) : list S -> Prop :=
  | hist_start : hist sg s0 [s0]
  | hist_step : forall s h e, hist sg s0 (s :: h) -> legal_env s e ->
                hist sg s0 (sg (s :: h) e :: s :: h).

  Fixpoint prefix (p : nat -> S) (t : nat) : list S :=
    match t with O => [p O] | Datatypes.S t' => p t :: prefix p t' end.

  (** Infinite plays from [s0] consistent with a strategy. *)
  Definition play_of (sg : strategy) (s0 : S) (p : nat -> S) : Prop :=
    p O = s0 /\
    forall t, exists e, legal_env (p t) e /\ p (Datatypes.S t) = sg (prefix p t) e.

  Definition infinitely_often (g : S -> bool) (p : nat -> S) : Prop :=
    forall t, exists t', t <= t' /\ g (p t') = true.

  Definition gr1 (p : nat -> S) : Prop :=
    (forall g, In g (g_egoals G) -> infinitely_often g p) ->
    (forall g, In g (g_sgoals G) -> infinitely_often g p).

  (** The strategy always has a legal answer and wins every infinite play. *)
  Definition winning (sg : strategy) (s0 : S) : Prop :=
    (forall s h e, hist sg s0 (s :: h) -> legal_env s e ->
       legal_sys s e (sg (s :: h) e)) /\
    (forall p, play_of sg s0 p -> gr1 p).

  Definition sys_wins (s0 : S) : Prop := exists sg, winning sg s0.
End GameSpec.
