(** Specification: what a family of sublevel sets for one system goal must be.

    Not a model of code. [Y j] and [X j r] are sets of states (Boolean
    functions), [goal] is the system goal, [W] the winning set, [eg r] the
    environment goals, [K] the last level. *)
From Coq Require Import List Bool.
From Verif Require Import Game.
Import ListNotations.

Section Levels.
  Context {S E : Type}.
  Variable G : game S E.

  (** the system can answer every allowed environment move by going into [T] *)
  Definition forces (T : S -> bool) (s : S) : Prop :=
    forall e, legal_env G s e -> exists s', legal_sys G s e s' /\ T s' = true.

  (** goal reached inside [W], or one step from the level below, or kept in [P]
      while environment goal [eg] is false *)
  Definition level_step (goal W Y eg P : S -> bool) (s : S) : Prop :=
    (goal s = true /\ W s = true) \/ forces Y s \/ (eg s = false /\ forces P s).

  Record is_ladder (goal W : S -> bool) (eg : nat -> S -> bool) (ne : nat)
      (K : nat) (Y : nat -> S -> bool) (X : nat -> nat -> S -> bool) : Prop := {
    lad_bottom : forall s, In s (g_states G) -> Y 0 s = false;
    lad_top : forall s, In s (g_states G) -> Y K s = W s;
    lad_incr : forall j s, j < K -> In s (g_states G) -> Y j s = true ->
      Y (Datatypes.S j) s = true;
    lad_strict : forall j, j < K ->
      exists s, In s (g_states G) /\ Y j s = false /\ Y (Datatypes.S j) s = true;
    lad_union : forall j s, j < K -> In s (g_states G) ->
      (Y (Datatypes.S j) s = true <-> exists r, r < ne /\ X (Datatypes.S j) r s = true);
    lad_step : forall j r s, j < K -> r < ne -> In s (g_states G) ->
      (X (Datatypes.S j) r s = true <->
       level_step goal W (Y j) (eg r) (X (Datatypes.S j) r) s);
    (** [X] is the largest set with the previous property *)
    lad_largest : forall j r (P : S -> bool), j < K -> r < ne ->
      (forall s, In s (g_states G) -> P s = true -> level_step goal W (Y j) (eg r) P s) ->
      forall s, In s (g_states G) -> P s = true -> X (Datatypes.S j) r s = true
  }.
End Levels.
