(** Specification: the game denoted by transition and goal functions over
    [ne] environment and [ns] system Boolean variables.

    A state is a valuation (environment part first). ENVTRANS is a function of
    the current state and the next environment valuation, SYSTRANS of the
    current and the next state, goals of the current state. In the BDDs the
    current state occupies variables 0..n-1 and the next one n..2n-1. *)
From Coq Require Import List ZArith Lia Bool Arith.
From Verif Require Import Base Bdd Game.
Import ListNotations.
Open Scope nat_scope.

(** value of a state function (a BDD over the unprimed variables) *)
Definition evS (n : nat) (f : dt) (s : vec) : bool := ev f (s ++ zeros n).

(** [f] does not depend on the primed variables *)
Definition unprimed (n : nat) (f : dt) : Prop :=
  forall s p q, bitvec n s -> bitvec n p -> bitvec n q ->
  ev f (s ++ p) = ev f (s ++ q).
(** [f] does not depend on the primed system variables *)
Definition no_primed_sys (ne ns : nat) (f : dt) : Prop :=
  forall s e w w', bitvec (ne + ns) s -> bitvec ne e -> bitvec ns w -> bitvec ns w' ->
  ev f (s ++ e ++ w) = ev f (s ++ e ++ w').

Definition bgame (ne ns : nat) (etrans strans : dt) (egoals sgoals : list dt)
    : game vec vec := {|
  g_states := all_vecs (ne + ns);
  g_envs := all_vecs ne;
  g_env := firstn ne;
  g_etr := fun s e => ev etrans (s ++ e ++ zeros ns);
  g_str := fun s s' => ev strans (s ++ s');
  g_egoals := map (evS (ne + ns)) egoals;
  g_sgoals := map (evS (ne + ns)) sgoals
|}.
