(** Specification: adding a system goal to a specification and to a strategy for it
    (include/patching.h:97-121). Not a model of code. *)
From Coq Require Import List ZArith Bool Arith.
From Verif Require Import Base Game Strs Ptree Form Solve FSpec Automaton AutProofs SynthSpec HotSpec Metric MetricSpec.
Import ListNotations.
Open Scope nat_scope.

(** the specification with the system goal [g] inserted as number [i] *)
Definition with_goal (i : nat) (g : form) (F : fspec) : fspec := {|
  fs_evars := fs_evars F; fs_svars := fs_svars F;
  fs_einit := fs_einit F; fs_sinit := fs_sinit F;
  fs_etrans := fs_etrans F; fs_strans := fs_strans F;
  fs_egoals := fs_egoals F;
  fs_sgoals := firstn i (fs_sgoals F) ++ g :: skipn i (fs_sgoals F)
|}.

(** no infinite path along which every ENVGOAL holds infinitely often seeks the same goal
    all the time *)
Definition proceeds (F : fspec) (A : aut) : Prop :=
  forall p : nat -> anode,
    (forall t, In (p t) A /\ In (aid (p (S t))) (atrans (p t))) ->
    (fs_evars F = [] -> forall t, g_etr (game_of F) (astate (p t)) [] = true) ->
    (forall g, In g (fs_egoals F) -> infinitely_often (holds F g) (fun t => astate (p t))) ->
    (forall t, amode (p t) = amode (p 0)) -> False.

(** no state satisfies both [g] and goal [j] *)
Definition new_apart (F : fspec) (g : form) (j : nat) : Prop :=
  forall s, In s (fs_states F) -> holds F g s = true -> sgoal F j s = true -> False.

(** going from the mode of [x] to that of [y], goal [i] is passed: it is sought at [x] or
    comes after the one sought at [x], and comes before the one sought at [y] *)
Definition passes_goal (F : fspec) (i : nat) (x y : anode) : Prop :=
  let k := length (fs_sgoals F) in
  exists m c j, m < k /\ c < k /\ j < c /\ amode x = Z.of_nat m /\ amode y = Z.of_nat ((m + c) mod k) /\ (m + j) mod k = i.
Definition comes_after (F : fspec) (i : nat) (A : aut) (y : anode) : Prop :=
  exists x, In x A /\ In (aid y) (atrans x) /\ passes_goal F i x y.

(** the distance of the states satisfying [f] to those satisfying [g]; -1 if there are
    none *)
Definition goal_dist (fs : list (Z * Z)) (F : fspec) (f g : form) (x : Z) : Prop :=
  let pairs := fun p : vec * vec => In (fst p) (fs_states F) /\ In (snd p) (fs_states F) /\
    holds F f (fst p) = true /\ holds F g (snd p) = true in
  ((exists p, pairs p) -> least pairs (fun p => dist fs (snd p) (fst p)) x) /\
  ((forall p, ~ pairs p) -> x = (-1)%Z).
(** the goal [g] is to come after goal [i]: the first one of least distance to [g], or the
    last one if no variables for measuring are given *)
Definition place (fs : list (Z * Z)) (F : fspec) (g : form) (i : nat) : Prop :=
  let k := length (fs_sgoals F) in
  i < k /\ (fs = [] -> S i = k) /\
  (fs <> [] -> exists d : nat -> Z,
     (forall j, j < k -> goal_dist fs F (nth j (fs_sgoals F) FTrue) g (d j)) /\
     (forall j, j < k -> (d i <= d j)%Z) /\ forall j, j < i -> (d i < d j)%Z).

(** the initial nodes of [B] are initial nodes of [A]; those of [A] that are not entered
    by a transition passing goal [j] are initial nodes of [B] *)
Definition starts (F : fspec) (j : nat) (A B : aut) : Prop :=
  (forall y, In y B -> ainit y = true -> exists x, In x A /\ ainit x = true /\ astate x = astate y) /\
  (forall x, In x A -> ainit x = true -> ~ comes_after F j A x ->
     exists y, In y B /\ ainit y = true /\ astate y = astate x).

(** the number of old goal [j] after a goal was inserted behind goal [i] *)
Definition moved (i j : nat) : nat := if j <=? i then j else S j.
(** the goals of [F] are sought in order, except that from nodes seeking [a] there may be
    transitions to nodes seeking [b] *)
Definition in_order_but (F : fspec) (a b : nat) (A : aut) : Prop :=
  let k := length (fs_sgoals F) in
  (forall x, In x A -> (0 <= amode x < Z.of_nat k)%Z) /\
  forall x y, In x A -> In y A -> In (aid y) (atrans x) ->
  (amode x = Z.of_nat a /\ amode y = Z.of_nat b) \/
  exists i c, i < k /\ amode x = Z.of_nat i /\ amode y = Z.of_nat ((i + c) mod k) /\
    forall j, j < c -> sgoal F ((i + j) mod k) (astate y) = true.
