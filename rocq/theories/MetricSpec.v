(** Specification: distances between states with respect to some integer fields
    of the state vector, least and greatest distances.

    Not a model of code. *)
From Coq Require Import List ZArith Bool Arith String Ascii.
From Verif Require Import Base Game Bdd BGame Form FSpec RSpec Metric.
Import ListNotations.
Open Scope Z_scope.

Definition zsum (l : list Z) : Z := fold_right Z.add 0 l.
(** the number whose bits, least significant first, are at positions
    o, ..., o+w-1 of the state *)
Definition field (s : vec) (f : Z * Z) : Z :=
  zsum (map (fun i => nth (Z.to_nat (fst f) + i) s 0 * 2 ^ Z.of_nat i)
            (seq 0 (Z.to_nat (snd f)))).
(** the 1-norm distance *)
Definition dist (fs : list (Z * Z)) (s r : vec) : Z :=
  zsum (map (fun f => Z.abs (field s f - field r f)) fs).
(** the fields lie inside of a state of [n] variables and hold a C int *)
Definition fields_in (n : nat) (fs : list (Z * Z)) : Prop :=
  forall o w, In (o, w) fs -> 0 <= o /\ 0 <= w <= 31 /\ o + w <= Z.of_nat n.

Definition least {A} (P : A -> Prop) (d : A -> Z) (x : Z) : Prop :=
  (exists s, P s /\ d s = x) /\ forall s, P s -> x <= d s.
Definition greatest {A} (P : A -> Prop) (d : A -> Z) (x : Z) : Prop :=
  (exists s, P s /\ d s = x) /\ forall s, P s -> d s <= x.
(** x is the distance from [s] to the set [G] *)
Definition set_dist (fs : list (Z * Z)) (G : vec -> Prop) (s : vec) (x : Z) : Prop :=
  least G (fun g => dist fs g s) x.
(** [mn] and [mx] are the least and greatest distance from a state of [T] to [G] *)
Definition set_bounds (fs : list (Z * Z)) (T G : vec -> Prop) (mn mx : Z) : Prop :=
  (exists s, T s /\ set_dist fs G s mn) /\ (exists s, T s /\ set_dist fs G s mx) /\
  forall s, T s -> exists x, set_dist fs G s x /\ mn <= x <= mx.
(** the same for a pair; (-1, -1) if [G] is empty *)
Definition pair_bounds (fs : list (Z * Z)) (T G : vec -> Prop) (mm : Z * Z) : Prop :=
  ((exists g, G g) -> set_bounds fs T G (fst mm) (snd mm)) /\
  ((forall g, ~ G g) -> mm = (-1, -1)).


(** the environment goals, True if there are none *)
Definition egoal_forms (F : fspec) : list form :=
  match fs_egoals F with [] => [FTrue] | l => l end.
Definition env_goal (F : fspec) (r : nat) (s : vec) : bool :=
  holds F (nth r (egoal_forms F) FTrue) s.
(** the states represented by a BDD over [2*n] variables *)
Definition in_set (n : nat) (T : dt) (s : vec) : Prop := bitvec n s /\ evS n T s = true.

(** bounds (Min, Max) of the levels of one goal: j reaches back by d *)
Definition reaches (mm : list (Z * Z)) (j d : nat) : Prop :=
  d = 1%nat \/
  exists k, (1 <= k <= j - 2)%nat /\ d = (j - k)%nat /\
    fst (nth (j - 1) mm (0, 0)) <= snd (nth (k - 1) mm (0, 0)).
(** the horizon of all goals: the greatest such d, where j is at least 3; -1 if no
    goal has that many levels *)
Definition is_horizon (l : list (list (Z * Z))) (h : Z) : Prop :=
  (h = -1 /\ forall mm, In mm l -> (List.length mm < 3)%nat) \/
  ((exists mm j d, In mm l /\ (3 <= j <= List.length mm)%nat /\ reaches mm j d /\ h = Z.of_nat d) /\
   forall mm j d, In mm l -> (3 <= j <= List.length mm)%nat -> reaches mm j d -> Z.of_nat d <= h).

(** sum over the names [xs] of the differences of the values in the states s and r
    of the variables [vs] *)
Definition value_dist (vs : list vdecl) (xs : list string) (s r : vec) : Z :=
  zsum (map (fun x => Z.abs (lookup (names vs) s x - lookup (names vs) r x)) xs).
(** no other variable, and no bit of another variable, has a name starting with x *)
Definition own_prefix (vs : list vdecl) (x : string) : Prop :=
  forall y e, In (y, e) vs -> y <> x -> forall b, In b (var_bits (y, e)) -> String.prefix x b = false.
(** the text with the words [xs], each followed by at least one space, after some
    spaces *)
Inductive spaced : list string -> string -> Prop :=
| spaced_nil : spaced [] EmptyString
| spaced_space : forall xs s, spaced xs s -> spaced xs (String " "%char s)
| spaced_last : forall x, spaced [x] x
| spaced_word : forall x xs s, spaced xs s -> spaced (x :: xs) (x ++ String " "%char s)%string.
Definition is_word (x : string) : Prop :=
  x <> EmptyString /\ ~ In " "%char (list_ascii_of_string x).
