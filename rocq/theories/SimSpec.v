(** Specification: simulated plays of a game.

    Not a model of code. A play is given by its states [s 0], [s 1], ... and the moves
    [e 0], [e 1], ... of the environment. *)
From Coq Require Import List ZArith Bool Arith.
From Verif Require Import Base Game Form FSpec Automaton MetricSpec.
Import ListNotations.
Open Scope nat_scope.

(** in [s] the environment may make the move [e], and the system may answer by going
    to [s'], from where it still wins *)
Definition answer (F : fspec) (s e s' : vec) : Prop :=
  legal_env (game_of F) s e /\ legal_sys (game_of F) s e s' /\ sys_wins (game_of F) s'.
(** [y] is reached from [x] by [j] such steps *)
Fixpoint reach_in (F : fspec) (j : nat) (x y : vec) : Prop :=
  match j with
  | O => x = y
  | S j' => exists e z, answer F x e z /\ reach_in F j' z y
  end.
(** the goal sought in step [k]: the goals are sought in turn, and the next one as
    soon as the one sought holds *)
Fixpoint goal_at (F : fspec) (s : nat -> vec) (k : nat) : nat :=
  let g := match k with O => 0 | S k' => goal_at F s k' end in
  if holds F (nth g (fs_sgoals F) FTrue) (s k) then (g + 1) mod List.length (fs_sgoals F) else g.
(** in step [k] the goal sought before is found to hold *)
Definition reached (F : fspec) (s : nat -> vec) (k : nat) : Prop :=
  holds F (nth (match k with O => 0 | S k' => goal_at F s k' end) (fs_sgoals F) FTrue) (s k) = true.
(** the winning states where this goal holds *)
Definition target (F : fspec) (s : nat -> vec) (k : nat) (x : vec) : Prop :=
  In x (fs_states F) /\ holds F (nth (goal_at F s k) (fs_sgoals F) FTrue) x = true /\
  sys_wins (game_of F) x.
(** [x] is one of the [C], and none of the [C] is closer to [T] *)
Definition nearest (fs : list (Z * Z)) (T C : vec -> Prop) (x : vec) : Prop :=
  C x /\ forall y dx dy, C y -> set_dist fs T x dx -> set_dist fs T y dy -> (dx <= dy)%Z.
(** an answer in step [k] that has not been possible in an earlier step *)
Definition unseen (F : fspec) (s e : nat -> vec) (k : nat) (x : vec) : Prop :=
  answer F (s k) (e k) x /\ forall i, i < k -> ~ answer F (s i) (e i) x.
(** [x] can be reached by at most [d] steps from an answer in one of the first [k] steps *)
Definition within (F : fspec) (s e : nat -> vec) (k d : nat) (x : vec) : Prop :=
  exists j z i, j < k /\ answer F (s j) (e j) z /\ i <= d /\ reach_in F i z x.
(** [x] can be reached in step [k] by fewer than [h] steps after the answer, and by
    fewer than in all steps before *)
Definition closer (F : fspec) (h : nat) (s e : nat -> vec) (k : nat) (x : vec) : Prop :=
  exists d, d < h /\ within F s e (S k) d x /\ ~ within F s e k d x.
(** the same state has been left for [x] before, and no goal has been reached since *)
Definition tried (F : fspec) (s a : nat -> vec) (k : nat) (x : vec) : Prop :=
  exists j, j < k /\ s j = s k /\ a j = x /\ forall l, j < l <= k -> ~ reached F s l.
(** step [k] of a play with horizon [h] in which the environment moves by [e k] and the
    system heads for [a k]: it heads for the nearest state to the goal of those that
    are [closer] and have not been [tried], and does not move if there is none *)
Definition horizon_step (F : fspec) (fs : list (Z * Z)) (h : nat) (s e a : nat -> vec) (k : nat) : Prop :=
  let C := fun x => closer F h s e k x /\ ~ tried F s a k x in
  ((forall x, ~ C x) /\ a k = s k /\ s (S k) = s k) \/
  (nearest fs (target F s k) C (a k) /\ answer F (s k) (e k) (s (S k)) /\
   exists j, j < h /\ reach_in F j (s (S k)) (a k)).
(** the nodes form the path [s 0], ..., [s k]; the mode of a node is its position *)
Definition is_play (A : aut) (k : nat) (s : nat -> vec) : Prop :=
  exists ids : nat -> nat, (forall i j, i <= k -> j <= k -> ids i = ids j -> i = j) /\
    A = map (fun i => Node (ids i) false (s i) (Z.of_nat i) (-1)
                        (if i <? k then [ids (S i)] else [])) (rev (seq 0 (S k))).
(** the number of steps below [k] in which the state changes *)
Fixpoint changes (s : nat -> vec) (k : nat) : nat :=
  match k with
  | O => 0
  | S k' => changes s k' + if list_eq_dec Z.eq_dec (s (S k')) (s k') then 0 else 1
  end.
