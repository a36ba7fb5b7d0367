(** Model of the part of the CUDD package that gr1c uses (external library; the
    calls are listed beside each definition).

    A BDD over [m] manager variables is modelled by its complete decision tree
    of depth [m]. Like CUDD nodes these trees are canonical: two trees of depth
    [m] are equal iff they denote the same Boolean function. Reference counts,
    dynamic reordering and memory exhaustion are not modelled.

    A BDD that is a cube built by [Cudd_CubeArrayToBdd] is represented by the
    literal array it was built from. *)
From Coq Require Import List ZArith Lia Bool Arith.
From Verif Require Import Base.
Import ListNotations.
Open Scope Z_scope.

Inductive dt := Leaf (b : bool) | Node (lo hi : dt).

(** The BDD of [f] over [m] variables. *)
Fixpoint mk (m : nat) (f : vec -> bool) : dt :=
  match m with
  | O => Leaf (f [])
  | S k => Node (mk k (fun v => f (0 :: v))) (mk k (fun v => f (1 :: v)))
  end.

(** [Cudd_Eval]: follows the then-branch exactly where the input is 1. *)
Fixpoint ev (t : dt) (v : vec) : bool :=
  match t with
  | Leaf b => b
  | Node lo hi =>
      match v with
      | x :: v' => if x =? 1 then ev hi v' else ev lo v'
      | [] => ev lo []
      end
  end.

Fixpoint wf (m : nat) (t : dt) : Prop :=
  match m, t with
  | O, Leaf _ => True
  | S k, Node lo hi => wf k lo /\ wf k hi
  | _, _ => False
  end.

(** Pointer equality of CUDD nodes. *)
Fixpoint dt_eqb (a b : dt) : bool :=
  match a, b with
  | Leaf x, Leaf y => Bool.eqb x y
  | Node l h, Node l' h' => dt_eqb l l' && dt_eqb h h'
  | _, _ => false
  end.

(** ** Operations. [m] is the number of manager variables. *)

(** [Cudd_ReadOne], [Cudd_Not(Cudd_ReadOne)], [Cudd_bddIthVar] *)
Definition bOne (m : nat) : dt := mk m (fun _ => true).
Definition bZero (m : nat) : dt := mk m (fun _ => false).
Definition bVar (m i : nat) : dt := mk m (fun v => nth i v 0 =? 1).
(** [Cudd_Not], [Cudd_bddAnd], [Cudd_bddOr], [Cudd_bddXor], [Cudd_bddXnor] *)
Definition bNot (m : nat) (a : dt) : dt := mk m (fun v => negb (ev a v)).
Definition bAnd (m : nat) (a b : dt) : dt := mk m (fun v => ev a v && ev b v).
Definition bOr (m : nat) (a b : dt) : dt := mk m (fun v => ev a v || ev b v).
Definition bXor (m : nat) (a b : dt) : dt := mk m (fun v => xorb (ev a v) (ev b v)).
Definition bXnor (m : nat) (a b : dt) : dt :=
  mk m (fun v => negb (xorb (ev a v) (ev b v))).
(** [Cudd_bddLeq] *)
Definition bLeq (m : nat) (a b : dt) : bool :=
  forallb (fun v => implb (ev a v) (ev b v)) (all_vecs m).

(** [Cudd_CubeArrayToBdd]: fails (NULL) on a literal that is not 0, 1 or 2. *)
Definition cube_lit (x : Z) : bool := (x =? 0) || (x =? 1) || (x =? 2).
Definition cubeBDD (c : list Z) : option (list Z) :=
  if forallb cube_lit c then Some c else None.

(** positions present in the cube come from [w], the others from [v] *)
Fixpoint merge_q (c : list Z) (v w : vec) : vec :=
  match c, v, w with
  | x :: c', a :: v', b :: w' => (if x =? 2 then a else b) :: merge_q c' v' w'
  | _, _, _ => v
  end.
(** [Cudd_bddExistAbstract], [Cudd_bddUnivAbstract] by the variables of a cube.
    (CUDD accepts positive cubes only; all cubes gr1c passes are positive, see
    [cube_prime_env_pos] etc. in SupportProofs.v.) *)
Definition bExist (m : nat) (c : list Z) (f : dt) : dt :=
  mk m (fun v => existsb (fun w => ev f (merge_q c v w)) (all_vecs m)).
Definition bUniv (m : nat) (c : list Z) (f : dt) : dt :=
  mk m (fun v => forallb (fun w => ev f (merge_q c v w)) (all_vecs m)).
(** [Cudd_Cofactor] by a cube. *)
Definition bCof (m : nat) (c : list Z) (f : dt) : dt :=
  mk m (fun v => ev f (merge_q c v c)).
(** [Cudd_bddVarMap] after [Cudd_SetVarMap] pairing variable i with n+i. *)
Definition bSwap (m n : nat) (f : dt) : dt :=
  mk m (fun v => ev f (skipn n v ++ firstn n v)).

(** ** Laws *)

(** how [Cudd_Eval] reads an input array *)
Definition norm (v : vec) : vec := map (fun x => if x =? 1 then 1 else 0) v.

Lemma norm_bitvec : forall v, bitvec (length v) (norm v).
Proof.
  intros v. split. apply map_length.
  apply Forall_forall. intros x Hx. apply in_map_iff in Hx.
  destruct Hx as (y & <- & _). unfold isbit. destruct (y =? 1); auto.
Qed.
Lemma norm_id : forall n v, bitvec n v -> norm v = v.
Proof.
  intros n v [_ H]. induction H as [|x l Hx Hl IH]; simpl; auto.
  rewrite IH. destruct Hx as [-> | ->]; reflexivity.
Qed.
Lemma norm_app : forall u v, norm (u ++ v) = norm u ++ norm v.
Proof. intros. apply map_app. Qed.
Lemma norm_length : forall v, length (norm v) = length v.
Proof. intros. apply map_length. Qed.

Lemma ev_mk_norm : forall m f v, length v = m -> ev (mk m f) v = f (norm v).
Proof.
  induction m; intros f v H; destruct v as [|x v]; simpl in *; try discriminate; auto.
  destruct (x =? 1); rewrite IHm by lia; reflexivity.
Qed.
Lemma ev_mk : forall m f v, bitvec m v -> ev (mk m f) v = f v.
Proof.
  intros m f v H. rewrite ev_mk_norm by apply H. rewrite (norm_id m); auto.
Qed.
Lemma ev_norm : forall t v, ev t (norm v) = ev t v.
Proof.
  induction t; intros v; simpl; auto. destruct v as [|x v]; simpl; auto.
  destruct (x =? 1); simpl; auto.
Qed.
Lemma wf_mk : forall m f, wf m (mk m f).
Proof. induction m; simpl; auto. Qed.

Lemma dt_ext : forall m a b, wf m a -> wf m b ->
  (forall v, bitvec m v -> ev a v = ev b v) -> a = b.
Proof.
  induction m; intros a b Ha Hb H; destruct a, b; simpl in *; try tauto.
  - f_equal. apply (H []). apply bitvec_nil.
  - destruct Ha, Hb. f_equal.
    + apply IHm; auto. intros v Hv. apply (H (0 :: v)). apply bitvec_cons; auto. left; auto.
    + apply IHm; auto. intros v Hv. apply (H (1 :: v)). apply bitvec_cons; auto. right; auto.
Qed.
Lemma mk_ext : forall m f g, (forall v, bitvec m v -> f v = g v) -> mk m f = mk m g.
Proof.
  intros. apply (dt_ext m); auto using wf_mk. intros. rewrite !ev_mk; auto.
Qed.
Lemma dt_eqb_eq : forall a b, dt_eqb a b = true <-> a = b.
Proof.
  induction a as [x|l IHl h IHh]; intros [y|l' h']; simpl; split; intros H;
    try discriminate; auto.
  - apply eqb_prop in H. congruence.
  - inversion H. apply eqb_reflx.
  - apply andb_true_iff in H. destruct H as [H1 H2].
    apply IHl in H1. apply IHh in H2. congruence.
  - inversion H; subst. rewrite (proj2 (IHl _) eq_refl), (proj2 (IHh _) eq_refl). reflexivity.
Qed.

Lemma bLeq_spec : forall m a b, bLeq m a b = true <->
  forall v, bitvec m v -> ev a v = true -> ev b v = true.
Proof.
  intros m a b. unfold bLeq. rewrite forallb_forall. split; intros H v Hv.
  - intros Ha. specialize (H v). rewrite all_vecs_spec in H. specialize (H Hv).
    rewrite Ha in H. exact H.
  - rewrite all_vecs_spec in Hv. specialize (H v Hv). destruct (ev a v); simpl; auto.
Qed.

Section Evals.
  Variables (m : nat) (v : vec).
  Hypothesis Hv : bitvec m v.
  Lemma ev_One : ev (bOne m) v = true.
  Proof. apply ev_mk; auto. Qed.
  Lemma ev_Zero : ev (bZero m) v = false.
  Proof. unfold bZero. rewrite ev_mk; auto. Qed.
  Lemma ev_Var : forall i, ev (bVar m i) v = (nth i v 0 =? 1).
  Proof. intros. unfold bVar. rewrite ev_mk; auto. Qed.
  Lemma ev_Not : forall a, ev (bNot m a) v = negb (ev a v).
  Proof. intros. unfold bNot. rewrite ev_mk; auto. Qed.
  Lemma ev_And : forall a b, ev (bAnd m a b) v = ev a v && ev b v.
  Proof. intros. unfold bAnd. rewrite ev_mk; auto. Qed.
  Lemma ev_Or : forall a b, ev (bOr m a b) v = ev a v || ev b v.
  Proof. intros. unfold bOr. rewrite ev_mk; auto. Qed.
  Lemma ev_Exist : forall c f, ev (bExist m c f) v =
    existsb (fun w => ev f (merge_q c v w)) (all_vecs m).
  Proof. intros. unfold bExist. rewrite ev_mk; auto. Qed.
  Lemma ev_Univ : forall c f, ev (bUniv m c f) v =
    forallb (fun w => ev f (merge_q c v w)) (all_vecs m).
  Proof. intros. unfold bUniv. rewrite ev_mk; auto. Qed.
  Lemma ev_Cof : forall c f, ev (bCof m c f) v = ev f (merge_q c v c).
  Proof. intros. unfold bCof. rewrite ev_mk; auto. Qed.
  Lemma ev_Swap : forall n f, ev (bSwap m n f) v = ev f (skipn n v ++ firstn n v).
  Proof. intros. unfold bSwap. rewrite ev_mk; auto. Qed.
End Evals.

Lemma bLeq_dbl : forall m a b, wf m a -> wf m b ->
  (bLeq m a b && bLeq m b a = true <-> a = b).
Proof.
  intros m a b Ha Hb. rewrite andb_true_iff, !bLeq_spec. split.
  - intros [H1 H2]. apply (dt_ext m); auto. intros v Hv. apply eq_true_iff_eq.
    split; auto.
  - intros ->. auto.
Qed.

(** merge_q on appended segments *)
Lemma merge_q_app : forall c1 c2 v1 v2 w1 w2,
  length c1 = length v1 -> length c1 = length w1 ->
  merge_q (c1 ++ c2) (v1 ++ v2) (w1 ++ w2) = merge_q c1 v1 w1 ++ merge_q c2 v2 w2.
Proof.
  induction c1; intros c2 v1 v2 w1 w2 Hv Hw; destruct v1, w1; simpl in *;
    try discriminate; auto.
  rewrite IHc1 by lia. reflexivity.
Qed.
Lemma merge_q_twos : forall n v w, length v = n -> length w = n ->
  merge_q (repeat 2 n) v w = v.
Proof.
  induction n; intros v w Hv Hw; destruct v, w; simpl in *; try discriminate; auto.
  rewrite IHn by lia. reflexivity.
Qed.
Lemma merge_q_ones : forall n v w, length v = n -> length w = n ->
  merge_q (repeat 1 n) v w = w.
Proof.
  induction n; intros v w Hv Hw; destruct v, w; simpl in *; try discriminate; auto.
  rewrite IHn by lia. reflexivity.
Qed.
Lemma merge_q_length : forall c v w, length (merge_q c v w) = length v.
Proof.
  induction c; intros v w; destruct v, w; simpl; auto.
Qed.
Lemma merge_q_bitvec : forall c v w n, bitvec n v -> bitvec n w -> bitvec n (merge_q c v w).
Proof.
  intros c v w n [Hv1 Hv2] [Hw1 Hw2]. split. rewrite merge_q_length; auto.
  clear Hv1 Hw1. revert c w Hw2. induction Hv2; intros c w Hw2; destruct c, w; simpl; auto.
  inversion Hw2; subst. constructor; auto. destruct (z =? 2); auto.
Qed.
