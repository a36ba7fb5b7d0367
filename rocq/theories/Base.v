(** Shared definitions: state vectors, bit vectors, loop combinator.

    A C array [vartype *state] (include/common.h:27, [typedef int vartype])
    passed together with its length is modelled by a [list Z] of that length. *)
From Coq Require Import List ZArith Lia Bool Arith.
Import ListNotations.
Open Scope Z_scope.

Definition vec := list Z.

Definition isbit (x : Z) : Prop := x = 0 \/ x = 1.
Definition isbitb (x : Z) : bool := (x =? 0) || (x =? 1).

(** [bitvec n v]: [v] is a valuation of [n] Boolean variables. *)
Definition bitvec (n : nat) (v : vec) : Prop := length v = n /\ Forall isbit v.

(** All valuations of [n] Boolean variables. *)
Fixpoint all_vecs (n : nat) : list vec :=
  match n with
  | O => [[]]
  | S k => map (cons 0) (all_vecs k) ++ map (cons 1) (all_vecs k)
  end.

Definition vec_eqb (a b : vec) : bool :=
  if list_eq_dec Z.eq_dec a b then true else false.

Definition zeros (n : nat) : vec := repeat 0 n.

(** Result of running a piece of C code: a value, undefined behaviour (NULL
    dereference, out-of-bounds access), or a loop bound that was too small. *)
Inductive out (A : Type) := Ok (a : A) | Crash | Fuel.
Arguments Ok {A}. Arguments Crash {A}. Arguments Fuel {A}.

Definition bind {A B} (x : out A) (f : A -> out B) : out B :=
  match x with Ok a => f a | Crash => Crash | Fuel => Fuel end.
Notation "x <- e ;; k" := (bind e (fun x => k))
  (at level 61, e at next level, right associativity).

(** The C loop [do { prev = x; x = step(prev); } while (!same(x, prev));],
    with an explicit bound on the number of iterations. *)
Fixpoint do_until {A} (fuel : nat) (same : A -> A -> bool) (step : A -> out A)
    (x : A) : out A :=
  match fuel with
  | O => Fuel
  | S f => x' <- step x ;;
           if same x' x then Ok x' else do_until f same step x'
  end.

Fixpoint iter {A} (k : nat) (f : A -> A) (x : A) : A :=
  match k with O => x | S k' => f (iter k' f x) end.

(** ** Lemmas *)

Lemma isbitb_spec : forall x, isbitb x = true <-> isbit x.
Proof.
  intros x. unfold isbitb, isbit. rewrite orb_true_iff, !Z.eqb_eq. tauto.
Qed.

Lemma vec_eqb_eq : forall a b, vec_eqb a b = true <-> a = b.
Proof.
  intros. unfold vec_eqb. destruct (list_eq_dec Z.eq_dec a b); split; congruence.
Qed.

Lemma vec_eqb_refl : forall a, vec_eqb a a = true.
Proof. intros. apply vec_eqb_eq. reflexivity. Qed.

Lemma bitvec_nil : bitvec 0 [].
Proof. split; auto. Qed.

Lemma bitvec_cons : forall n x v, isbit x -> bitvec n v -> bitvec (S n) (x :: v).
Proof. intros n x v Hx [Hl Hf]. split; simpl; auto. Qed.

Lemma bitvec_inv : forall n v, bitvec (S n) v ->
  exists x w, v = x :: w /\ isbit x /\ bitvec n w.
Proof.
  intros n v [Hl Hf]. destruct v as [|x w]; simpl in Hl; [discriminate|].
  inversion Hf; subst. exists x, w. repeat split; auto.
Qed.

Lemma bitvec_app : forall n m u v, bitvec n u -> bitvec m v -> bitvec (n + m) (u ++ v).
Proof.
  intros n m u v [Hl Hf] [Hl' Hf']. split.
  - rewrite app_length. lia.
  - apply Forall_app; auto.
Qed.

Lemma bitvec_app_inv : forall n m u v, length u = n -> bitvec (n + m) (u ++ v) ->
  bitvec n u /\ bitvec m v.
Proof.
  intros n m u v Hl [H1 H2]. rewrite app_length in H1. apply Forall_app in H2.
  destruct H2. split; split; auto; lia.
Qed.

Lemma bitvec_firstn : forall n m v, bitvec (n + m) v -> bitvec n (firstn n v).
Proof.
  intros n m v [Hl Hf]. split.
  - rewrite firstn_length. lia.
  - rewrite <- (firstn_skipn n v) in Hf. apply Forall_app in Hf. tauto.
Qed.

Lemma bitvec_skipn : forall n m v, bitvec (n + m) v -> bitvec m (skipn n v).
Proof.
  intros n m v [Hl Hf]. split.
  - rewrite skipn_length. lia.
  - rewrite <- (firstn_skipn n v) in Hf. apply Forall_app in Hf. tauto.
Qed.

Lemma bitvec_zeros : forall n, bitvec n (zeros n).
Proof.
  intros n. split. apply repeat_length.
  apply Forall_forall. intros x Hx. apply repeat_spec in Hx. left; auto.
Qed.

Lemma all_vecs_spec : forall n v, In v (all_vecs n) <-> bitvec n v.
Proof.
  induction n; intros v; simpl.
  - split.
    + intros [<-|[]]. apply bitvec_nil.
    + intros [Hl _]. destruct v; auto; discriminate.
  - rewrite in_app_iff, !in_map_iff. split.
    + intros [(w & <- & Hw)|(w & <- & Hw)]; apply IHn in Hw;
        apply bitvec_cons; auto; [left|right]; auto.
    + intros H. apply bitvec_inv in H. destruct H as (x & w & -> & [-> | ->] & Hw);
        apply IHn in Hw; [left|right]; exists w; auto.
Qed.

Lemma NoDup_map_cons : forall (x : Z) l, NoDup l -> NoDup (map (cons x) l).
Proof.
  intros x l H. induction H; simpl; constructor; auto.
  rewrite in_map_iff. intros (w & Hw & Hin). inversion Hw; subst. auto.
Qed.

Lemma NoDup_app : forall {A} (l1 l2 : list A), NoDup l1 -> NoDup l2 ->
  (forall x, In x l1 -> In x l2 -> False) -> NoDup (l1 ++ l2).
Proof.
  intros A l1 l2 H1 H2 Hd. induction H1; simpl; auto.
  constructor.
  - rewrite in_app_iff. intros [Hin|Hin]; auto. apply (Hd x); simpl; auto.
  - apply IHNoDup. intros y Hy Hy'. apply (Hd y); simpl; auto.
Qed.

Lemma all_vecs_NoDup : forall n, NoDup (all_vecs n).
Proof.
  induction n; simpl.
  - repeat constructor. intros [].
  - apply NoDup_app; try (apply NoDup_map_cons; auto).
    intros x H1 H2. apply in_map_iff in H1. apply in_map_iff in H2.
    destruct H1 as (? & <- & _). destruct H2 as (? & H & _). discriminate.
Qed.

Lemma all_vecs_length : forall n, length (all_vecs n) = (2 ^ n)%nat.
Proof.
  induction n; simpl; auto. rewrite app_length, !map_length.
  unfold vec in *. rewrite IHn. lia.
Qed.

Lemma iter_succ_r : forall A k (f : A -> A) x, iter (S k) f x = iter k f (f x).
Proof. induction k; simpl; intros; auto. rewrite <- IHk. reflexivity. Qed.

(** Whatever [do_until] returns is a step at which [same] fired. *)
Lemma do_until_spec : forall A same (step : A -> out A) (I : A -> Prop),
  (forall x x', I x -> step x = Ok x' -> I x') ->
  forall fuel x r, I x -> do_until fuel same step x = Ok r ->
  exists y, I y /\ step y = Ok r /\ same r y = true.
Proof.
  intros A same step I HI. induction fuel; simpl; intros x r Hx H; [discriminate|].
  destruct (step x) as [x'| |] eqn:Es; simpl in H; try discriminate.
  destruct (same x' x) eqn:Em.
  - inversion H; subst. exists x. auto.
  - eapply IHfuel; [|exact H]. eauto.
Qed.

Lemma do_until_terminates : forall A same (step : A -> out A) (I : A -> Prop)
    (mu : A -> nat),
  (forall x, I x -> exists x', step x = Ok x' /\ I x' /\
     (same x' x = false -> (mu x' < mu x)%nat)) ->
  forall fuel x, I x -> (mu x < fuel)%nat ->
  exists r, do_until fuel same step x = Ok r.
Proof.
  intros A same step I mu HI. induction fuel; intros x Hx Hf; [lia|].
  simpl. destruct (HI x Hx) as (x' & Hs & HI' & Hd). rewrite Hs. simpl.
  destruct (same x' x) eqn:Em; eauto. apply IHfuel; auto.
  specialize (Hd eq_refl). lia.
Qed.

Lemma do_until_mono : forall A same (step step' : A -> out A),
  (forall x x', step x = Ok x' -> step' x = Ok x') ->
  forall fuel x r, do_until fuel same step x = Ok r ->
  forall fuel', (fuel <= fuel')%nat -> do_until fuel' same step' x = Ok r.
Proof.
  intros A same step step' Hst. induction fuel; simpl; intros x r H fuel' Hle; [discriminate|].
  destruct fuel' as [|f']; [lia|]. simpl.
  destruct (step x) as [x'| |] eqn:Es; simpl in H; try discriminate.
  rewrite (Hst _ _ Es). simpl. destruct (same x' x); auto.
  apply IHfuel; auto. lia.
Qed.

Lemma bind_ok : forall A B (x : out A) (f : A -> out B) r,
  bind x f = Ok r -> exists a, x = Ok a /\ f a = Ok r.
Proof. intros A B [a| |] f r H; simpl in H; try discriminate. eauto. Qed.
