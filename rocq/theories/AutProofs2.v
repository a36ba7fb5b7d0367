(** Proofs about the lookups of the automaton list and forward_modereach (C28, C40). *)
From Coq Require Import List ZArith Lia Bool Arith.
From Verif Require Import Base Support SupportProofs Automaton AutProofs.
Import ListNotations.
Open Scope nat_scope.

(** ** Lookups *)
Definition matches (mode : Z) (state : vec) (x : anode) : bool :=
  (amode x =? mode)%Z && statecmp (astate x) state.
Lemma find_anode_find : forall A mode state, find_anode A mode state = find (matches mode state) A.
Proof.
  induction A as [|x A IH]; intros; simpl; auto. unfold matches at 1.
  destruct ((amode x =? mode)%Z && statecmp (astate x) state); auto.
Qed.
Lemma statecmp_eq : forall a b, length a = length b -> (statecmp a b = true <-> a = b).
Proof.
  induction a as [|x a IH]; intros [|y b] H; simpl in *; try discriminate; [tauto|].
  destruct (Z.eqb_spec x y) as [->|N].
  - rewrite IH by lia. split; [intros ->; auto|congruence].
  - split; [discriminate|congruence].
Qed.
Definition uniform (n : nat) (A : aut) : Prop := forall x, In x A -> length (astate x) = n.
Lemma matches_iff : forall n A x mode state, uniform n A -> In x A -> length state = n ->
  (matches mode state x = true <-> amode x = mode /\ astate x = state).
Proof.
  intros n A x mode state Hu Hx Hl. unfold matches. rewrite andb_true_iff, Z.eqb_eq.
  rewrite statecmp_eq; [tauto|]. rewrite (Hu x Hx). auto.
Qed.
Lemma find_first : forall {T} (f : T -> bool) l x, find f l = Some x <->
  exists l1 l2, l = l1 ++ x :: l2 /\ f x = true /\ forall y, In y l1 -> f y = false.
Proof.
  intros T f l x. induction l as [|y l IH]; simpl.
  - split; [discriminate|]. intros (l1 & l2 & H & _). destruct l1; discriminate.
  - destruct (f y) eqn:E; split.
    + intros H. inversion H; subst. exists [], l. repeat split; auto. intros ? [].
    + intros (l1 & l2 & H & Hf & Hn). destruct l1 as [|z l1]; simpl in H; inversion H; subst; auto.
      specialize (Hn z (or_introl eq_refl)). congruence.
    + intros H. apply IH in H. destruct H as (l1 & l2 & -> & Hf & Hn).
      exists (y :: l1), l2. repeat split; auto. intros z [<-|Hz]; auto.
    + intros (l1 & l2 & H & Hf & Hn). destruct l1 as [|z l1]; simpl in H; inversion H; subst; [congruence|].
      apply IH. exists l1, l2. repeat split; auto. intros w Hw. apply Hn. right; auto.
Qed.
Lemma find_spec : forall n A mode state, uniform n A -> length state = n ->
  (forall x, find_anode A mode state = Some x <->
     exists A1 A2, A = A1 ++ x :: A2 /\ amode x = mode /\ astate x = state /\
       forall y, In y A1 -> ~ (amode y = mode /\ astate y = state)) /\
  (find_anode A mode state = None <->
     forall y, In y A -> ~ (amode y = mode /\ astate y = state)).
Proof.
  intros n A mode state Hu Hl. rewrite find_anode_find. split.
  - intros x. rewrite find_first. split.
    + intros (l1 & l2 & E & Hf & Hn). exists l1, l2.
      assert (In x A) by (subst; apply in_or_app; right; left; auto).
      apply (matches_iff n A) in Hf; auto. destruct Hf. repeat split; auto.
      intros y Hy HH. apply (matches_iff n A) in HH; auto; [|subst; apply in_or_app; auto].
      rewrite Hn in HH; auto. discriminate.
    + intros (l1 & l2 & E & Hm & Hs & Hn). exists l1, l2.
      assert (In x A) by (subst; apply in_or_app; right; left; auto).
      repeat split; auto; [apply (matches_iff n A); auto|].
      intros y Hy. destruct (matches mode state y) eqn:Em; auto.
      apply (matches_iff n A) in Em; auto; [|subst; apply in_or_app; auto].
      destruct (Hn y Hy Em).
  - split.
    + intros H y Hy HH. apply (matches_iff n A) in HH; auto.
      rewrite (find_none _ _ H y Hy) in HH. discriminate.
    + intros H. destruct (find (matches mode state) A) as [y|] eqn:E; auto.
      apply find_some in E. destruct E as [E1 E2]. apply (matches_iff n A) in E2; auto.
      destruct (H y E1 E2).
Qed.

Lemma find_index_gen : forall A mode state c,
  (exists A1 x A2, A = A1 ++ x :: A2 /\ matches mode state x = true /\
     (forall y, In y A1 -> matches mode state y = false) /\
     find_index_from A mode state c = (c + Z.of_nat (length A1))%Z) \/
  ((forall y, In y A -> matches mode state y = false) /\ find_index_from A mode state c = -1)%Z.
Proof.
  induction A as [|x A IH]; intros mode state c; simpl; [right; split; [intros ? []|reflexivity]|].
  fold (matches mode state x). destruct (matches mode state x) eqn:E.
  - left. exists [], x, A. repeat split; auto; [intros ? []|simpl; lia].
  - destruct (IH mode state (c + 1)%Z) as [(A1 & y & A2 & -> & H1 & H2 & H3)|[H1 H2]].
    + left. exists (x :: A1), y, A2. repeat split; auto; [|simpl length; lia].
      intros z [<-|Hz]; auto.
    + right. split; auto. intros y [<-|Hy]; auto.
Qed.
(** [find_anode_index] and [find_anode] agree: the index is that of the node found *)
Lemma find_index_spec : forall A mode state,
  match find_anode A mode state with
  | Some x => exists k, find_anode_index A mode state = Z.of_nat k /\ nth_error A k = Some x /\
      forall j y, j < k -> nth_error A j = Some y -> matches mode state y = false
  | None => find_anode_index A mode state = (-1)%Z
  end.
Proof.
  intros A mode state. rewrite find_anode_find. unfold find_anode_index.
  destruct (find_index_gen A mode state 0) as [(A1 & x & A2 & E & H1 & H2 & H3)|[H1 H2]].
  - assert (Hf : find (matches mode state) A = Some x) by (apply find_first; exists A1, A2; auto).
    rewrite Hf. exists (length A1). split; [rewrite H3; lia|]. subst A. split.
    + rewrite nth_error_app2, Nat.sub_diag; auto.
    + intros j y Hj Hy. rewrite nth_error_app1 in Hy by auto. apply H2.
      eapply nth_error_In; eauto.
  - destruct (find (matches mode state) A) as [x|] eqn:E; auto.
    apply find_some in E. destruct E as [E1 E2]. rewrite H1 in E2; auto. discriminate.
Qed.
Lemma anode_index_gen : forall A a c,
  (exists A1 x A2, A = A1 ++ x :: A2 /\ aid x = a /\ (forall y, In y A1 -> aid y <> a) /\
     anode_index_from A a c = (c + Z.of_nat (length A1))%Z) \/
  ((forall y, In y A -> aid y <> a) /\ anode_index_from A a c = -1)%Z.
Proof.
  induction A as [|x A IH]; intros a c; simpl; [right; split; [intros ? []|reflexivity]|].
  destruct (Nat.eqb_spec (aid x) a) as [E|E].
  - left. exists [], x, A. split; [auto|split; [auto|split; [intros ? []|simpl; lia]]].
  - destruct (IH a (c + 1)%Z) as [(A1 & y & A2 & -> & H1 & H2 & H3)|[H1 H2]].
    + left. exists (x :: A1), y, A2. repeat split; auto; [|simpl length; lia].
      intros z [<-|Hz]; auto.
    + right. split; auto. intros y [<-|Hy]; auto.
Qed.
Lemma anode_index_spec : forall A a, NoDup (ids A) ->
  (forall k x, nth_error A k = Some x -> anode_index A (aid x) = Z.of_nat k) /\
  (~ In a (ids A) -> anode_index A a = (-1)%Z).
Proof.
  intros A a Hnd. unfold anode_index. split.
  - intros k x Hk. destruct (anode_index_gen A (aid x) 0) as [(A1 & y & A2 & E & H1 & H2 & H3)|[H1 H2]].
    + rewrite H3. simpl. f_equal.
      assert (Hy : nth_error A (length A1) = Some y).
      { subst A. rewrite nth_error_app2, Nat.sub_diag; auto. }
      apply (NoDup_nth_error (ids A)); auto.
      * unfold ids. rewrite map_length. apply nth_error_Some. congruence.
      * unfold ids. rewrite !nth_error_map, Hk, Hy. simpl. congruence.
    + exfalso. apply (H1 x); auto. eapply nth_error_In; eauto.
  - intros Ha. destruct (anode_index_gen A a 0) as [(A1 & y & A2 & E & H1 & _)|[_ H]]; auto.
    exfalso. apply Ha. subst. unfold ids. rewrite map_app. apply in_or_app. right. left. auto.
Qed.
Lemma aut_size_len : forall A, aut_size A = Z.of_nat (length A).
Proof.
  intros A. unfold aut_size. change (Z.of_nat (length A)) with (0 + Z.of_nat (length A))%Z.
  generalize 0%Z. induction A as [|x A IH]; intros z; simpl fold_left; simpl length; [lia|].
  rewrite IH. lia.
Qed.

(** ** forward_modereach *)
Section Reach.
Variables (mode magic : Z) (N : list vec).
Fixpoint fmr_loop (g : aut -> nat -> out aut) (trans : list nat) (A : aut) : out aut :=
  match trans with
  | [] => Ok A
  | t :: r =>
      match deref A t with
      | None => Crash
      | Some y =>
          if (amode y =? mode)%Z && existsb (statecmp (astate y)) N
          then A' <- g (store A t (set_mode magic)) t ;; fmr_loop g r A'
          else fmr_loop g r A
      end
  end.
Lemma fmr_unfold : forall f A node, forward_modereach (S f) A node mode N magic =
  match deref A node with
  | None => Crash
  | Some x => fmr_loop (fun A t => forward_modereach f A t mode N magic) (atrans x) A
  end.
Proof.
  intros f A node. cbn [forward_modereach]. destruct (deref A node) as [x|]; auto.
  generalize (atrans x) as l. intros l. revert A. induction l as [|t l IH]; intros A; auto.
  cbn [fmr_loop]. destruct (deref A t) as [y|]; auto.
  destruct ((amode y =? mode)%Z && existsb (statecmp (astate y)) N); auto.
  destruct (forward_modereach f (store A t (set_mode magic)) t mode N magic); cbn [bind]; auto.
Qed.

Variable A0 : aut.
Hypothesis Hnd : NoDup (ids A0).
Hypothesis Hc : closed A0.
Hypothesis Hmm : magic <> mode.

(** nodes of the automaton with the given mode and a state of [N] *)
Definition eligible (a : nat) : Prop :=
  exists x, In x A0 /\ aid x = a /\ amode x = mode /\ exists s, In s N /\ statecmp (astate x) s = true.
Definition elig (a : nat) : bool :=
  match deref A0 a with
  | Some y => (amode y =? mode)%Z && existsb (statecmp (astate y)) N
  | None => false
  end.
Lemma elig_iff : forall a, elig a = true <-> eligible a.
Proof.
  intros a. unfold elig, eligible. split.
  - destruct (deref A0 a) as [y|] eqn:E; [|discriminate]. intros H. apply andb_true_iff in H.
    destruct H as [H1 H2]. apply Z.eqb_eq in H1. apply existsb_exists in H2.
    apply deref_In in E. exists y. intuition.
  - intros (x & Hx & <- & Hm & s & Hs & Hcmp). rewrite deref_unique by auto.
    apply andb_true_iff. split; [apply Z.eqb_eq; auto|]. apply existsb_exists. eauto.
Qed.
(** nodes reachable in one or more steps through eligible nodes *)
Inductive mreach (n : nat) : nat -> Prop :=
| mr_one : forall b, edge A0 n b -> eligible b -> mreach n b
| mr_step : forall a b, mreach n a -> edge A0 a b -> eligible b -> mreach n b.

Definition mark (M : nat -> bool) : aut :=
  map (fun x => if M (aid x) then set_mode magic x else x) A0.
Lemma deref_map : forall f A a, (forall x, aid (f x) = aid x) ->
  deref (map f A) a = option_map f (deref A a).
Proof.
  intros f A a Hf. induction A as [|x A IH]; simpl; auto. unfold deref in *. simpl.
  rewrite Hf. destruct (aid x =? a); auto.
Qed.
Lemma deref_mark : forall M a,
  deref (mark M) a = option_map (fun x => if M (aid x) then set_mode magic x else x) (deref A0 a).
Proof. intros. apply deref_map. intros x. destruct (M (aid x)); auto. Qed.
Definition add (t : nat) (M : nat -> bool) (a : nat) : bool := (a =? t) || M a.
Lemma store_mark : forall M t, store (mark M) t (set_mode magic) = mark (add t M).
Proof.
  intros M t. unfold store, mark. rewrite map_map. apply map_ext. intros x. unfold add.
  destruct (M (aid x)) eqn:E; simpl; destruct (aid x =? t); simpl; auto.
Qed.
Lemma mark_test : forall M t y, deref (mark M) t = Some y ->
  ((amode y =? mode)%Z && existsb (statecmp (astate y)) N) = (elig t && negb (M t)).
Proof.
  intros M t y H. rewrite deref_mark in H. unfold elig. destruct (deref A0 t) as [x|] eqn:E; [|discriminate].
  apply deref_In in E. destruct E as [_ E]. simpl in H. rewrite E in H. destruct (M t); simpl.
  - inversion H; subst y. simpl. rewrite (proj2 (Z.eqb_neq magic mode)) by auto.
    rewrite andb_false_r. reflexivity.
  - inversion H; subst y. rewrite andb_true_r. reflexivity.
Qed.
Definition todo (M : nat -> bool) : nat := length (filter (fun a => elig a && negb (M a)) (ids A0)).
Lemma filter_mono_len : forall (f g : nat -> bool) l, (forall a, f a = true -> g a = true) ->
  length (filter f l) <= length (filter g l).
Proof.
  intros f g l H. induction l as [|a l IH]; simpl; auto.
  destruct (f a) eqn:E; [rewrite (H a E); simpl; lia|]. destruct (g a); simpl; lia.
Qed.
Lemma todo_add : forall M t, In t (ids A0) -> elig t = true -> M t = false -> todo (add t M) < todo M.
Proof.
  intros M t Hin He Hm. unfold todo. clear Hnd. induction (ids A0) as [|a l IH]; [destruct Hin|]. simpl.
  assert (Hmono : length (filter (fun a => elig a && negb (add t M a)) l) <=
                  length (filter (fun a => elig a && negb (M a)) l)).
  { apply filter_mono_len. intros b Hb. unfold add in Hb. destruct (elig b); simpl in *; auto.
    destruct (M b); auto. rewrite orb_true_r in Hb. discriminate. }
  destruct Hin as [->|Hin].
  - assert (Ha : add t M t = true) by (unfold add; rewrite Nat.eqb_refl; auto).
    rewrite Ha, He, Hm. simpl. lia.
  - specialize (IH Hin). destruct (elig a); simpl; auto. unfold add at 1.
    destruct (a =? t), (M a); simpl; try lia.
Qed.
Lemma todo_mono : forall M M', (forall a, M a = true -> M' a = true) -> todo M' <= todo M.
Proof.
  intros M M' H. apply filter_mono_len. intros a. destruct (elig a); simpl; auto.
  destruct (M a) eqn:E; simpl; auto. rewrite (H a E). auto.
Qed.

(** outcome of exploring from [n], starting with the marks [M] *)
Record explored (n : nat) (l : list nat) (M M' : nat -> bool) : Prop := {
  ex_mono : forall a, M a = true -> M' a = true;
  ex_succ : forall b, In b l -> elig b = true -> M' b = true;
  ex_new : forall a, M' a = true -> M a = false ->
    forall b, edge A0 a b -> elig b = true -> M' b = true;
  ex_only : forall a, M' a = true -> M a = true \/ mreach n a
}.
Lemma mreach_trans : forall n a b, mreach n a -> mreach a b -> mreach n b.
Proof. intros n a b H1 H2. induction H2; eapply mr_step; eauto. Qed.
Lemma fmr_correct : forall f M n x, todo M < f -> deref A0 n = Some x ->
  exists M', forward_modereach f (mark M) n mode N magic = Ok (mark M') /\ explored n (atrans x) M M'.
Proof.
  induction f; intros M n x Hf Hx; [lia|]. rewrite fmr_unfold, deref_mark, Hx. cbn [option_map].
  replace (atrans (if M (aid x) then set_mode magic x else x)) with (atrans x)
    by (destruct (M (aid x)); auto).
  apply deref_In in Hx. destruct Hx as [Hx Hxn].
  assert (Hl : forall t, In t (atrans x) -> In t (atrans x)) by auto. revert Hl.
  generalize (atrans x) at 1 3 4 as l. intros l. revert M Hf.
  induction l as [|t l IHl]; intros M Hf Hl.
  - exists M. split; [reflexivity|]. constructor; auto; try (intros; congruence).
  - cbn [fmr_loop].
    assert (Ht : In t (atrans x)) by (apply Hl; left; auto).
    assert (Hti : In t (ids A0)) by (eapply Hc; eauto).
    assert (Hedge : edge A0 n t) by (exists x; auto).
    destruct (deref_Some A0 t Hti) as (y & Hy).
    assert (Hd : exists y', deref (mark M) t = Some y') by (rewrite deref_mark, Hy; simpl; eauto).
    destruct Hd as (y' & Hd). rewrite Hd. rewrite (mark_test M t y' Hd).
    destruct (elig t) eqn:Et; [destruct (M t) eqn:Em|]; cbn [negb andb].
    + destruct (IHl M Hf) as (M' & H1 & [E1 E2 E3 E4]); [intros; apply Hl; right; auto|].
      exists M'. split; auto. constructor; auto. intros b [<-|Hb]; auto.
    + rewrite store_mark. pose proof (todo_add M t Hti Et Em) as Hlt.
      destruct (IHf (add t M) t y) as (M1 & H1 & [E1 E2 E3 E4]); auto; [lia|].
      rewrite H1. cbn [bind].
      assert (Hmono1 : forall a, M a = true -> M1 a = true).
      { intros a Ha. apply E1. unfold add. rewrite Ha. apply orb_true_r. }
      assert (Hm1t : M1 t = true) by (apply E1; unfold add; rewrite Nat.eqb_refl; auto).
      pose proof (todo_mono M M1 Hmono1) as Hle.
      destruct (IHl M1) as (M2 & H2 & [G1 G2 G3 G4]); [lia|intros; apply Hl; right; auto|].
      assert (Hnt : mreach n t) by (apply mr_one; auto; apply elig_iff; auto).
      exists M2. split; auto. constructor; auto.
      * intros b [<-|Hb] He; auto.
      * intros a Ha Hna b Hab Hb. destruct (M1 a) eqn:Ea; [|apply (G3 a); auto].
        apply G1. destruct (add t M a) eqn:Eadd; [|apply (E3 a); auto].
        unfold add in Eadd. rewrite Hna, orb_false_r in Eadd. apply Nat.eqb_eq in Eadd. subst a.
        apply E2; auto. destruct Hab as (z & Hz & Ez & Hzb).
        apply deref_In in Hy. destruct Hy as [Hy Ey].
        assert (z = y) by (apply (node_unique A0); auto; congruence). subst z. auto.
      * intros a Ha. destruct (G4 a Ha) as [H|H]; auto. destruct (E4 a H) as [H'|H'].
        -- unfold add in H'. apply orb_true_iff in H'. destruct H' as [H'|H']; auto.
           apply Nat.eqb_eq in H'. subst a. auto.
        -- right. eapply mreach_trans; eauto.
    + destruct (IHl M Hf) as (M' & H1 & [E1 E2 E3 E4]); [intros; apply Hl; right; auto|].
      exists M'. split; auto. constructor; auto. intros b [<-|Hb]; auto. congruence.
Qed.
Lemma modereach_exact : forall n fuel, In n (ids A0) -> length A0 < fuel ->
  exists M, forward_modereach fuel A0 n mode N magic = Ok (mark M) /\
    forall a, M a = true <-> mreach n a.
Proof.
  intros n fuel Hn Hf. destruct (deref_Some A0 n Hn) as (x & Hx).
  assert (Hmk : mark (fun _ => false) = A0).
  { unfold mark. rewrite map_id. reflexivity. }
  destruct (fmr_correct fuel (fun _ => false) n x) as (M & H1 & [E1 E2 E3 E4]); auto.
  { unfold todo. pose proof (filter_length_le _ (fun a => elig a && negb false) (ids A0)) as H.
    unfold ids in H at 2. rewrite map_length in H. lia. }
  rewrite Hmk in H1. exists M. split; auto. intros a. split.
  - intros Ha. destruct (E4 a Ha); auto. discriminate.
  - intros Ha. induction Ha as [b Hb He|b c Hb IH Hbc He].
    + apply elig_iff in He. apply E2; auto. destruct Hb as (z & Hz & Ez & Hzb).
      apply deref_In in Hx. destruct Hx as [Hx Ex].
      assert (z = x) by (apply (node_unique A0); auto; congruence). subst z. auto.
    + apply elig_iff in He. eapply E3; eauto.
Qed.
End Reach.

(** with the magic mode equal to the mode, a self loop is followed for ever *)
Lemma modereach_diverges : forall fuel, forward_modereach fuel [Node 0 true [0%Z] 0 0 [0]] 0 0 [[0%Z]] 0 = Fuel.
Proof.
  induction fuel; [reflexivity|]. rewrite fmr_unfold.
  change (bind (forward_modereach fuel [Node 0 true [0%Z] 0 0 [0]] 0 0 [[0%Z]] 0)
            (fun A' => Ok A') = Fuel).
  rewrite IHfuel. reflexivity.
Qed.
Lemma modereach_diverges_ex : exists A n mode N, NoDup (ids A) /\ closed A /\ In n (ids A) /\
  forall fuel, forward_modereach fuel A n mode N mode = Fuel.
Proof.
  exists [Node 0 true [0%Z] 0 0 [0]], 0, 0%Z, [[0%Z]].
  split; [repeat constructor; simpl; auto|]. split.
  - intros x t [<-|[]] [<-|[]]. left; auto.
  - split; [left; auto|]. exact modereach_diverges.
Qed.

(** ** Statements used in PAut.v *)
Lemma forward_prune_spec : forall A U fuel, length A < fuel -> NoDup (ids A) -> closed A ->
  (forall a, In (Some a) U -> In a (ids A)) ->
  exists A' (keep : nat -> bool), forward_prune fuel A U = Ok A' /\
    A' = filter (fun x => keep (aid x)) A /\
    closed A' /\
    (forall x, In x A -> keep (aid x) = false -> ainit x = false) /\
    (forall a, In a (ids A) -> keep a = false ->
       exists u, In (Some u) U /\ In u (ids A) /\ reach A u a) /\
    (forall a, In a (ids A') ->
       (In (Some a) U \/ exists d, In d (ids A) /\ keep d = false /\ edge A d a) ->
       (exists x, In x A' /\ aid x = a /\ ainit x = true) \/ exists b, edge A' b a).
Proof.
  intros A U fuel Hf Hnd Hc HU. destruct (forward_prune_ok A U fuel Hf Hnd Hc HU) as (A' & k & H & [F1 F2 F3 F4 F5]).
  exists A', k. repeat split; auto.
Qed.
Lemma forward_prune_reachable : forall A U fuel A', NoDup (ids A) -> closed A ->
  (forall a, In (Some a) U -> In a (ids A)) -> length A < fuel ->
  forward_prune fuel A U = Ok A' ->
  forall x y, In x A -> In y A -> (ainit x = true \/ In x A') ->
    reach A (aid x) (aid y) -> In y A'.
Proof.
  intros A U fuel A' Hnd Hc HU Hf HA x y Hx Hy Hor Hr.
  destruct (forward_prune_ok A U fuel Hf Hnd Hc HU) as (A2 & k & H & [F1 F2 F3 F4 F5]).
  assert (E : A2 = A') by congruence. rewrite E in F1, F2, F5. clear H E.
  assert (Hin : forall z, In z A -> (In z A' <-> k (aid z) = true)).
  { intros z Hz. rewrite F1. unfold sub. rewrite filter_In. tauto. }
  assert (Hkx : k (aid x) = true).
  { destruct Hor as [Hi|Hi]; [|apply Hin; auto]. destruct (k (aid x)) eqn:E; auto.
    rewrite (F3 x Hx E) in Hi. discriminate. }
  assert (Hreach : forall b, reach A (aid x) b -> k b = true).
  { intros b Hb. remember (aid x) as a0 eqn:E0. induction Hb as [a|a b c Hab IH Hbc]; [subst; auto|].
    specialize (IH E0 Hr Hkx). destruct Hbc as (z & Hz & Ez & Hzc).
    assert (Hz' : In z A') by (apply Hin; auto; rewrite Ez; auto).
    pose proof (F2 z c Hz' Hzc) as Hci. rewrite F1, sub_ids in Hci. apply filter_In in Hci. tauto. }
  apply Hin; auto.
Qed.
Lemma find_index_ok : forall n A mode state,
  uniform n A -> length state = n ->
  (exists k x, find_anode_index A mode state = Z.of_nat k /\ nth_error A k = Some x /\
     amode x = mode /\ astate x = state /\
     forall j y, j < k -> nth_error A j = Some y -> ~ (amode y = mode /\ astate y = state)) \/
  (find_anode_index A mode state = (-1)%Z /\
     forall y, In y A -> ~ (amode y = mode /\ astate y = state)).
Proof.
  intros n A mode state Hu Hl. pose proof (find_index_spec A mode state) as H.
  destruct (find_anode A mode state) as [x|] eqn:E.
  - left. destruct H as (k & H1 & H2 & H3). exists k, x. split; auto. split; auto.
    rewrite find_anode_find in E. apply find_some in E. destruct E as [E1 E2].
    apply (matches_iff n A) in E2; auto. destruct E2. repeat split; auto.
    intros j y Hj Hy HH. apply (matches_iff n A) in HH; auto; [|eapply nth_error_In; eauto].
    rewrite (H3 j y Hj Hy) in HH. discriminate.
  - right. split; auto. apply (find_spec n); auto.
Qed.
Lemma delete_spec : forall A t, NoDup (ids A) ->
  (forall A1 x A2, A = A1 ++ x :: A2 -> delete_anode A (Some (aid x)) = A1 ++ A2) /\
  (~ In t (ids A) -> delete_anode A (Some t) = []).
Proof.
  intros A t Hnd. split; [|apply delete_absent; auto]. intros A1 x A2 E.
  rewrite delete_ok; auto; [|subst; unfold ids; rewrite map_app; apply in_or_app; right; left; auto].
  subst A. unfold ids in Hnd. rewrite map_app in Hnd. simpl in Hnd.
  apply NoDup_remove_2 in Hnd.
  assert (Hf : forall l, ~ In (aid x) (map aid l) -> filter (fun x0 => negb (aid x0 =? aid x)) l = l).
  { induction l as [|y l IH]; intros Hl; simpl; auto. simpl in Hl.
    destruct (Nat.eqb_spec (aid y) (aid x)) as [e|e]; simpl; [tauto|]. rewrite IH; auto. }
  rewrite filter_app. simpl. rewrite Nat.eqb_refl. simpl.
  rewrite !Hf; auto; intros Hi; apply Hnd, in_or_app; auto.
Qed.
Lemma replace_spec : forall A old,
  (forall new, replace_anode_trans A old (Some new) =
     map (fun x => set_trans (map (fun t => if t =? old then new else t) (atrans x)) x) A) /\
  replace_anode_trans A old None =
     map (fun x => set_trans (filter (fun t => negb (t =? old)) (atrans x)) x) A.
Proof.
  intros A old. split; intros; unfold replace_anode_trans; apply map_ext; intros x.
  - rewrite replace_some. reflexivity.
  - rewrite replace_none. reflexivity.
Qed.
Lemma store_split : forall A1 x A2 f, NoDup (ids (A1 ++ x :: A2)) ->
  store (A1 ++ x :: A2) (aid x) f = A1 ++ f x :: A2.
Proof.
  intros A1 x A2 f Hnd. unfold ids in Hnd. rewrite map_app in Hnd. simpl in Hnd.
  apply NoDup_remove_2 in Hnd.
  assert (Hf : forall l, ~ In (aid x) (map aid l) ->
     map (fun y => if aid y =? aid x then f y else y) l = l).
  { induction l as [|y l IH]; intros Hl; simpl; auto. simpl in Hl.
    destruct (Nat.eqb_spec (aid y) (aid x)) as [e|e]; [tauto|]. rewrite IH; auto. }
  unfold store. rewrite map_app. simpl. rewrite Nat.eqb_refl.
  rewrite !Hf; auto; intros Hi; apply Hnd, in_or_app; auto.
Qed.
Lemma append_spec : forall A mode state mode' state', NoDup (ids A) ->
  (find_anode A mode state = None ->
     append_anode_trans A mode state mode' state' = Crash) /\
  (forall x, find_anode A mode state = Some x -> find_anode A mode' state' = None ->
     append_anode_trans A mode state mode' state' = Ok (A, false)) /\
  (forall x y, find_anode A mode state = Some x -> find_anode A mode' state' = Some y ->
     exists A1 A2, A = A1 ++ x :: A2 /\
       append_anode_trans A mode state mode' state' =
       Ok (A1 ++ set_trans (atrans x ++ [aid y]) x :: A2, true)).
Proof.
  intros A mode state mode' state' Hnd. unfold append_anode_trans. split; [|split].
  - intros ->. reflexivity.
  - intros x -> ->. reflexivity.
  - intros x y Hx Hy. rewrite Hx, Hy. rewrite find_anode_find in Hx. apply find_some in Hx.
    destruct Hx as [Hx _]. apply in_split in Hx. destruct Hx as (A1 & A2 & E). exists A1, A2.
    split; auto. subst A. rewrite store_split; auto.
Qed.
Lemma statecmp_refl : forall s, statecmp s s = true.
Proof. induction s as [|x s IH]; simpl; auto. rewrite Z.eqb_refl. auto. Qed.
Lemma insert_pop_size : forall A new mode rgrad initial state,
  pop_anode (insert_anode A new mode rgrad initial state) = Ok A /\
  find_anode (insert_anode A new mode rgrad initial state) mode state =
    Some (Node new initial state mode rgrad []) /\
  aut_size A = Z.of_nat (length A) /\
  aut_size (insert_anode A new mode rgrad initial state) = (aut_size A + 1)%Z.
Proof.
  intros. split; [reflexivity|]. split; [|split].
  - simpl. rewrite Z.eqb_refl, statecmp_refl. reflexivity.
  - apply aut_size_len.
  - rewrite !aut_size_len. simpl length. lia.
Qed.
