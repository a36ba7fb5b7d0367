(** Proofs about cube enumeration and environment moves (solve_support.c). *)
From Coq Require Import List ZArith Lia Bool Arith.
From Verif Require Import Base Bdd Support SupportProofs.
Import ListNotations.
Open Scope Z_scope.

(** Specification: [v] completes the cube [g]. *)
Definition completes (g : list Z) (v : vec) : Prop :=
  Forall2 (fun c x => (c = 2 /\ isbit x) \/ (c <> 2 /\ x = c)) g v.

Fixpoint completions (g : list Z) : list vec :=
  match g with
  | [] => [[]]
  | c :: g' => if c =? 2 then map (cons 0) (completions g') ++ map (cons 1) (completions g')
               else map (cons c) (completions g')
  end.

Lemma completions_spec : forall g v, In v (completions g) <-> completes g v.
Proof.
  induction g as [|c g IH]; intros v; simpl.
  - split. intros [<-|[]]. constructor. intros H. inversion H. auto.
  - destruct (c =? 2) eqn:Ec.
    + apply Z.eqb_eq in Ec. subst c. rewrite in_app_iff, !in_map_iff. split.
      * intros [(w & <- & Hw)|(w & <- & Hw)]; apply IH in Hw; constructor; auto;
          left; unfold isbit; auto.
      * intros H. inversion H; subst. apply IH in H4.
        destruct H2 as [[_ [-> | ->]]|[Hn _]]; [left|right|lia]; eauto.
    + apply Z.eqb_neq in Ec. rewrite in_map_iff. split.
      * intros (w & <- & Hw). apply IH in Hw. constructor; auto.
      * intros H. inversion H; subst. apply IH in H4.
        destruct H2 as [[Hn _]|[_ ->]]; [lia|]. eauto.
Qed.
Lemma completions_NoDup : forall g, NoDup (completions g).
Proof.
  induction g as [|c g IH]; simpl.
  - repeat constructor. intros [].
  - destruct (c =? 2); [|apply NoDup_map_cons; auto].
    apply NoDup_app; try (apply NoDup_map_cons; auto).
    intros x H1 H2. apply in_map_iff in H1. apply in_map_iff in H2.
    destruct H1 as (a & <- & _). destruct H2 as (b & Hb & _). discriminate.
Qed.
Lemma completions_length : forall g, (length (completions g) <= 2 ^ length g)%nat.
Proof.
  induction g as [|c g IH]; simpl; auto.
  destruct (c =? 2); rewrite ?app_length, !map_length; unfold vec in *; lia.
Qed.

(** increment as a recursive function returning the carry *)
Fixpoint inc (c g : list Z) : vec * bool :=
  match c, g with
  | x :: c', y :: g' =>
      let (r, carry) := inc c' g' in
      if carry then
        if y =? 2 then if x + 1 >? 1 then (0 :: r, true) else (x + 1 :: r, false)
        else (x :: r, true)
      else (x :: r, false)
  | _, _ => (c, true)
  end.

Lemma inc_snoc : forall c g x y, length c = length g ->
  inc (c ++ [x]) (g ++ [y]) =
  if y =? 2 then
    if x + 1 >? 1 then (fst (inc c g) ++ [0], snd (inc c g)) else (c ++ [x + 1], false)
  else (fst (inc c g) ++ [x], snd (inc c g)).
Proof.
  induction c as [|a c IH]; intros g x y H; destruct g as [|b g]; simpl in *; try discriminate.
  - destruct (y =? 2); auto.
  - rewrite IH by lia. destruct (inc c g) as [r k]. simpl.
    destruct (y =? 2); [destruct (x + 1 >? 1)|]; destruct k; auto;
      destruct (b =? 2); auto; destruct (a + 1 >? 1); auto.
Qed.

Lemma increment_loop_inc : forall c g r r', length c = length g ->
  increment_loop (length g) (c ++ r) (g ++ r') = fst (inc c g) ++ r.
Proof.
  intros c. induction c as [|x c IH] using rev_ind; intros g r r' H.
  - destruct g; [reflexivity|discriminate].
  - destruct g as [|y g _] using rev_ind.
    { rewrite app_length in H. simpl in H. lia. }
    rewrite !app_length in H. simpl in H. assert (H' : length c = length g) by lia.
    rewrite app_length. simpl length. rewrite Nat.add_1_r. simpl.
    rewrite <- !app_assoc. simpl.
    rewrite (app_nth2 g) by lia. rewrite Nat.sub_diag. simpl.
    rewrite <- H'. rewrite (app_nth2 c) by lia. rewrite Nat.sub_diag. simpl.
    rewrite inc_snoc by auto. destruct (y =? 2).
    + destruct (x + 1 >? 1).
      * rewrite upd_app. rewrite H'. rewrite IH by auto. simpl.
        rewrite <- app_assoc. reflexivity.
      * rewrite upd_app. simpl. rewrite <- app_assoc. reflexivity.
    + rewrite H'. rewrite IH by auto. simpl. rewrite <- app_assoc. reflexivity.
Qed.
Lemma increment_inc : forall c g, length c = length g -> increment_cube c g = fst (inc c g).
Proof.
  intros c g H. unfold increment_cube.
  pose proof (increment_loop_inc c g [] [] H) as E. rewrite !app_nil_r in E. exact E.
Qed.

(** the vectors visited starting from [c] *)
Inductive visits (g : list Z) : vec -> list vec -> Prop :=
| v_last : forall c, saturated_cube c g = true -> visits g c [c]
| v_next : forall c l, saturated_cube c g = false ->
    visits g (increment_cube c g) l -> visits g c (c :: l).

Lemma enum_loop_visits : forall g c l, visits g c l -> forall fuel,
  (length l <= fuel)%nat -> enum_loop fuel c g = Ok l.
Proof.
  intros g c l H. induction H as [c H|c l H Hv IH]; intros fuel Hf; simpl in Hf;
    (destruct fuel as [|f]; [lia|]); simpl; rewrite H; auto.
  rewrite IH by lia. reflexivity.
Qed.
Lemma enum_loop_fun : forall g c l fuel r, visits g c l ->
  enum_loop fuel c g = Ok r -> r = l.
Proof.
  intros g c l fuel r H. revert fuel r. induction H as [c H|c l H Hv IH];
    intros fuel r Hr; (destruct fuel as [|f]; [discriminate|]); simpl in Hr; rewrite H in Hr.
  - congruence.
  - destruct (enum_loop f (increment_cube c g) g) eqn:E; simpl in Hr; try discriminate.
    inversion Hr. f_equal. eapply IH; eauto.
Qed.

Lemma sat_inc : forall c g, completes g c ->
  (saturated_cube c g = true <-> snd (inc c g) = true).
Proof.
  intros c g H. unfold completes in H.
  induction H as [|y x g c Hxy H IH]; simpl; [tauto|].
  destruct (inc c g) as [r k] eqn:Ei. simpl in IH.
  destruct Hxy as [[-> [-> | ->]]|[Hn ->]]; simpl.
  - destruct k; simpl; split; intros; discriminate.
  - destruct k; simpl; tauto.
  - rewrite (proj2 (Z.eqb_neq _ _) Hn). simpl. destruct k; simpl; tauto.
Qed.
Lemma inc_wrap : forall c g, completes g c -> snd (inc c g) = true ->
  fst (inc c g) = initialize_cube g.
Proof.
  intros c g H. unfold completes in H.
  induction H as [|y x g c Hxy H IH]; simpl; auto.
  destruct (inc c g) as [r k] eqn:Ei. simpl in IH.
  destruct k; [|simpl; discriminate]. rewrite IH by auto.
  destruct Hxy as [[-> [-> | ->]]|[Hn ->]]; simpl; auto; try discriminate.
  rewrite (proj2 (Z.eqb_neq _ _) Hn). reflexivity.
Qed.
Lemma completes_length : forall g c, completes g c -> length c = length g.
Proof. intros g c H. unfold completes in H. induction H; simpl; auto. Qed.
Lemma completes_inc : forall g c, completes g c -> completes g (fst (inc c g)).
Proof.
  intros g c H. unfold completes in *. induction H as [|y x g c Hxy H IH]; simpl.
  - constructor.
  - destruct (inc c g) as [r k]. simpl in IH. destruct k.
    + destruct Hxy as [[-> [-> | ->]]|[Hn ->]]; simpl.
      * constructor; auto. left. unfold isbit; auto.
      * constructor; auto. left. unfold isbit; auto.
      * rewrite (proj2 (Z.eqb_neq _ _) Hn). constructor; auto.
    + simpl. constructor; auto.
Qed.
Lemma completes_init : forall g, completes g (initialize_cube g).
Proof.
  induction g as [|y g IH]; simpl; constructor; auto.
  destruct (y =? 2) eqn:E.
  - apply Z.eqb_eq in E. left. unfold isbit; auto.
  - apply Z.eqb_neq in E. auto.
Qed.

Lemma visits_const : forall y g c l, y <> 2 -> completes g c -> visits g c l ->
  visits (y :: g) (y :: c) (map (cons y) l).
Proof.
  intros y g c l Hy Hc H. induction H as [c H|c l H Hv IH]; simpl.
  - apply v_last. simpl. rewrite (proj2 (Z.eqb_neq _ _) Hy). auto.
  - apply v_next.
    + simpl. rewrite (proj2 (Z.eqb_neq _ _) Hy). auto.
    + assert (Hl := completes_length _ _ Hc).
      rewrite increment_inc by (simpl; lia). rewrite increment_inc in IH by auto.
      assert (Hs : snd (inc c g) = false).
      { destruct (snd (inc c g)) eqn:E; auto. apply (sat_inc c g Hc) in E. congruence. }
      simpl. destruct (inc c g) as [r k] eqn:Ei. simpl in Hs, IH. subst k. simpl.
      apply IH. pose proof (completes_inc _ _ Hc) as Hci. rewrite Ei in Hci. exact Hci.
Qed.
Lemma visits_one : forall g c l, completes g c -> visits g c l ->
  visits (2 :: g) (1 :: c) (map (cons 1) l).
Proof.
  intros g c l Hc H. induction H as [c H|c l H Hv IH]; simpl.
  - apply v_last. simpl. auto.
  - apply v_next.
    + simpl. auto.
    + assert (Hl := completes_length _ _ Hc).
      rewrite increment_inc by (simpl; lia). rewrite increment_inc in IH by auto.
      assert (Hs : snd (inc c g) = false).
      { destruct (snd (inc c g)) eqn:E; auto. apply (sat_inc c g Hc) in E. congruence. }
      simpl. destruct (inc c g) as [r k] eqn:Ei. simpl in Hs, IH. subst k. simpl.
      apply IH. pose proof (completes_inc _ _ Hc) as Hci. rewrite Ei in Hci. exact Hci.
Qed.
Lemma visits_zero : forall g c l, completes g c -> visits g c l ->
  visits g (initialize_cube g) (completions g) ->
  visits (2 :: g) (0 :: c) (map (cons 0) l ++ map (cons 1) (completions g)).
Proof.
  intros g c l Hc H Hall. induction H as [c H|c l H Hv IH]; simpl.
  - apply v_next; [simpl; auto|].
    assert (Hl := completes_length _ _ Hc).
    rewrite increment_inc by (simpl; lia). simpl.
    assert (Hs := proj1 (sat_inc c g Hc) H).
    pose proof (inc_wrap c g Hc Hs) as Hw.
    destruct (inc c g) as [r k] eqn:Ei. simpl in Hs, Hw. subst k r. simpl.
    apply visits_one; auto. apply completes_init.
  - apply v_next; [simpl; auto|].
    assert (Hl := completes_length _ _ Hc).
    rewrite increment_inc by (simpl; lia). rewrite increment_inc in IH by auto.
    assert (Hs : snd (inc c g) = false).
    { destruct (snd (inc c g)) eqn:E; auto. apply (sat_inc c g Hc) in E. congruence. }
    simpl. destruct (inc c g) as [r k] eqn:Ei. simpl in Hs, IH. subst k. simpl.
    apply IH. pose proof (completes_inc _ _ Hc) as Hci. rewrite Ei in Hci. exact Hci.
Qed.

Lemma visits_all : forall g, visits g (initialize_cube g) (completions g).
Proof.
  induction g as [|y g IH]; simpl.
  - apply v_last. reflexivity.
  - destruct (y =? 2) eqn:E.
    + apply Z.eqb_eq in E. subst y. apply visits_zero; auto using completes_init.
    + apply Z.eqb_neq in E. apply visits_const; auto using completes_init.
Qed.

Lemma enum_cube_ok : forall g fuel, (2 ^ length g <= fuel)%nat ->
  enum_cube fuel g = Ok (completions g).
Proof.
  intros g fuel H. apply enum_loop_visits. apply visits_all.
  pose proof (completions_length g). lia.
Qed.
Lemma enum_cube_any : forall g fuel r, enum_cube fuel g = Ok r -> r = completions g.
Proof. intros g fuel r H. eapply enum_loop_fun; eauto. apply visits_all. Qed.
Lemma enum_loop_nocrash : forall fuel c g, enum_loop fuel c g <> Crash.
Proof.
  induction fuel; simpl; intros c g; [discriminate|].
  destruct (saturated_cube c g); [discriminate|].
  specialize (IHfuel (increment_cube c g) g).
  destruct (enum_loop fuel (increment_cube c g) g); simpl; congruence.
Qed.

(** ** C13 *)
Lemma concat_out_ok : forall A B (f : A -> out (list B)) g l,
  (forall x, In x l -> f x = Ok (g x)) -> concat_out f l = Ok (concat (map g l)).
Proof.
  induction l as [|x l IH]; intros H; simpl; auto.
  rewrite H by (left; auto). simpl. rewrite IH by (intros; apply H; right; auto). reflexivity.
Qed.

Lemma in_cube_app : forall c1 c2 v1 v2, length c1 = length v1 ->
  in_cube (c1 ++ c2) (v1 ++ v2) = in_cube c1 v1 && in_cube c2 v2.
Proof.
  induction c1; intros c2 v1 v2 H; destruct v1; simpl in *; try discriminate; auto.
  rewrite IHc1 by lia. rewrite andb_assoc. reflexivity.
Qed.
Lemma in_cube_twos : forall n v, length v = n -> in_cube (repeat 2 n) v = true.
Proof. induction n; intros v H; destruct v; simpl in *; try discriminate; auto. Qed.
Lemma in_cube_completes : forall c v, Forall islit c -> Forall isbit v ->
  (in_cube c v = true <-> completes c v).
Proof.
  induction c as [|a c IH]; intros v Hc Hv; destruct v as [|x v]; simpl.
  - split; auto. constructor.
  - split; [discriminate|intros H; inversion H].
  - split; [discriminate|intros H; inversion H].
  - inversion Hc; inversion Hv; subst. rewrite andb_true_iff, IH by auto.
    unfold lit_match. rewrite orb_true_iff, !Z.eqb_eq. split.
    + intros [H H']. constructor; auto. destruct (Z.eq_dec a 2); [left|right]; auto.
      split; auto. destruct H; lia.
    + intros H. inversion H; subst. split; auto. lia.
Qed.
Lemma completes_bits : forall c v, Forall islit c -> completes c v -> Forall isbit v.
Proof.
  intros c v Hc H. unfold completes in H. induction H as [|a x c v Hax H IH]; constructor.
  - inversion Hc; subst. destruct Hax as [[_ Hb]|[Hn ->]]; auto.
    destruct H2 as [? |[? | ?]]; unfold isbit; auto; lia.
  - inversion Hc; auto.
Qed.

Lemma nth_skipn : forall A k (l : list A) i d, nth i (skipn k l) d = nth (k + i) l d.
Proof. induction k; simpl; intros; auto. destruct l; simpl; auto. destruct i; auto. Qed.
Lemma nth_firstn : forall A k (l : list A) i d, (i < k)%nat -> nth i (firstn k l) d = nth i l d.
Proof.
  induction k; simpl; intros l i d H; [lia|]. destruct l; simpl; auto.
  destruct i; auto. apply IHk. lia.
Qed.

(** if a cube only mentions positions lo..lo+k-1 it is determined by its slice *)
Lemma cube_slice_form : forall m lo k c, length c = m -> (lo + k <= m)%nat ->
  (forall i, (i < m)%nat -> nth i c 2 <> 2 -> (lo <= i < lo + k)%nat) ->
  c = repeat 2 lo ++ slice lo k c ++ repeat 2 (m - lo - k).
Proof.
  intros m lo k c Hl Hk H.
  assert (Htwo : forall n d, length d = n ->
            (forall i, (i < n)%nat -> nth i d 2 = 2) -> d = repeat 2 n).
  { induction n; intros d Hd Hi; destruct d; simpl in *; try discriminate; auto.
    f_equal. apply (Hi 0%nat); lia. apply IHn; auto. intros i Hi'.
    apply (Hi (S i)). lia. }
  assert (Hdec : forall i, (i < m)%nat -> ~ (lo <= i < lo + k)%nat -> nth i c 2 = 2).
  { intros i Hi Hn. destruct (Z.eq_dec (nth i c 2) 2); auto. exfalso. auto. }
  rewrite <- (firstn_skipn lo c) at 1. f_equal.
  - apply Htwo. rewrite firstn_length; lia. intros i Hi.
    rewrite nth_firstn by lia. apply Hdec; lia.
  - unfold slice. rewrite <- (firstn_skipn k (skipn lo c)) at 1. f_equal.
    rewrite <- skipn_add. apply Htwo. rewrite skipn_length; lia. intros i Hi.
    rewrite nth_skipn. apply Hdec; lia.
Qed.

Lemma filter_length_one : forall A (f : A -> bool) l,
  length (filter f l) = 1%nat -> exists l1 x l2, l = l1 ++ x :: l2 /\ f x = true /\
    Forall (fun y => f y = false) l1 /\ Forall (fun y => f y = false) l2.
Proof.
  intros A f. induction l as [|x l IH]; simpl; intros H; [discriminate|].
  destruct (f x) eqn:E.
  - exists [], x, l. repeat split; auto. simpl in H. injection H as H.
    clear - H. induction l; simpl in *; constructor; destruct (f a) eqn:E; simpl in *; auto; discriminate.
  - destruct (IH H) as (l1 & y & l2 & -> & H1 & H2 & H3).
    exists (x :: l1), y, l2. repeat split; auto.
Qed.

Lemma NoDup_concat_count : forall A B (g : A -> list B) (P : A -> B -> bool) l,
  (forall x, In x l -> NoDup (g x)) ->
  (forall x b, In x l -> In b (g x) -> P x b = true) ->
  (forall x b, In x l -> In b (g x) -> (length (filter (fun y => P y b) l) <= 1)%nat) ->
  NoDup (concat (map g l)).
Proof.
  intros A B g P. induction l as [|x l IH]; intros H1 H2 H3; simpl; [constructor|].
  apply NoDup_app.
  - apply H1. left; auto.
  - apply IH.
    + intros y Hy. apply H1. right; auto.
    + intros y b Hy Hb. apply H2; auto. right; auto.
    + intros y b Hy Hb. specialize (H3 y b (or_intror Hy) Hb). simpl in H3.
      destruct (P x b); simpl in H3; lia.
  - intros b Hb Hc. apply in_concat in Hc. destruct Hc as (r & Hr & Hbr).
    apply in_map_iff in Hr. destruct Hr as (y & <- & Hy).
    specialize (H3 x b (or_introl eq_refl) Hb). simpl in H3.
    rewrite (H2 x b (or_introl eq_refl) Hb) in H3. simpl in H3.
    assert (Hin : In y (filter (fun y => P y b) l)).
    { apply filter_In. split; auto. apply H2; auto. right; auto. }
    destruct (filter (fun y => P y b) l); [destruct Hin|simpl in H3; lia].
Qed.

(** A generator run over a function that depends only on positions
    lo..lo+k-1, enumerating that slice of every cube, lists exactly the
    valuations of those positions satisfying the function, each once. *)
Lemma enum_slices : forall m lo k f cs, (lo + k <= m)%nat -> cubes_ok m f cs ->
  (forall i, (i < m)%nat -> depends m f i -> (lo <= i < lo + k)%nat) ->
  let l := concat (map (fun c => completions (slice lo k c)) cs) in
  NoDup l /\
  forall e, In e l <-> (bitvec k e /\
     ev f (zeros lo ++ e ++ zeros (m - lo - k)) = true).
Proof.
  intros m lo k f cs Hk [Hshape Hcov] Hdep l.
  rewrite Forall_forall in Hshape.
  assert (Hlen : forall c, In c cs -> length (slice lo k c) = k).
  { intros c Hc. destruct (Hshape c Hc) as (H1 & _ & _). unfold slice.
    rewrite firstn_length, skipn_length. lia. }
  assert (Hlit : forall c, In c cs -> Forall islit (slice lo k c)).
  { intros c Hc. destruct (Hshape c Hc) as (_ & H1 & _). unfold slice.
    rewrite <- (firstn_skipn lo c) in H1. apply Forall_app in H1. destruct H1 as [_ H1].
    rewrite <- (firstn_skipn k (skipn lo c)) in H1. apply Forall_app in H1. tauto. }
  assert (Hcube : forall c e, In c cs -> length e = k ->
            in_cube c (zeros lo ++ e ++ zeros (m - lo - k)) = in_cube (slice lo k c) e).
  { intros c e Hc He. destruct (Hshape c Hc) as (H1 & _ & H3).
    rewrite (cube_slice_form m lo k c H1 Hk) at 1; [|intros i Hi Hn; apply Hdep; auto].
    rewrite in_cube_app by (unfold zeros; rewrite !repeat_length; auto).
    rewrite in_cube_app by (rewrite Hlen; auto).
    rewrite !in_cube_twos by (unfold zeros; rewrite repeat_length; auto).
    rewrite andb_true_r. reflexivity. }
  assert (Hbits : forall c e, In c cs -> In e (completions (slice lo k c)) -> bitvec k e).
  { intros c e Hc He. apply completions_spec in He. split.
    - rewrite (completes_length _ _ He). auto.
    - apply (completes_bits (slice lo k c)); auto. }
  assert (Hbv : forall e, bitvec k e -> bitvec m (zeros lo ++ e ++ zeros (m - lo - k))).
  { intros e He. replace m with (lo + (k + (m - lo - k)))%nat at 1 by lia.
    apply bitvec_app; [apply bitvec_zeros|]. apply bitvec_app; auto using bitvec_zeros. }
  split.
  - apply NoDup_concat_count with
      (P := fun c e => in_cube c (zeros lo ++ e ++ zeros (m - lo - k))).
    + intros. apply completions_NoDup.
    + intros c e Hc He. assert (Hb := Hbits c e Hc He). rewrite Hcube by (auto; apply Hb).
      apply in_cube_completes; auto. apply Hb. apply completions_spec; auto.
    + intros c e Hc He. assert (Hb := Hbits c e Hc He). rewrite Hcov by auto.
      destruct (ev f _); lia.
  - intros e. split.
    + intros He. apply in_concat in He. destruct He as (r & Hr & He).
      apply in_map_iff in Hr. destruct Hr as (c & <- & Hc).
      assert (Hb := Hbits c e Hc He). split; auto.
      specialize (Hcov _ (Hbv e Hb)).
      destruct (ev f (zeros lo ++ e ++ zeros (m - lo - k))); auto.
      assert (Hin : In c (filter (fun c => in_cube c (zeros lo ++ e ++ zeros (m - lo - k))) cs)).
      { apply filter_In. split; auto. rewrite Hcube by (auto; apply Hb).
        apply in_cube_completes; auto. apply Hb. apply completions_spec; auto. }
      destruct (filter _ cs); [destruct Hin|discriminate].
    + intros [Hb He]. specialize (Hcov _ (Hbv e Hb)). rewrite He in Hcov.
      apply filter_length_one in Hcov. destruct Hcov as (l1 & c & l2 & Heq & Hc & _ & _).
      assert (Hcin : In c cs) by (rewrite Heq; apply in_or_app; right; left; auto).
      apply in_concat. exists (completions (slice lo k c)). split.
      * apply in_map_iff. eauto.
      * apply completions_spec. apply in_cube_completes; auto. apply Hb.
        rewrite <- Hcube; auto. apply Hb.
Qed.

Lemma depends_slice : forall m lo k f (g : vec -> bool), (lo + k <= m)%nat ->
  (forall v, bitvec m v -> ev f v = g (slice lo k v)) ->
  forall i, (i < m)%nat -> depends m f i -> (lo <= i < lo + k)%nat.
Proof.
  intros m lo k f g Hk Hf i Hi (v & Hv & Hd).
  destruct (le_lt_dec lo i) as [H1|H1]; [destruct (le_lt_dec (lo + k) i) as [H2|H2]|].
  - exfalso. apply Hd. rewrite !Hf by (apply upd_bitvec; auto; unfold isbit; auto).
    f_equal. unfold slice.
    assert (Hfs : forall x, firstn k (skipn lo (upd v i x)) = firstn k (skipn lo v)).
    { intros x. rewrite <- (firstn_skipn (lo + k) v).
      destruct Hv as [Hl _]. assert (Hlf : length (firstn (lo + k) v) = (lo + k)%nat)
        by (rewrite firstn_length; lia).
      rewrite upd_app_r by lia.
      rewrite !skipn_app, !firstn_app, !skipn_length, Hlf.
      replace (k - (lo + k - lo))%nat with 0%nat by lia. rewrite !firstn_O. reflexivity. }
    rewrite !Hfs. reflexivity.
  - lia.
  - exfalso. apply Hd. rewrite !Hf by (apply upd_bitvec; auto; unfold isbit; auto).
    f_equal. unfold slice. f_equal.
    assert (Hfs : forall x, skipn lo (upd v i x) = skipn lo v).
    { intros x. rewrite <- (firstn_skipn lo v).
      destruct Hv as [Hl _]. assert (Hlf : length (firstn lo v) = lo)
        by (rewrite firstn_length; lia).
      rewrite upd_app_l by lia.
      rewrite !skipn_app, upd_length, Hlf, Nat.sub_diag.
      rewrite (skipn_all2 (upd (firstn lo v) i x)) by (rewrite upd_length; lia).
      rewrite (skipn_all2 (firstn lo v)) by lia. reflexivity. }
    rewrite !Hfs. reflexivity.
Qed.

Lemma env_moves_set_spec : forall cube s et ne ns, length cube = (2 * (ne + ns))%nat ->
  bitvec (ne + ns) s ->
  exists f, env_moves_set cube s et ne ns = Ok f /\ wf (2 * (ne + ns)) f /\
  forall u e w, bitvec (ne + ns) u -> bitvec ne e -> bitvec ns w ->
  (ev f (u ++ e ++ w) = true <-> exists w', bitvec ns w' /\ ev et (s ++ e ++ w') = true).
Proof.
  intros cube s et ne ns Hc Hs. unfold env_moves_set.
  assert (Hcof : forall u e w, bitvec (ne + ns) u -> bitvec ne e -> bitvec ns w ->
     exists g, state_to_cof (2 * (ne + ns)) cube s et 0 = Some g /\
       ev g (u ++ e ++ w) = ev et (s ++ e ++ w)).
  { intros u e w Hu He Hw.
    destruct (state_to_cof_spec 0 (ne + ns) (ne + ns) (2 * (ne + ns)) cube et [] s u (e ++ w))
      as (g & Hg & _ & Hev); auto; try lia; try apply bitvec_nil.
    { apply bitvec_app; auto. } exists g. split; auto. }
  destruct (Hcof (zeros (ne + ns)) (zeros ne) (zeros ns)) as (g & Hg & _);
    auto using bitvec_zeros.
  rewrite Hg. eexists. split; [reflexivity|]. split; [apply wf_mk|].
  intros u e w Hu He Hw. rewrite ev_exist_sys by auto. split.
  - intros (w' & Hw' & H). exists w'. split; auto.
    destruct (Hcof u e w') as (g' & Hg' & Hev); auto. rewrite Hg in Hg'.
    injection Hg' as <-. congruence.
  - intros (w' & Hw' & H). exists w'. split; auto.
    destruct (Hcof u e w') as (g' & Hg' & Hev); auto. rewrite Hg in Hg'.
    injection Hg' as <-. congruence.
Qed.

Lemma get_env_moves_spec : forall fuel orc cube s et ne ns,
  length cube = (2 * (ne + ns))%nat -> bitvec (ne + ns) s ->
  (forall f, wf (2 * (ne + ns)) f -> cubes_ok (2 * (ne + ns)) f (orc f)) ->
  (2 ^ ne <= fuel)%nat ->
  exists l, get_env_moves fuel orc cube s et ne ns = Ok l /\ NoDup l /\
  forall e, In e l <-> (bitvec ne e /\ exists w, bitvec ns w /\ ev et (s ++ e ++ w) = true).
Proof.
  intros fuel orc cube s et ne ns Hc Hs Horc Hfuel.
  unfold get_env_moves.
  destruct (env_moves_set_spec cube s et ne ns Hc Hs) as (f & Hf & Hwf & Hev).
  rewrite Hf. cbn [bind].
  assert (Hcs := Horc f Hwf).
  rewrite concat_out_ok with (g := fun c => completions (slice (ne + ns) ne c)).
  2:{ intros c Hin. apply enum_cube_ok. destruct Hcs as [Hsh _].
      rewrite Forall_forall in Hsh. destruct (Hsh c Hin) as (Hl & _ & _).
      unfold slice. rewrite firstn_length, skipn_length.
      replace (Nat.min ne (length c - (ne + ns))) with ne by lia. auto. }
  eexists. split; [reflexivity|].
  set (m := (2 * (ne + ns))%nat) in *.
  assert (Hdep : forall i, (i < m)%nat -> depends m f i ->
             (ne + ns <= i < ne + ns + ne)%nat).
  { apply depends_slice with (g := fun e => existsb (fun w => ev et (s ++ e ++ w)) (all_vecs ns)).
    - unfold m; lia.
    - intros v Hv. destruct (split3 ne ns v Hv) as (u & e & w & -> & Hu & He & Hw).
      assert (Hsl : slice (ne + ns) ne (u ++ e ++ w) = e).
      { unfold slice. destruct Hu as [Hu _], He as [He _].
        rewrite skipn_app, Hu, Nat.sub_diag. rewrite skipn_all2 by lia. simpl.
        rewrite firstn_app, He, Nat.sub_diag, firstn_O, app_nil_r.
        apply firstn_all2. lia. }
      rewrite Hsl. apply eq_true_iff_eq. rewrite Hev by auto. rewrite existsb_exists.
      split; intros (w' & H1 & H2); exists w'; split; auto; apply all_vecs_spec; auto. }
  destruct (enum_slices m (ne + ns) ne f (orc f)) as [H1 H2]; auto; try (unfold m; lia).
  split; auto. intros e. rewrite H2.
  replace (m - (ne + ns) - ne)%nat with ns by (unfold m; lia).
  split; intros [He H]; split; auto.
  - apply Hev in H; auto using bitvec_zeros.
  - apply Hev; auto using bitvec_zeros.
Qed.

(** ** A concrete generator: the paths of the reduced ordered BDD. *)
Fixpoint paths (t : dt) : list (list Z) :=
  match t with
  | Leaf true => [[]]
  | Leaf false => []
  | Node lo hi => if dt_eqb lo hi then map (cons 2) (paths lo)
                  else map (cons 0) (paths lo) ++ map (cons 1) (paths hi)
  end.
Definition robdd_oracle : oracle := fun _ f => paths f.

Lemma filter_map_length : forall A B (f : A -> B) g l,
  length (filter g (map f l)) = length (filter (fun x => g (f x)) l).
Proof. induction l; simpl; auto. destruct (g (f a)); simpl; auto. Qed.
Lemma filter_false_length : forall A (g : A -> bool) l, (forall x, g x = false) ->
  length (filter g l) = 0%nat.
Proof. induction l; simpl; intros; auto. rewrite H. auto. Qed.

Lemma dt_diff : forall m a b, wf m a -> wf m b -> a <> b ->
  exists v, bitvec m v /\ ev a v <> ev b v.
Proof.
  induction m; intros a b Ha Hb Hne; destruct a as [x|l h], b as [y|l' h']; simpl in *; try tauto.
  - exists []. split. apply bitvec_nil. simpl. congruence.
  - destruct Ha as [Hl Hh], Hb as [Hl' Hh'].
    destruct (dt_eqb l l') eqn:E.
    + apply dt_eqb_eq in E. subst l'. destruct (IHm h h') as (v & Hv & Hd); auto. congruence.
      exists (1 :: v). split; auto. apply bitvec_cons; auto. unfold isbit; auto.
    + destruct (IHm l l') as (v & Hv & Hd); auto.
      { intros ->. rewrite (proj2 (dt_eqb_eq _ _) eq_refl) in E. discriminate. }
      exists (0 :: v). split; auto. apply bitvec_cons; auto. unfold isbit; auto.
Qed.

Lemma depends_cons : forall m lo hi i, (depends m lo i \/ depends m hi i) ->
  depends (S m) (Node lo hi) (S i).
Proof.
  intros m lo hi i [(v & Hv & Hd)|(v & Hv & Hd)].
  - exists (0 :: v). split; [apply bitvec_cons; auto; unfold isbit; auto|]. exact Hd.
  - exists (1 :: v). split; [apply bitvec_cons; auto; unfold isbit; auto|]. exact Hd.
Qed.

Lemma paths_ok : forall m t, wf m t -> cubes_ok m t (paths t).
Proof.
  induction m; intros t Ht; destruct t as [b|lo hi]; simpl in Ht; try tauto.
  - split.
    + destruct b; simpl; constructor; auto. repeat split; auto. intros i Hi. lia.
    + intros v [Hl _]. destruct v; [|discriminate]. destruct b; reflexivity.
  - destruct Ht as [Hlo Hhi]. destruct (IHm lo Hlo) as [S1 C1]. destruct (IHm hi Hhi) as [S2 C2].
    simpl. destruct (dt_eqb lo hi) eqn:E.
    + apply dt_eqb_eq in E. subst hi. split.
      * apply Forall_map. eapply Forall_impl; [|exact S1]. intros c (H1 & H2 & H3).
        repeat split; simpl; auto.
        { constructor; auto. unfold islit; auto. }
        intros i Hi Hn. destruct i; [congruence|]. apply depends_cons. left. apply H3; auto. lia.
      * intros v Hv. destruct (bitvec_inv _ _ Hv) as (x & w & -> & Hx & Hw).
        rewrite filter_map_length. simpl. rewrite C1 by auto.
        destruct (x =? 1); reflexivity.
    + assert (Hne : lo <> hi).
      { intros ->. rewrite (proj2 (dt_eqb_eq _ _) eq_refl) in E. discriminate. }
      assert (Hd0 : depends (S m) (Node lo hi) 0).
      { destruct (dt_diff m lo hi Hlo Hhi Hne) as (v & Hv & Hd).
        exists (0 :: v). split; [apply bitvec_cons; auto; unfold isbit; auto|]. exact Hd. }
      split.
      * apply Forall_app. split; apply Forall_map.
        { eapply Forall_impl; [|exact S1]. intros c (H1 & H2 & H3).
          repeat split; simpl; auto.
          { constructor; auto. unfold islit; auto. }
          intros i Hi Hn. destruct i; auto. apply depends_cons. left. apply H3; auto. lia. }
        { eapply Forall_impl; [|exact S2]. intros c (H1 & H2 & H3).
          repeat split; simpl; auto.
          { constructor; auto. unfold islit; auto. }
          intros i Hi Hn. destruct i; auto. apply depends_cons. right. apply H3; auto. lia. }
      * intros v Hv. destruct (bitvec_inv _ _ Hv) as (x & w & -> & Hx & Hw).
        rewrite filter_app, app_length, !filter_map_length. simpl.
        destruct Hx as [-> | ->]; simpl.
        { rewrite C1 by auto. rewrite (filter_false_length _ _ (paths hi)); auto. }
        { rewrite C2 by auto. rewrite (filter_false_length _ _ (paths lo)); auto. }
Qed.
Lemma robdd_oracle_ok : forall m, oracle_ok m robdd_oracle.
Proof. intros m t f H. apply paths_ok; auto. Qed.
