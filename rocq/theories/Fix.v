(** Finite fixpoint theory: predicates on a finite carrier [dom]. Used by the
    proofs only (not a model of code). *)
From Coq Require Import List ZArith Lia Bool Arith.
From Verif Require Import Base.
Import ListNotations.
Open Scope nat_scope.

Section Fix.
  Context {A : Type}.
  Variable dom : list A.

  Definition pred := A -> bool.
  Definition leP (P Q : pred) : Prop :=
    forall a, In a dom -> P a = true -> Q a = true.
  Definition eqP (P Q : pred) : Prop := forall a, In a dom -> P a = Q a.

  Definition topP : pred := fun _ => true.
  Definition botP : pred := fun _ => false.
  Definition monoP (F : pred -> pred) : Prop :=
    forall P Q, leP P Q -> leP (F P) (F Q).

  Definition is_gfp (F : pred -> pred) (R : pred) : Prop :=
    leP R (F R) /\ forall P, leP P (F P) -> leP P R.
  Definition is_lfp (F : pred -> pred) (R : pred) : Prop :=
    leP (F R) R /\ forall P, leP (F P) P -> leP R P.

  Lemma leP_refl : forall P, leP P P.
  Proof. intros P a _ H; auto. Qed.
  Lemma leP_trans : forall P Q R, leP P Q -> leP Q R -> leP P R.
  Proof. intros P Q R H1 H2 a Ha H. apply H2; auto. Qed.
  Lemma eqP_refl : forall P, eqP P P.
  Proof. intros P a _; auto. Qed.
  Lemma eqP_sym : forall P Q, eqP P Q -> eqP Q P.
  Proof. intros P Q H a Ha. symmetry; auto. Qed.
  Lemma eqP_trans : forall P Q R, eqP P Q -> eqP Q R -> eqP P R.
  Proof. intros P Q R H1 H2 a Ha. rewrite H1; auto. Qed.
  Lemma eqP_leP : forall P Q, eqP P Q -> leP P Q.
  Proof. intros P Q H a Ha HP. rewrite <- H; auto. Qed.
  Lemma leP_antisym : forall P Q, leP P Q -> leP Q P -> eqP P Q.
  Proof.
    intros P Q H1 H2 a Ha. destruct (P a) eqn:EP, (Q a) eqn:EQ; auto.
    - rewrite (H1 a Ha EP) in EQ. auto.
    - rewrite (H2 a Ha EQ) in EP. auto.
  Qed.
  Lemma mono_ext : forall F, monoP F -> forall P Q, eqP P Q -> eqP (F P) (F Q).
  Proof.
    intros F HF P Q H. apply leP_antisym; apply HF; apply eqP_leP; auto.
    apply eqP_sym; auto.
  Qed.

  Lemma gfp_unique : forall F R R', is_gfp F R -> is_gfp F R' -> eqP R R'.
  Proof. intros F R R' [H1 H2] [H3 H4]. apply leP_antisym; auto. Qed.
  Lemma lfp_unique : forall F R R', is_lfp F R -> is_lfp F R' -> eqP R R'.
  Proof. intros F R R' [H1 H2] [H3 H4]. apply leP_antisym; auto. Qed.

  Lemma gfp_fix : forall F R, monoP F -> is_gfp F R -> eqP R (F R).
  Proof.
    intros F R HF [H1 H2]. apply leP_antisym; auto.
  Qed.
  Lemma lfp_fix : forall F R, monoP F -> is_lfp F R -> eqP R (F R).
  Proof.
    intros F R HF [H1 H2]. apply leP_antisym; auto.
  Qed.

  (** cardinality on the carrier *)
  Definition card (P : pred) : nat := length (filter P dom).

  Lemma card_le : forall P Q, leP P Q -> card P <= card Q.
  Proof.
    intros P Q. unfold card, leP. induction dom as [|a l IH]; intros H; simpl; auto.
    assert (HI : length (filter P l) <= length (filter Q l)).
    { apply IH. intros b Hb. apply H. right; auto. }
    destruct (P a) eqn:EP.
    - rewrite (H a (or_introl eq_refl) EP). simpl. lia.
    - destruct (Q a); simpl; lia.
  Qed.

  Lemma card_lt : forall P Q a, leP P Q -> In a dom -> P a = false -> Q a = true ->
    card P < card Q.
  Proof.
    intros P Q a. unfold card, leP. induction dom as [|b l IH]; intros H Hin HP HQ;
      simpl in *; [tauto|].
    assert (Hle : length (filter P l) <= length (filter Q l)).
    { clear IH. assert (HH : forall c, In c l -> P c = true -> Q c = true).
      { intros c Hc. apply H. right; auto. }
      clear H Hin. induction l as [|c l IHl]; simpl; auto.
      assert (length (filter P l) <= length (filter Q l)).
      { apply IHl. intros d Hd. apply HH. right; auto. }
      destruct (P c) eqn:EP.
      - rewrite (HH c (or_introl eq_refl) EP). simpl. lia.
      - destruct (Q c); simpl; lia. }
    destruct Hin as [->|Hin].
    - rewrite HP, HQ. simpl. lia.
    - assert (length (filter P l) < length (filter Q l)).
      { apply IH; auto. }
      destruct (P b) eqn:EP.
      + rewrite (H b (or_introl eq_refl) EP). simpl. lia.
      + destruct (Q b); simpl; lia.
  Qed.

  Lemma card_bound : forall P, card P <= length dom.
  Proof.
    intros P. unfold card. induction dom; simpl; auto. destruct (P a); simpl; lia.
  Qed.

  (** Iterates of a monotone operator from the top and from the bottom. *)
  Definition down (F : pred -> pred) (k : nat) : pred := iter k F topP.
  Definition up (F : pred -> pred) (k : nat) : pred := iter k F botP.

  Lemma down_step : forall F, monoP F -> forall k, leP (down F (S k)) (down F k).
  Proof.
    intros F HF. induction k.
    - intros a _ _; reflexivity.
    - simpl. apply HF. exact IHk.
  Qed.
  Lemma up_step : forall F, monoP F -> forall k, leP (up F k) (up F (S k)).
  Proof.
    intros F HF. induction k.
    - intros a _ H; discriminate.
    - simpl. apply HF. exact IHk.
  Qed.
  Lemma down_mono : forall F, monoP F -> forall k k', k <= k' ->
    leP (down F k') (down F k).
  Proof.
    intros F HF k k' H. induction H. apply leP_refl.
    eapply leP_trans; [apply down_step; auto|auto].
  Qed.
  Lemma up_mono : forall F, monoP F -> forall k k', k <= k' ->
    leP (up F k) (up F k').
  Proof.
    intros F HF k k' H. induction H. apply leP_refl.
    eapply leP_trans; [exact IHle|apply up_step; auto].
  Qed.
  Lemma post_below_down : forall F, monoP F -> forall P, leP P (F P) ->
    forall k, leP P (down F k).
  Proof.
    intros F HF P HP. induction k.
    - intros a _ _; reflexivity.
    - simpl. eapply leP_trans; [exact HP|]. apply HF; auto.
  Qed.
  Lemma up_below_pre : forall F, monoP F -> forall P, leP (F P) P ->
    forall k, leP (up F k) P.
  Proof.
    intros F HF P HP. induction k.
    - intros a _ H; discriminate.
    - simpl. eapply leP_trans; [|exact HP]. apply HF; auto.
  Qed.

  Definition leb (P Q : pred) : bool := forallb (fun a => implb (P a) (Q a)) dom.
  Lemma leb_spec : forall P Q, leb P Q = true <-> leP P Q.
  Proof.
    intros P Q. unfold leb, leP. rewrite forallb_forall. split; intros H a Ha.
    - intros HP. specialize (H a Ha). rewrite HP in H. exact H.
    - specialize (H a Ha). destruct (P a); simpl; auto.
  Qed.
  Lemma not_leb : forall P Q, leb P Q = false ->
    exists a, In a dom /\ P a = true /\ Q a = false.
  Proof.
    intros P Q H. unfold leb in H.
    assert (exists a, In a dom /\ implb (P a) (Q a) = false).
    { induction dom as [|b l IH]; simpl in H; [discriminate|].
      apply andb_false_iff in H. destruct H as [H|H].
      - exists b; simpl; auto.
      - destruct (IH H) as (a & Ha & He). exists a; simpl; auto. }
    destruct H0 as (a & Ha & He). exists a. destruct (P a), (Q a); simpl in He; try discriminate; auto.
  Qed.

  (** The iteration is stable after [length dom] rounds. *)
  Lemma down_stable : forall F, monoP F ->
    leP (down F (length dom)) (F (down F (length dom))).
  Proof.
    intros F HF.
    assert (Hk : forall k, card (down F k) + k <= length dom \/
                           (exists j, j < k /\ leP (down F j) (down F (S j)))).
    { induction k.
      - left. generalize (card_bound (down F 0)). lia.
      - destruct IHk as [IH|(j & Hj & Hs)].
        + destruct (leb (down F k) (down F (S k))) eqn:E.
          * right. exists k. split; auto. apply leb_spec; auto.
          * apply not_leb in E. destruct E as (a & Ha & H1 & H2).
            left. assert (card (down F (S k)) < card (down F k)).
            { eapply card_lt; eauto. apply down_step; auto. }
            lia.
        + right. exists j. split; auto. }
    assert (Hstab : forall j, leP (down F j) (down F (S j)) -> forall k, j <= k ->
                    leP (down F k) (down F (S k))).
    { intros j Hj k Hle. induction Hle; auto. simpl. apply HF. auto. }
    destruct (Hk (S (length dom))) as [H|(j & Hj & Hs)]; [lia|].
    change (F (down F (length dom))) with (down F (S (length dom))).
    eapply Hstab; eauto. lia.
  Qed.

  Lemma up_stable : forall F, monoP F ->
    leP (F (up F (length dom))) (up F (length dom)).
  Proof.
    intros F HF.
    assert (Hk : forall k, k <= card (up F k) \/
                           (exists j, j < k /\ leP (up F (S j)) (up F j))).
    { induction k.
      - left. lia.
      - destruct IHk as [IH|(j & Hj & Hs)].
        + destruct (leb (up F (S k)) (up F k)) eqn:E.
          * right. exists k. split; auto. apply leb_spec; auto.
          * apply not_leb in E. destruct E as (a & Ha & H1 & H2).
            left. assert (card (up F k) < card (up F (S k))).
            { eapply card_lt; eauto. apply up_step; auto. }
            lia.
        + right. exists j. split; auto. }
    assert (Hstab : forall j, leP (up F (S j)) (up F j) -> forall k, j <= k ->
                    leP (up F (S k)) (up F k)).
    { intros j Hj k Hle. induction Hle; auto. simpl. apply HF. auto. }
    change (F (up F (length dom))) with (up F (S (length dom))).
    destruct (Hk (S (length dom))) as [H|(j & Hj & Hs)].
    - generalize (card_bound (up F (S (length dom)))). lia.
    - eapply Hstab; eauto. lia.
  Qed.

  Definition nu (F : pred -> pred) : pred := down F (length dom).
  Definition mu (F : pred -> pred) : pred := up F (length dom).

  Lemma nu_gfp : forall F, monoP F -> is_gfp F (nu F).
  Proof.
    intros F HF. split. apply down_stable; auto.
    intros P HP. apply post_below_down; auto.
  Qed.
  Lemma mu_lfp : forall F, monoP F -> is_lfp F (mu F).
  Proof.
    intros F HF. split. apply up_stable; auto.
    intros P HP. apply up_below_pre; auto.
  Qed.

  Lemma nu_mono : forall F G, monoP F -> monoP G ->
    (forall P, leP (F P) (G P)) -> leP (nu F) (nu G).
  Proof.
    intros F G HF HG H. apply (proj2 (nu_gfp G HG)).
    eapply leP_trans; [apply (proj1 (nu_gfp F HF))|apply H].
  Qed.
  Lemma mu_mono : forall F G, monoP F -> monoP G ->
    (forall P, leP (F P) (G P)) -> leP (mu F) (mu G).
  Proof.
    intros F G HF HG H. apply (proj2 (mu_lfp F HF)).
    eapply leP_trans; [apply H|apply (proj1 (mu_lfp G HG))].
  Qed.

End Fix.
