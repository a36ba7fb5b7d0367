(** Set-level reasoning about the choices synthesize makes, for one system goal. *)
From Coq Require Import List ZArith Lia Bool Arith.
From Verif Require Import Base Game GameSound Levels.
Import ListNotations.
Open Scope nat_scope.

Section Sets.
  Context {S E : Type}.
  Variable G : game S E.
  Variables (goal W : S -> bool) (eg : nat -> S -> bool) (neg K : nat).
  Variables (Y : nat -> S -> bool) (X : nat -> nat -> S -> bool).
  Hypothesis Hlad : is_ladder G goal W eg neg K Y X.
  Hypothesis HK : 0 < K.
  Notation states := (g_states G).

  (** the levels after the shift *)
  Definition Lf (j : nat) : S -> bool :=
    match j with O => fun s => goal s && W s | _ => Y (Datatypes.S j) end.
  Definition jspec (s : S) (j : nat) : Prop :=
    j <= K /\ (forall j', j <= j' < K -> Lf j' s = true) /\ (0 < j -> Lf (j - 1) s = false).
  Lemma jspec_fun : forall s j1 j2, jspec s j1 -> jspec s j2 -> j1 = j2.
  Proof.
    assert (H : forall s j1 j2, jspec s j1 -> jspec s j2 -> ~ j1 < j2).
    { intros s j1 j2 (H1 & H2 & H3) (H4 & H5 & H6) Hl.
      specialize (H2 (j2 - 1)). rewrite H6 in H2 by lia. assert (false = true) by (apply H2; lia).
      discriminate. }
    intros s j1 j2 H1 H2. pose proof (H s j1 j2 H1 H2). pose proof (H s j2 j1 H2 H1). lia.
  Qed.

  Definition succ_in (s : S) (e : E) (T : S -> bool) (s' : S) : Prop :=
    legal_sys G s e s' /\ W s' = true /\ T s' = true.
  Definition none (s : S) (e : E) (T : S -> bool) : Prop := forall s', ~ succ_in s e T s'.
  (** first set of a row with a successor *)
  Definition first_in (s : S) (e : E) (row : nat -> S -> bool) (s' : S) : Prop :=
    exists r, r < neg /\ succ_in s e (row r) s' /\ forall r', r' < r -> none s e (row r').
  Definition chosen (s : S) (j : nat) (e : E) (s' : S) : Prop :=
    succ_in s e (Lf (j - 1)) s' \/
    (none s e (Lf (j - 1)) /\
     match j with
     | O => succ_in s e (fun _ => true) s'
     | _ => first_in s e (X j) s' \/
            ((forall r, r < neg -> none s e (X j r)) /\ j < K /\
             first_in s e (X (Datatypes.S j)) s')
     end).

  Lemma chosen_base : forall s j e s', chosen s j e s' -> legal_sys G s e s' /\ W s' = true.
  Proof.
    intros s j e s' [(H1 & H2 & _)|(_ & H)]; auto.
    destruct j; [destruct H as (H1 & H2 & _); auto|].
    destruct H as [(r & _ & (H1 & H2 & _) & _)|(_ & _ & (r & _ & (H1 & H2 & _) & _))]; auto.
  Qed.

  Definition rJ (s : S) : nat := least (Datatypes.S K) (fun j => Y j s).
  Definition rR (s : S) : nat := least neg (fun r => X (rJ s) r s).

  Lemma Y_mono : forall j j' s, j <= j' <= K -> In s states -> Y j s = true -> Y j' s = true.
  Proof.
    intros j j' s [H1 H2] Hs H. induction H1; auto.
    apply (lad_incr _ _ _ _ _ _ _ _ Hlad); auto; try lia. apply IHle. lia.
  Qed.
  Lemma X_in_Y : forall j r s, j < K -> r < neg -> In s states ->
    X (Datatypes.S j) r s = true -> Y (Datatypes.S j) s = true.
  Proof. intros j r s Hj Hr Hs H. apply (lad_union _ _ _ _ _ _ _ _ Hlad); auto. eauto. Qed.
  Lemma neg_pos : forall s, In s states -> W s = true -> 0 < neg.
  Proof.
    intros s Hs H. rewrite <- (lad_top _ _ _ _ _ _ _ _ Hlad s Hs) in H.
    destruct K as [|k] eqn:Ek; [lia|].
    apply (lad_union _ _ _ _ _ _ _ _ Hlad) in H; auto. destruct H as (r & Hr & _). lia.
  Qed.
  Lemma B_in_Y : forall s, In s states -> goal s = true -> W s = true -> Y 1 s = true.
  Proof.
    intros s Hs Hg HW. pose proof (neg_pos s Hs HW) as Hn.
    apply (X_in_Y 0 0); auto.
    apply (lad_step _ _ _ _ _ _ _ _ Hlad); auto. left. auto.
  Qed.
  Lemma Lf_mono : forall j j' s, j <= j' < K -> In s states -> Lf j s = true -> Lf j' s = true.
  Proof.
    intros j j' s [H1 H2] Hs H. destruct j as [|j], j' as [|j']; auto; try lia; simpl in *.
    - apply andb_true_iff in H. destruct H. apply (Y_mono 1); auto; [lia|apply B_in_Y; auto].
    - apply (Y_mono (Datatypes.S (Datatypes.S j))); auto. lia.
  Qed.
  Lemma jspec_ex : forall s, In s states -> exists j, jspec s j.
  Proof.
    intros s Hs.
    assert (H : forall d, d <= K -> (forall j', d <= j' < K -> Lf j' s = true) -> exists j, jspec s j).
    { induction d; intros Hd HL.
      - exists 0. split; [lia|]. split; auto. lia.
      - destruct (Lf d s) eqn:Ed.
        + apply IHd; [lia|]. intros j' Hj. destruct (Nat.eq_dec j' d) as [->|]; auto. apply HL. lia.
        + exists (Datatypes.S d). split; [lia|]. split; auto. intros _.
          replace (Datatypes.S d - 1) with d by lia. auto. }
    apply (H K); auto. intros; lia.
  Qed.
  Lemma jspec_le : forall s j i, In s states -> jspec s j -> i < K -> Lf i s = true -> j <= i.
  Proof.
    intros s j i Hs (H1 & H2 & H3) Hi HL. destruct (le_lt_dec j i); auto.
    assert (Lf (j - 1) s = true) by (apply (Lf_mono i); auto; lia).
    rewrite H3 in H by lia. discriminate.
  Qed.
  Lemma jspec_0 : forall s j, In s states -> jspec s j -> (j = 0 <-> goal s = true /\ W s = true).
  Proof.
    intros s j Hs Hj. rewrite <- andb_true_iff. change (goal s && W s) with (Lf 0 s).
    split; intros H; [subst; apply Hj; lia|].
    pose proof (jspec_le s j 0 Hs Hj HK H). lia.
  Qed.

  Lemma rJ_spec : forall s, In s states -> W s = true ->
    0 < rJ s <= K /\ Y (rJ s) s = true /\ forall j, Y j s = true -> rJ s <= j.
  Proof.
    intros s Hs H. rewrite <- (lad_top _ _ _ _ _ _ _ _ Hlad s Hs) in H.
    destruct (least_spec (Datatypes.S K) (fun j => Y j s) K) as (H1 & H2); auto; try lia.
    fold (rJ s) in H1, H2. repeat split; auto.
    - destruct (rJ s) eqn:Er; [|lia]. rewrite (lad_bottom _ _ _ _ _ _ _ _ Hlad s Hs) in H2.
      discriminate.
    - intros j Hj. destruct (le_lt_dec (rJ s) j); auto.
      assert (Y j s = false) by (apply (least_min (Datatypes.S K) (fun j => Y j s)); auto).
      congruence.
  Qed.
  Lemma rR_spec : forall s, In s states -> W s = true -> rR s < neg /\ X (rJ s) (rR s) s = true.
  Proof.
    intros s Hs H. destruct (rJ_spec s Hs H) as (H1 & H2 & _).
    assert (He : exists r, r < neg /\ X (rJ s) r s = true).
    { destruct (rJ s) as [|j]; [lia|]. apply (lad_union _ _ _ _ _ _ _ _ Hlad); auto. lia. }
    destruct He as (r & Hr & Hx). unfold rR.
    destruct (least_spec neg (fun r => X (rJ s) r s) r Hr Hx) as (H3 & H4). split; auto. lia.
  Qed.
  Lemma rR_min : forall s r, X (rJ s) r s = true -> rR s <= r.
  Proof.
    intros s r H. destruct (le_lt_dec (rR s) r); auto.
    assert (X (rJ s) r s = false) by (apply (least_min neg (fun r => X (rJ s) r s)); auto).
    congruence.
  Qed.

  (** [j] and the rank *)
  Lemma j_rank : forall s j, In s states -> W s = true -> jspec s j ->
    (j = 0 /\ goal s = true) \/
    (goal s = false /\ j = 1 /\ (rJ s = 1 \/ (rJ s = 2 /\ 1 < K))) \/
    (goal s = false /\ 2 <= j < K /\ rJ s = Datatypes.S j).
  Proof.
    intros s j Hs HW Hj. destruct (rJ_spec s Hs HW) as (HJ1 & HJ2 & HJ3).
    pose proof (lad_top _ _ _ _ _ _ _ _ Hlad s Hs) as Htop. rewrite HW in Htop.
    destruct (goal s) eqn:Eg.
    - left. split; auto. apply (jspec_0 s); auto.
    - right. assert (Hj0 : j <> 0).
      { intros H. apply (jspec_0 s) in H; auto. destruct H. congruence. }
      destruct Hj as (H1 & H2 & H3).
      assert (HYj : forall j', j <= j' < K -> Y (Datatypes.S j') s = true).
      { intros j' Hj'. specialize (H2 j' Hj'). destruct j'; [lia|]. exact H2. }
      specialize (H3 ltac:(lia)).
      destruct (Nat.eq_dec j 1) as [->|Hn1].
      + left. split; auto. split; auto. destruct (Nat.eq_dec K 1) as [HK1|HK1]; [left; lia|].
        assert (rJ s <= 2) by (apply HJ3; apply HYj; lia). destruct (Nat.eq_dec (rJ s) 1); auto.
        right. lia.
      + right. split; auto. destruct j as [|[|j]]; try lia.
        replace (Datatypes.S (Datatypes.S j) - 1) with (Datatypes.S j) in H3 by lia.
        simpl in H3.
        assert (Hlt : Datatypes.S (Datatypes.S j) < K).
        { destruct (Nat.eq_dec (Datatypes.S (Datatypes.S j)) K) as [<-|]; [congruence|lia]. }
        split; [lia|].
        assert (rJ s <= Datatypes.S (Datatypes.S (Datatypes.S j))) by (apply HJ3; apply HYj; lia).
        destruct (le_lt_dec (rJ s) (Datatypes.S (Datatypes.S j))); [|lia].
        exfalso. assert (Y (Datatypes.S (Datatypes.S j)) s = true).
        { apply (Y_mono (rJ s)); auto; lia. }
        congruence.
  Qed.

  (** the reason for being in the lowest set *)
  Lemma low_reason : forall s e, In s states -> W s = true -> goal s = false -> legal_env G s e ->
    (exists s', succ_in s e (Y (rJ s - 1)) s') \/
    (eg (rR s) s = false /\ exists s', succ_in s e (X (rJ s) (rR s)) s').
  Proof.
    intros s e Hs HW Hg He. destruct (rJ_spec s Hs HW) as (HJ1 & HJ2 & HJ3).
    destruct (rR_spec s Hs HW) as (HR1 & HR2).
    destruct (rJ s) as [|j] eqn:Ej; [lia|]. replace (Datatypes.S j - 1) with j by lia.
    assert (HYW : forall j s', j <= K -> In s' states -> Y j s' = true -> W s' = true).
    { intros i s' Hi Hs' H. rewrite <- (lad_top _ _ _ _ _ _ _ _ Hlad s' Hs').
      apply (Y_mono i); auto. }
    pose proof (proj1 (lad_step _ _ _ _ _ _ _ _ Hlad j (rR s) s ltac:(lia) HR1 Hs) HR2) as Hls.
    destruct Hls as [(H & _)|[H|(H1 & H)]]; [congruence| |].
    - left. destruct (H e He) as (s' & Hl & Hy). exists s'. split; auto. split; auto.
      apply (HYW j); auto; [lia|apply Hl].
    - right. split; auto. destruct (H e He) as (s' & Hl & Hx). exists s'. split; auto. split; auto.
      apply (HYW (Datatypes.S j)); auto; [lia|apply Hl|]. apply (X_in_Y j (rR s)); auto; [lia|].
      apply Hl.
  Qed.

  Definition lower (s s' : S) : Prop :=
    rJ s' < rJ s \/ (rJ s' = rJ s /\ rR s' < rR s) \/
    (rJ s' = rJ s /\ rR s' = rR s /\ eg (rR s) s = false).

  Lemma lower_Y : forall s s' j, In s' states -> W s' = true -> j < rJ s -> Y j s' = true -> lower s s'.
  Proof.
    intros s s' j Hs' HW Hj HY. left. destruct (rJ_spec s' Hs' HW) as (_ & _ & H).
    specialize (H j HY). lia.
  Qed.
  Lemma lower_X : forall s s' e r, In s states -> W s = true ->
    rJ s <= K -> 0 < rJ s -> r < neg ->
    succ_in s e (X (rJ s) r) s' ->
    (forall r', r' < r -> none s e (X (rJ s) r')) ->
    eg (rR s) s = false -> (exists s1, succ_in s e (X (rJ s) (rR s)) s1) -> lower s s'.
  Proof.
    intros s s' e r Hs HW HJ HJ0 Hr Hin Hfirst Heg (s1 & Hs1).
    assert (Hle : r <= rR s).
    { destruct (le_lt_dec r (rR s)); auto. exfalso. exact (Hfirst _ l _ Hs1). }
    destruct Hin as (Hl & HW' & Hx). destruct (rJ s) as [|j] eqn:Ej; [lia|].
    assert (HY : Y (Datatypes.S j) s' = true) by (apply (X_in_Y j r); auto; try lia; try apply Hl).
    destruct (rJ_spec s' (proj1 Hl) HW') as (_ & _ & H). specialize (H _ HY).
    unfold lower. rewrite Ej.
    destruct (le_lt_dec (Datatypes.S j) (rJ s')); [|left; lia]. right.
    assert (EJ : rJ s' = Datatypes.S j) by lia.
    assert (rR s' <= r) by (apply rR_min; rewrite EJ; auto).
    destruct (le_lt_dec (rR s) (rR s')); [|left; lia]. right. split; [lia|]. split; auto; lia.
  Qed.

  (** the measure argument: what a chosen successor achieves *)
  Lemma chosen_lower : forall s j e s', In s states -> W s = true -> legal_env G s e ->
    jspec s j -> chosen s j e s' ->
    (j = 0 /\ goal s = true) \/ goal s' = true \/ lower s s'.
  Proof.
    intros s j e s' Hs HW He Hj Hc.
    destruct (j_rank s j Hs HW Hj) as [H|[(Hg & Ej & HJ)|(Hg & Hj2 & HJ)]]; [auto| |].
    - subst j. right. destruct Hc as [(_ & _ & Ht)|(Hnone & Hc)].
      + left. simpl in Ht. apply andb_true_iff in Ht. apply Ht.
      + right. destruct Hc as [(r & Hr & Hin & Hf)|(Hall & H1K & (r & Hr & Hin & Hf))].
        * destruct HJ as [HJ|(HJ & _)].
          -- destruct (low_reason s e Hs HW Hg He) as [(s1 & Hl1 & _ & Hy)|(Heg & Hex)].
             { rewrite HJ in Hy. simpl in Hy.
               rewrite (lad_bottom _ _ _ _ _ _ _ _ Hlad) in Hy; [discriminate|apply Hl1]. }
             apply (lower_X s s' e r); auto; rewrite HJ; auto; lia.
          -- destruct Hin as (Hl & HW' & Hx).
             apply (lower_Y s s' 1); auto; [apply Hl|lia|]. apply (X_in_Y 0 r); auto. apply Hl.
        * destruct (low_reason s e Hs HW Hg He) as [(s1 & Hl1 & HW1 & Hy)|(Heg & (s1 & Hs1))].
          -- exfalso. destruct HJ as [HJ|(HJ & _)]; rewrite HJ in Hy; simpl in Hy.
             ++ rewrite (lad_bottom _ _ _ _ _ _ _ _ Hlad) in Hy; [discriminate|apply Hl1].
             ++ apply (lad_union _ _ _ _ _ _ _ _ Hlad) in Hy; auto; [|apply Hl1].
                destruct Hy as (r1 & Hr1 & Hx1). apply (Hall r1 Hr1 s1). split; auto.
          -- destruct HJ as [HJ|(HJ & _)].
             ++ exfalso. rewrite HJ in Hs1. apply (Hall (rR s)) with (s' := s1); auto.
                apply (rR_spec s); auto.
             ++ apply (lower_X s s' e r); auto; rewrite HJ; auto; try lia.
                exists s1. rewrite <- HJ. auto.
    - right. right. destruct j as [|[|j]]; try lia.
      unfold chosen in Hc.
      replace (Datatypes.S (Datatypes.S j) - 1) with (Datatypes.S j) in Hc by lia.
      destruct Hc as [(Hl & HW' & Ht)|(Hnone & Hc)].
      + apply (lower_Y s s' (Datatypes.S (Datatypes.S j))); auto; [apply Hl|lia].
      + destruct Hc as [(r & Hr & Hin & Hf)|(Hall & H1K & (r & Hr & Hin & Hf))].
        * exfalso. apply (Hnone s'). destruct Hin as (Hl & HW' & Hx). split; auto. split; auto.
          simpl. apply (X_in_Y (Datatypes.S j) r); auto; try lia; try apply Hl.
        * destruct (low_reason s e Hs HW Hg He) as [(s1 & Hl1 & HW1 & Hy)|(Heg & Hex)].
          -- exfalso. apply (Hnone s1). rewrite HJ in Hy. simpl in Hy. split; auto.
          -- rewrite <- HJ in *. apply (lower_X s s' e r); auto; lia.
  Qed.

  (** a successor can be chosen in a winning state, without leaving the arrays *)
  Lemma can_choose : forall s j e, In s states -> W s = true -> legal_env G s e ->
    forces G W s -> jspec s j ->
    (exists s', succ_in s e (Lf (j - 1)) s') \/
    match j with
    | O => exists s', succ_in s e (fun _ => true) s'
    | _ => (exists r s', r < neg /\ succ_in s e (X j r) s') \/
           (j < K /\ exists r s', r < neg /\ succ_in s e (X (Datatypes.S j) r) s')
    end.
  Proof.
    intros s j e Hs HW He HF Hj.
    destruct (rR_spec s Hs HW) as (HR & _).
    destruct (j_rank s j Hs HW Hj) as [(-> & Hg)|[(Hg & Ej & HJ)|(Hg & Hj2 & HJ)]].
    - right. destruct (HF e He) as (s' & Hl & HW'). exists s'. split; auto.
    - subst j. right.
      destruct (low_reason s e Hs HW Hg He) as [(s1 & Hl1 & HW1 & Hy)|(Heg & (s1 & Hs1))].
      + destruct HJ as [HJ|(HJ & _)]; rewrite HJ in Hy; simpl in Hy.
        * rewrite (lad_bottom _ _ _ _ _ _ _ _ Hlad) in Hy; [discriminate|apply Hl1].
        * apply (lad_union _ _ _ _ _ _ _ _ Hlad) in Hy; auto; [|apply Hl1].
          destruct Hy as (r1 & Hr1 & Hx1). left. exists r1, s1. split; auto. split; auto.
      + destruct HJ as [HJ|(HJ & H1K)]; rewrite HJ in Hs1; eauto 8.
    - destruct j as [|[|j]]; try lia.
      replace (Datatypes.S (Datatypes.S j) - 1) with (Datatypes.S j) by lia.
      destruct (low_reason s e Hs HW Hg He) as [(s1 & Hl1 & HW1 & Hy)|(Heg & (s1 & Hs1))].
      + left. exists s1. rewrite HJ in Hy. simpl in Hy. split; auto.
      + right. right. split; [lia|]. rewrite HJ in Hs1. eauto.
  Qed.

  (** the reach annotation does not grow *)
  Lemma chosen_j : forall s j e s' j', 0 < j <= K -> chosen s j e s' -> jspec s' j' -> j' <= j.
  Proof.
    intros s j e s' j' Hj Hc Hj'.
    assert (Hs' : In s' states) by (apply (chosen_base _ _ _ _ Hc)).
    assert (HX : forall i r, 0 < i <= K -> i <= Datatypes.S j -> r < neg -> X i r s' = true -> j' <= j).
    { intros i r Hi Hij Hr Hx. destruct (le_lt_dec K j); [destruct Hj' as (H & _); lia|].
      apply (jspec_le s'); auto. destruct j as [|j]; [lia|]. simpl.
      destruct i as [|i]; [lia|]. apply (Y_mono (Datatypes.S i)); auto; try lia.
      apply (X_in_Y i r); auto; lia. }
    destruct Hc as [(Hl & HW' & Ht)|(Hnone & Hc)].
    - assert (j' <= j - 1) by (apply (jspec_le s'); auto; lia). lia.
    - destruct j as [|j]; [lia|].
      destruct Hc as [(r & Hr & (_ & _ & Hx) & _)|(_ & H1K & (r & Hr & (_ & _ & Hx) & _))].
      + apply (HX (Datatypes.S j) r); auto; lia.
      + apply (HX (Datatypes.S (Datatypes.S j)) r); auto; lia.
  Qed.
End Sets.
