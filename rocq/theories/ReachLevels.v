(** What the level computation of synthesize_reachgame_BDD returns. Proofs only. *)
From Coq Require Import List ZArith Lia Bool Arith.
From Verif Require Import Base Fix Game GameTheory GameSound Levels Bdd BGame Support SupportProofs
  Ops OpsProofs SubProofs Synth Reach ReachSpec ReachSets.
Import ListNotations.
Open Scope nat_scope.

Lemma do_until_ext_mono : forall A (same : A -> A -> bool) step f f' x r, f <= f' ->
  do_until f same step x = Ok r -> do_until f' same step x = Ok r.
Proof.
  intros. eapply do_until_mono; [|eassumption|eassumption]. auto.
Qed.

Section Mono.
  Variables (ne ns : nat) (et st Exit N : dt).
  Lemma rx_loop_mono : forall f f' Ye eg X, f <= f' ->
    rx_loop ne ns et st Exit N f Ye eg = Ok X -> rx_loop ne ns et st Exit N f' Ye eg = Ok X.
  Proof. intros. eapply do_until_ext_mono; eauto. Qed.
  Lemma rx_union_mono : forall f f' Ye egs, f <= f' -> forall Xs Y R,
    rx_union ne ns et st Exit N f Ye egs Xs Y = Ok R ->
    rx_union ne ns et st Exit N f' Ye egs Xs Y = Ok R.
  Proof.
    intros f f' Ye egs Hf. induction egs as [|g egs IH]; simpl; intros Xs Y R H; auto.
    apply bind_ok in H. destruct H as (X & HX & H).
    rewrite (rx_loop_mono f f' _ _ _ Hf HX). simpl. auto.
  Qed.
  Lemma reach_loop_mono : forall xf xf' Entry egs, xf <= xf' -> forall f f' Ys Yp Xs R, f <= f' ->
    reach_loop ne ns et st Exit N f xf Entry egs Ys Yp Xs = Ok R ->
    reach_loop ne ns et st Exit N f' xf' Entry egs Ys Yp Xs = Ok R.
  Proof.
    intros xf xf' Entry egs Hxf. induction f; simpl; intros f' Ys Yp Xs R Hf H; [discriminate|].
    destruct f' as [|f']; [lia|]. simpl.
    apply bind_ok in H. destruct H as (p & Hp & H).
    rewrite (rx_union_mono xf xf' _ _ Hxf _ _ _ Hp). cbn [bind].
    destruct (_ && _); auto. destruct (same ne ns _ Yp); auto. apply IHf; auto. lia.
  Qed.
  Lemma reach_levels_mono : forall f f' Entry egs R, f <= f' ->
    reach_levels ne ns et st Exit N f Entry egs = Ok R ->
    reach_levels ne ns et st Exit N f' Entry egs = Ok R.
  Proof. intros f f' Entry egs R Hf H. exact (reach_loop_mono f f' _ _ Hf _ _ _ _ _ _ Hf H). Qed.
End Mono.

Section RL.
  Variables (ne ns : nat) (et st Exit N : dt) (egs sgs : list dt).
  Let n := ne + ns.
  Let m := 2 * (ne + ns).
  Hypothesis Het : no_primed_sys ne ns et.
  Notation Good := (Good ne ns).
  Notation den := (evS n).
  Notation states := (all_vecs n).
  Notation EXb := (EXm ne ns et st).
  Notation z0 := (bZero m).
  Hypothesis HgE : Good Exit.
  Hypothesis HgN : Good N.
  Hypothesis Hegs : Forall Good egs.
  Let G0 := bgame ne ns et st egs sgs.
  Let G := within (den N) G0.
  Let EXg := EX G0 vec_eqb.

  (** the operator of the inner loop *)
  Definition Fr (Y eg P : vec -> bool) (s : vec) : bool :=
    (den Exit s || (EXg Y s && den N s)) || ((EXg P s && den N s) && negb (eg s)).
  Lemma Fr_le : forall Y Y' eg P P', leP states Y Y' -> leP states P P' ->
    leP states (Fr Y eg P) (Fr Y' eg P').
  Proof.
    intros Y Y' eg P P' HY HP s Hs. unfold Fr.
    rewrite !orb_true_iff, !andb_true_iff. intros [[H|(H1 & H2)]|((H1 & H2) & H3)]; auto.
    - left. right. split; auto. eapply (EX_mono G0 vec_eqb vec_eqb_eq Y); eauto.
    - right. split; auto. split; auto. eapply (EX_mono G0 vec_eqb vec_eqb_eq P); eauto.
  Qed.
  Lemma Fr_mono : forall Y eg, monoP states (Fr Y eg).
  Proof. intros Y eg P P' H. apply Fr_le; auto. apply leP_refl. Qed.
  Lemma bv : forall s, In s states -> bitvec n s.
  Proof. intros. apply all_vecs_spec; auto. Qed.

  Lemma exmod_ok : forall Yp, Good Yp -> Good (bAnd m (EXb Yp) N) /\
    forall s, bitvec n s -> den (bAnd m (EXb Yp) N) s = EXg (den Yp) s && den N s.
  Proof.
    intros Yp HYp. destruct (good_EX ne ns et st Het egs sgs Yp HYp) as [HE1 HE2].
    destruct (good_And ne ns _ N HE1 HgN) as [HA1 HA2]. split; [exact HA1|].
    intros s Hs. etransitivity; [apply HA2; auto|]. f_equal. apply HE2; auto.
  Qed.
  Lemma rx_loop_ok : forall Yp eg fuel, Good Yp -> Good eg -> length states < fuel ->
    exists X, rx_loop ne ns et st Exit N fuel (bAnd m (EXb Yp) N) eg = Ok X /\ Good X /\
      is_gfp states (Fr (den Yp) (den eg)) (den X).
  Proof.
    intros Yp eg fuel HYp Heg Hfuel. unfold rx_loop. fold m.
    destruct (good_One ne ns) as [HO1 HO2].
    destruct (gfp_loop states Good den (same ne ns)
                (rx_step ne ns et st Exit N (bAnd m (EXb Yp) N) eg)
                (Fr (den Yp) (den eg)) (Fr_mono _ _) (same_good ne ns))
      with (x0 := bOne m) (fuel := fuel) as (X & HX & HG & Hg); auto.
    { intros X HX. unfold rx_step. fold m. eexists. split; [reflexivity|].
      destruct (exmod_ok X HX) as [HE1 HE2].
      destruct (exmod_ok Yp HYp) as [HY1 HY2].
      destruct (good_Or ne ns _ _ HgE HY1) as [HB1 HB2].
      destruct (good_Not ne ns eg Heg) as [HN1 HN2].
      destruct (good_And ne ns _ _ HE1 HN1) as [HC1 HC2].
      destruct (good_Or ne ns _ _ HB1 HC1) as [HD1 HD2].
      destruct (good_And ne ns _ _ HD1 HX) as [HR1 HR2].
      fold m n in HR1, HR2, HD2, HB2, HC2, HN2. change (OpsProofs.den ne ns) with (evS n) in *.
      split; auto. intros s Hs. apply bv in Hs.
      rewrite HR2, HD2, HB2, HC2, HN2, HY2, HE2 by auto. reflexivity. }
    { intros s Hs. apply HO2, bv; auto. }
    exists X. auto.
  Qed.

  (** the sets of one level *)
  Definition row_good (Yp : dt) (eg Xs : list dt) : Prop :=
    length Xs = length eg /\ Forall Good Xs /\
    forall r, r < length eg ->
      is_gfp states (Fr (den Yp) (den (nth r eg z0))) (den (nth r Xs z0)).
  Definition union_of (Y : dt) (Xs : list dt) (R : dt) : Prop :=
    forall s, bitvec n s -> (den R s = true <->
      den Y s = true \/ exists r, r < length Xs /\ den (nth r Xs z0) s = true).
  Lemma rx_union_ok : forall Yp fuel, Good Yp -> length states < fuel ->
    forall eg, Forall Good eg -> forall acc Y, Good Y ->
    exists Xs R, rx_union ne ns et st Exit N fuel (bAnd m (EXb Yp) N) eg acc Y = Ok (acc ++ Xs, R) /\
      row_good Yp eg Xs /\ Good R /\ union_of Y Xs R.
  Proof.
    intros Yp fuel HYp Hfuel eg Heg.
    induction Heg as [|g eg Hg Heg IH]; intros acc Y HY; simpl.
    - exists [], Y. rewrite app_nil_r. split; auto. split; [split; auto; split; auto; intros r Hr; simpl in Hr; lia|].
      split; auto. intros s Hs. split; auto. intros [H|(r & Hr & _)]; auto. simpl in Hr. lia.
    - destruct (rx_loop_ok Yp g fuel) as (X & HX & HXg & HXe); auto.
      rewrite HX. cbn [bind]. fold m.
      destruct (good_Or ne ns Y X HY HXg) as [HO1 HO2]. fold m n in HO1, HO2.
      destruct (IH (acc ++ [X]) _ HO1) as (Xs & R & HR & (Hl & HXs & Hn) & HRg & HRe).
      exists (X :: Xs), R. split; [rewrite <- app_assoc in HR; exact HR|]. split; [|split; auto].
      + split; [simpl; lia|]. split; [constructor; auto|]. intros [|r] Hr; simpl; auto.
        apply Hn. simpl in Hr. lia.
      + intros s Hs. rewrite (HRe s Hs).
        change (den (bOr m Y X) s) with (OpsProofs.den ne ns (bOr m Y X) s).
        rewrite HO2, orb_true_iff by auto. change (OpsProofs.den ne ns) with den. split.
        * intros [[H|H]|(r & Hr & H)]; auto.
          -- right. exists 0. simpl. split; [lia|auto].
          -- right. exists (S r). simpl. split; [lia|auto].
        * intros [H|([|r] & Hr & H)]; auto. right. exists r. simpl in *. split; [lia|auto].
  Qed.

  (** the arrays up to level [j] *)
  Definition rlad (j : nat) (Ys : list dt) (Xs : list (list dt)) : Prop :=
    length Ys = S j /\ length Xs = S j /\
    (forall i, i <= j -> Good (nth i Ys z0)) /\
    nth 0 Ys z0 = Exit /\ nth 0 Xs [] = repeat z0 (length egs) /\
    (forall i, i < j -> row_good (nth i Ys z0) egs (nth (S i) Xs []) /\
       union_of (nth i Ys z0) (nth (S i) Xs []) (nth (S i) Ys z0)).
  Definition sub (A B : dt) : Prop := forall s, bitvec n s -> den A s = true -> den B s = true.

  Lemma leq_both : forall Entry Y, Good Entry -> Good Y ->
    (bLeq m (bOr m Entry Y) Y && bLeq m Y (bOr m Entry Y) = true <-> sub Entry Y).
  Proof.
    intros Entry Y HE HY. destruct (good_Or ne ns Entry Y HE HY) as [HO1 HO2].
    rewrite bLeq_dbl by (apply HO1 || apply HY). rewrite (good_eq ne ns) by auto.
    change (OpsProofs.den ne ns) with den in *. split.
    - intros H s Hs Hd. rewrite <- (H s) by (apply all_vecs_spec; auto).
      etransitivity; [apply HO2; auto|]. rewrite Hd. auto.
    - intros H s Hs. apply bv in Hs. etransitivity; [apply HO2; auto|].
      destruct (den Entry s) eqn:E; auto. rewrite (H s); auto.
  Qed.

  Lemma reach_loop_ok : forall xfuel Entry, length states < xfuel -> Good Entry ->
    forall fuel j Ys Xs, rlad j Ys Xs ->
    length states - card states (den (nth j Ys z0)) < fuel ->
    exists Ys' Xs' K, rlad K Ys' Xs' /\
      ((reach_loop ne ns et st Exit N fuel xfuel Entry egs Ys (nth j Ys z0) Xs = Ok (Some (Ys', Xs')) /\
        sub Entry (nth K Ys' z0)) \/
       (reach_loop ne ns et st Exit N fuel xfuel Entry egs Ys (nth j Ys z0) Xs = Ok None /\
        ~ sub Entry (nth K Ys' z0) /\
        exists row, row_good (nth K Ys' z0) egs row /\
          forall r, r < length egs -> sub (nth r row z0) (nth K Ys' z0))).
  Proof.
    intros xfuel Entry Hxf HEn. induction fuel; intros j Ys Xs HL Hfuel; [lia|].
    pose proof HL as (HlY & HlX & HY & HY0 & HX0 & Hrow).
    cbn [reach_loop]. fold m.
    pose proof (HY j (le_n j)) as HgYp.
    destruct (good_Zero ne ns) as [HZ1 HZ2]. fold m n in HZ1, HZ2.
    destruct (rx_union_ok (nth j Ys z0) xfuel HgYp Hxf egs Hegs [] z0 HZ1)
      as (Xr & R & HR & HXr & HgR & HeR).
    rewrite HR. cbn [bind fst snd app].
    destruct (good_Or ne ns R (nth j Ys z0) HgR HgYp) as [HO1 HO2]. fold m n in HO1, HO2.
    set (Y := bOr m R (nth j Ys z0)) in *.
    assert (HU : union_of (nth j Ys z0) Xr Y).
    { intros s Hs. change (den Y s) with (OpsProofs.den ne ns Y s).
      rewrite HO2, orb_true_iff by auto. change (OpsProofs.den ne ns) with den.
      rewrite (HeR s Hs). change (OpsProofs.den ne ns) with den in HZ2. rewrite (HZ2 s Hs). intuition discriminate. }
    assert (HYp : leP states (den (nth j Ys z0)) (den Y)).
    { intros s Hs H. apply HU; auto. apply bv; auto. }
    assert (HL' : rlad (S j) (Ys ++ [Y]) (Xs ++ [Xr])).
    { split; [rewrite app_length; simpl; lia|]. split; [rewrite app_length; simpl; lia|].
      split; [|split; [|split]].
      - intros i Hi. destruct (Nat.eq_dec i (S j)) as [->|Hn].
        + rewrite nth_snoc_r; auto.
        + rewrite nth_snoc_l by lia. apply HY. lia.
      - rewrite nth_snoc_l by lia. auto.
      - rewrite nth_snoc_l by lia. auto.
      - intros i Hi. rewrite (nth_snoc_l _ Ys Y i) by lia. destruct (Nat.eq_dec i j) as [->|Hn].
        + rewrite !nth_snoc_r by auto. auto.
        + rewrite !nth_snoc_l by lia. apply Hrow. lia. }
    assert (HYn : nth (S j) (Ys ++ [Y]) z0 = Y) by (rewrite nth_snoc_r; auto).
    destruct (bLeq m (bOr m Entry Y) Y && bLeq m Y (bOr m Entry Y)) eqn:Eq.
    - apply leq_both in Eq; auto. destruct (same ne ns Y (nth j Ys z0)) eqn:Es.
      + apply same_good in Es; auto. change (OpsProofs.den ne ns) with den in Es. exists Ys, Xs, j. split; auto. left. split; auto.
        intros s Hs H. apply Eq in H; auto. rewrite <- H. symmetry.
        apply Es, all_vecs_spec; auto.
      + exists (Ys ++ [Y]), (Xs ++ [Xr]), (S j). split; auto. left. split; auto.
        rewrite HYn. exact Eq.
    - assert (Hns : ~ sub Entry Y). { intros H. apply leq_both in H; auto. congruence. }
      destruct (same ne ns Y (nth j Ys z0)) eqn:Es.
      + apply same_good in Es; auto. change (OpsProofs.den ne ns) with den in Es. exists Ys, Xs, j. split; auto. right. split; auto. split.
        * intros H. apply Hns. intros s Hs He. rewrite <- (H s Hs He).
          apply Es, all_vecs_spec; auto.
        * exists Xr. split; auto. intros r Hr s Hs H.
          rewrite <- (Es s) by (apply all_vecs_spec; auto). apply HU; auto. right.
          exists r. split; auto. rewrite (proj1 HXr). auto.
      + pose proof (IHfuel (S j) (Ys ++ [Y]) (Xs ++ [Xr]) HL') as IH'. rewrite HYn in IH'.
        apply IH'.
        assert (Hc : card states (den (nth j Ys z0)) < card states (den Y)).
        { destruct (leb states (den Y) (den (nth j Ys z0))) eqn:El.
          - exfalso. assert (same ne ns Y (nth j Ys z0) = true); [|congruence].
            apply same_good; auto. apply leP_antisym; [apply leb_spec; auto|exact HYp].
          - apply not_leb in El. destruct El as (a & Ha & H1 & H2).
            apply card_lt with (a := a); auto. }
        pose proof (card_bound states (den Y)). lia.
  Qed.

  Lemma rlad_0 : rlad 0 [Exit] [repeat z0 (length egs)].
  Proof.
    split; auto. split; auto. split; [|split; auto; split; auto; intros; lia].
    intros i Hi. destruct i; [exact HgE|lia].
  Qed.

  Lemma reach_levels_ok : forall fuel Entry, length states < fuel -> Good Entry ->
    exists Ys Xs K, rlad K Ys Xs /\
      ((reach_levels ne ns et st Exit N fuel Entry egs = Ok (Some (Ys, Xs)) /\
        sub Entry (nth K Ys z0)) \/
       (reach_levels ne ns et st Exit N fuel Entry egs = Ok None /\
        ~ sub Entry (nth K Ys z0) /\
        exists row, row_good (nth K Ys z0) egs row /\
          forall r, r < length egs -> sub (nth r row z0) (nth K Ys z0))).
  Proof.
    intros fuel Entry Hf HE. apply (reach_loop_ok fuel Entry Hf HE fuel 0 _ _ rlad_0). lia.
  Qed.
  Lemma reach_levels_some : forall fuel Entry Ys Xs, Good Entry ->
    reach_levels ne ns et st Exit N fuel Entry egs = Ok (Some (Ys, Xs)) ->
    exists K, rlad K Ys Xs /\ sub Entry (nth K Ys z0).
  Proof.
    intros fuel Entry Ys Xs HE H.
    destruct (reach_levels_ok (fuel + S (length states)) Entry) as (Ys' & Xs' & K & HL & Hc);
      auto; [lia|].
    apply reach_levels_mono with (f' := fuel + S (length states)) in H; [|lia].
    destruct Hc as [(H1 & H2)|(H1 & _)]; [|congruence].
    assert (Ys' = Ys /\ Xs' = Xs) as (-> & ->) by (rewrite H in H1; injection H1; auto).
    eauto.
  Qed.
  Lemma reach_levels_none : forall fuel Entry, Good Entry ->
    reach_levels ne ns et st Exit N fuel Entry egs = Ok None ->
    exists Ys Xs K, rlad K Ys Xs /\ ~ sub Entry (nth K Ys z0) /\
        exists row, row_good (nth K Ys z0) egs row /\
          forall r, r < length egs -> sub (nth r row z0) (nth K Ys z0).
  Proof.
    intros fuel Entry HE H.
    destruct (reach_levels_ok (fuel + S (length states)) Entry) as (Ys & Xs & K & HL & Hc);
      auto; [lia|].
    apply reach_levels_mono with (f' := fuel + S (length states)) in H; [|lia].
    destruct Hc as [(H1 & H2)|(H1 & H2)]; [congruence|]. exists Ys, Xs, K. auto.
  Qed.

  (** ** the arrays as level sets of the game restricted to [N] *)
  Hypothesis HEN : sub Exit N.
  Let eg r := nth r (g_egoals G) (fun _ => false).
  Let neg := length (g_egoals G).
  Definition rY (Ys : list dt) (j : nat) : vec -> bool := den (nth j Ys z0).
  Definition rX (Xs : list (list dt)) (j r : nat) : vec -> bool := den (nth r (nth j Xs []) z0).

  Lemma neg_len : neg = length egs.
  Proof. unfold neg. simpl. apply map_length. Qed.
  Lemma eg_den : forall r, r < neg -> eg r = den (nth r egs z0).
  Proof.
    intros r Hr. unfold eg. simpl. rewrite neg_len in Hr.
    rewrite (nth_indep _ _ (den z0)) by (rewrite map_length; auto). apply map_nth.
  Qed.
  Lemma stG : forall s, In s (g_states G) <-> bitvec n s /\ den N s = true.
  Proof.
    intros s. unfold G. simpl. rewrite filter_In, all_vecs_spec. fold n. tauto.
  Qed.
  Lemma forces_EX : forall T s, (forall u, bitvec n u -> T u = true -> den N u = true) ->
    (EXg T s = true <-> forces G T s).
  Proof.
    intros T s HT. unfold EXg. rewrite (EX_spec G0 vec_eqb vec_eqb_eq). split.
    - intros H e He. destruct (H e He) as (s' & (H1 & H2) & HC). exists s'. split; auto.
      split; auto. apply stG. assert (bitvec n s') by (apply all_vecs_spec; exact H1). auto.
    - intros H e He. destruct (H e He) as (s' & (H1 & H2) & HC). exists s'. split; auto.
      split; auto. apply stG in H1. apply all_vecs_spec. apply H1.
  Qed.
  Lemma gfp_in_N : forall Yp g X, is_gfp states (Fr (den Yp) g) (den X) -> sub X N.
  Proof.
    intros Yp g X (H1 & _) s Hs H. assert (Hin : In s states) by (apply all_vecs_spec; auto).
    specialize (H1 s Hin H). unfold Fr in H1.
    rewrite !orb_true_iff, !andb_true_iff in H1. destruct H1 as [[H1|(_ & H1)]|((_ & H1) & _)]; auto.
  Qed.
  Lemma rY_in_N : forall K Ys Xs, rlad K Ys Xs -> forall j, j <= K -> sub (nth j Ys z0) N.
  Proof.
    intros K Ys Xs (_ & _ & _ & HY0 & _ & Hrow) j. induction j; intros Hj.
    - rewrite HY0. exact HEN.
    - destruct (Hrow j) as ((Hl & _ & Hg) & HU); [lia|]. intros s Hs H. apply HU in H; auto.
      destruct H as [H|(r & Hr & H)].
      + apply IHj; auto. lia.
      + rewrite Hl in Hr. apply (gfp_in_N _ _ _ (Hg r Hr)); auto.
  Qed.
  Lemma gfp_step : forall Yp g X, sub Yp N -> is_gfp states (Fr (den Yp) g) (den X) ->
    forall s, In s (g_states G) -> (den X s = true <->
      den Exit s = true \/ forces G (den Yp) s \/ (g s = false /\ forces G (den X) s)).
  Proof.
    intros Yp g X HY Hg s Hs. apply stG in Hs. destruct Hs as (Hs & HN).
    assert (Hin : In s states) by (apply all_vecs_spec; auto).
    pose proof (gfp_in_N _ _ _ Hg) as HX.
    assert (He : den X s = Fr (den Yp) g (den X) s).
    { apply eq_true_iff_eq. split.
      - apply Hg; auto.
      - apply (proj2 Hg); auto. apply Fr_mono. apply Hg. }
    rewrite He. unfold Fr. rewrite HN, !andb_true_r, !orb_true_iff, !andb_true_iff.
    rewrite !forces_EX by auto. rewrite negb_true_iff. tauto.
  Qed.
  Lemma rlad_rladder : forall K Ys Xs, rlad K Ys Xs ->
    rladder G (den Exit) eg neg K (rY Ys) (rX Xs).
  Proof.
    intros K Ys Xs HL. pose proof (rY_in_N K Ys Xs HL) as HYN.
    destruct HL as (HlY & HlX & HYg & HY0 & HX0 & Hrow). constructor.
    - intros s Hs. unfold rY. rewrite HY0. auto.
    - intros r s Hr Hs. unfold rX. rewrite HX0. rewrite neg_len in Hr.
      apply stG in Hs. replace (nth r (repeat z0 (length egs)) z0) with z0.
      + apply (good_Zero ne ns). apply Hs.
      + clear. generalize (length egs). intros k. revert r.
        induction k; intros [|r]; simpl; auto.
    - intros j s Hj Hs. destruct (Hrow j Hj) as ((Hl & _) & HU). apply stG in Hs.
      unfold rY, rX. rewrite (HU s) by apply Hs. rewrite Hl, neg_len. tauto.
    - intros j r s Hj Hr Hs. destruct (Hrow j Hj) as ((_ & _ & Hg) & _).
      unfold rX, rY. rewrite eg_den by auto. apply gfp_step; auto.
      + apply HYN. lia.
      + apply Hg. rewrite <- neg_len. auto.
  Qed.
  (** the failing case: the last set is closed *)
  Lemma closed_final : forall K Ys Xs row, rlad K Ys Xs -> row_good (nth K Ys z0) egs row ->
    (forall r, r < length egs -> sub (nth r row z0) (nth K Ys z0)) ->
    forall g P, In g (g_egoals G) ->
    (forall s, In s (g_states G) -> P s = true ->
       den Exit s = true \/ forces G (rY Ys K) s \/ (g s = false /\ forces G P s)) ->
    forall s, In s (g_states G) -> P s = true -> rY Ys K s = true.
  Proof.
    intros K Ys Xs row HL (Hl & _ & Hg) Hsub g P Hin HP s Hs HPs.
    pose proof (rY_in_N K Ys Xs HL K (le_n K)) as HYN.
    destruct (In_nth _ _ (fun _ => false) Hin) as (r & Hr & <-).
    pose proof (eg_den r Hr) as Heg. fold (eg r) in HP. change (r < neg) in Hr; rewrite neg_len in Hr.
    apply stG in Hs as Hs'. destruct Hs' as (Hbs & HNs).
    apply (Hsub r Hr); auto.
    assert (Hle : leP states (fun u => P u && den N u) (den (nth r row z0))).
    { apply (proj2 (Hg r Hr)). intros u Hu H. apply andb_true_iff in H. destruct H as (H1 & H2).
      assert (Hu' : In u (g_states G)) by (apply stG; split; auto; apply bv; auto).
      specialize (HP u Hu' H1). rewrite Heg in HP. unfold Fr.
      rewrite H2, !andb_true_r, !orb_true_iff, !andb_true_iff, negb_true_iff.
      destruct HP as [HP|[HP|(HP1 & HP2)]]; auto.
      - left. right. apply forces_EX; auto.
      - right. split; auto. apply forces_EX.
        + intros v Hv Hv2. apply andb_true_iff in Hv2. apply Hv2.
        + intros e He. destruct (HP2 e He) as (s' & Hl' & Hp'). exists s'. split; auto.
          rewrite Hp'. assert (Hst : In s' (g_states G)) by apply Hl'. apply stG in Hst.
          rewrite (proj2 Hst). auto. }
    apply Hle; [apply all_vecs_spec; auto|]. rewrite HPs, HNs. auto.
  Qed.
End RL.
