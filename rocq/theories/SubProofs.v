(** Proofs about compute_sublevel_sets, and independence of the loop bounds. *)
From Coq Require Import List ZArith Lia Bool Arith.
From Verif Require Import Base Fix Game GameTheory GameComplete Bdd BGame Support SupportProofs
  EnumProofs Ops OpsProofs.
Import ListNotations.
Open Scope nat_scope.

(** ** Results do not depend on the loop bound *)
Section Mono.
  Variables (ne ns : nat) (et st : dt).
  Lemma x_loop_mono : forall f f' sg Z Ye eg X, f <= f' ->
    x_loop ne ns et st f sg Z Ye eg = Ok X -> x_loop ne ns et st f' sg Z Ye eg = Ok X.
  Proof. intros. unfold x_loop in *. eapply do_until_mono; eauto. Qed.
  Lemma y_union_mono : forall f f' sg Z Ye egs Y R, f <= f' ->
    y_union ne ns et st f sg Z Ye egs Y = Ok R -> y_union ne ns et st f' sg Z Ye egs Y = Ok R.
  Proof.
    induction egs as [|g egs IH]; simpl; intros Y R Hf H; auto.
    apply bind_ok in H. destruct H as (X & HX & H).
    rewrite (x_loop_mono f f' _ _ _ _ _ Hf HX). simpl. auto.
  Qed.
  Lemma y_loop_mono : forall f f' sg Z egs R, f <= f' ->
    y_loop ne ns et st f egs sg Z = Ok R -> y_loop ne ns et st f' egs sg Z = Ok R.
  Proof.
    intros f f' sg Z egs R Hf H. unfold y_loop in *.
    eapply do_until_mono; [|exact H|exact Hf].
    intros x x' Hx. unfold y_step in *. apply bind_ok in Hx. destruct Hx as (Y & HY & Hx).
    rewrite (y_union_mono f f' _ _ _ _ _ _ Hf HY). exact Hx.
  Qed.
  Lemma z_pass_mono : forall f f' egs k sgs Zp, f <= f' -> forall i R,
    z_pass ne ns et st f egs k i sgs Zp = Ok R -> z_pass ne ns et st f' egs k i sgs Zp = Ok R.
  Proof.
    intros f f' egs k sgs Zp Hf. induction sgs as [|sg sgs IH]; simpl; intros i R H; auto.
    apply bind_ok in H. destruct H as (Y & HY & H). apply bind_ok in H. destruct H as (l & Hl & H).
    rewrite (y_loop_mono f f' _ _ _ _ Hf HY). cbn [bind].
    rewrite (IH _ _ Hl). exact H.
  Qed.
  Lemma winning_set_mono : forall f f' egs sgs W, f <= f' ->
    compute_winning_set_BDD ne ns et st f egs sgs = Ok W ->
    compute_winning_set_BDD ne ns et st f' egs sgs = Ok W.
  Proof.
    intros f f' egs sgs W Hf H. unfold compute_winning_set_BDD in *.
    apply bind_ok in H. destruct H as (Z & HZ & H).
    erewrite do_until_mono; [|  |exact HZ|exact Hf]; [exact H|].
    intros x x' Hx. eapply z_pass_mono; eauto.
  Qed.
  Lemma sub_union_mono : forall f f' sg W Ye egs, f <= f' -> forall Xs Y R,
    sub_union ne ns et st f sg W Ye egs Xs Y = Ok R ->
    sub_union ne ns et st f' sg W Ye egs Xs Y = Ok R.
  Proof.
    intros f f' sg W Ye egs Hf. induction egs as [|g egs IH]; simpl; intros Xs Y R H; auto.
    apply bind_ok in H. destruct H as (X & HX & H).
    rewrite (x_loop_mono f f' _ _ _ _ _ Hf HX). simpl. auto.
  Qed.
  Lemma sub_loop_mono : forall xf xf' egs sg W, xf <= xf' -> forall f f' Ys Yp Xs R, f <= f' ->
    sub_loop ne ns et st f xf egs sg W Ys Yp Xs = Ok R ->
    sub_loop ne ns et st f' xf' egs sg W Ys Yp Xs = Ok R.
  Proof.
    intros xf xf' egs sg W Hxf. induction f; simpl; intros f' Ys Yp Xs R Hf H; [discriminate|].
    destruct f' as [|f']; [lia|]. simpl.
    apply bind_ok in H. destruct H as (p & Hp & H).
    rewrite (sub_union_mono xf xf' _ _ _ _ Hxf _ _ _ Hp). cbn [bind].
    destruct (same ne ns _ Yp); auto. apply IHf; auto. lia.
  Qed.
  Lemma sub_goals_mono : forall f f' egs W sgs R, f <= f' ->
    sub_goals ne ns et st f egs W sgs = Ok R -> sub_goals ne ns et st f' egs W sgs = Ok R.
  Proof.
    intros f f' egs W. induction sgs as [|sg sgs IH]; simpl; intros R Hf H; auto.
    apply bind_ok in H. destruct H as (p & Hp & H). apply bind_ok in H. destruct H as (l & Hl & H).
    rewrite (sub_loop_mono f f' _ _ _ Hf _ _ _ _ _ _ Hf Hp). cbn [bind].
    rewrite (IH _ Hf Hl). exact H.
  Qed.
  Lemma sublevel_mono : forall f f' egs W sgs R, f <= f' ->
    compute_sublevel_sets ne ns et st f W egs sgs = Ok R ->
    compute_sublevel_sets ne ns et st f' W egs sgs = Ok R.
  Proof.
    intros f f' egs W sgs R Hf H. unfold compute_sublevel_sets in *. destruct sgs; auto.
    apply bind_ok in H. destruct H as (l & Hl & H).
    rewrite (sub_goals_mono f f' _ _ _ _ Hf Hl). exact H.
  Qed.
End Mono.

Section SubProofs.
  Variables (ne ns : nat) (et st : dt).
  Let n := ne + ns.
  Let m := 2 * (ne + ns).
  Hypothesis Het : no_primed_sys ne ns et.
  Variables (egs sgs : list dt).
  Hypothesis Hegs : Forall (Good ne ns) egs.
  Hypothesis Hsgs : Forall (Good ne ns) sgs.
  Let G := bgame ne ns et st egs sgs.
  Notation states := (all_vecs n).
  Notation EXb := (EXm ne ns et st).
  Notation Good := (Good ne ns).
  Notation den := (den ne ns).
  Notation z0 := (bZero m).

  Section OneGoal.
  Variables (sg W : dt).
  Hypothesis Hsg : Good sg.
  Hypothesis HW : Good W.
  Definition Bs : vec -> bool := fun s => den sg s && den W s.
  Definition Fs := stepY G vec_eqb Bs.
  Lemma Fs_mono : monoP states Fs.
  Proof. exact (stepY_mono G vec_eqb vec_eqb_eq Bs). Qed.

  Lemma sub_union_ok : forall Yp fuel, Good Yp -> length states < fuel ->
    forall eg, Forall Good eg -> forall acc Y, Good Y ->
    exists Xs R, sub_union ne ns et st fuel sg W (EXb Yp) eg acc Y = Ok (acc ++ Xs, R) /\
      length Xs = length eg /\ Forall Good Xs /\ Good R /\
      (forall r, r < length eg ->
         eqP states (den (nth r Xs z0)) (nuX G vec_eqb Bs (den (nth r eg z0)) (den Yp))) /\
      eqP states (den R) (fun s => den Y s ||
        existsb (fun g => nuX G vec_eqb Bs g (den Yp) s) (map den eg)).
  Proof.
    intros Yp fuel HYp Hfuel eg Heg.
    induction Heg as [|g eg Hg Heg IH]; intros acc Y HY; simpl.
    - exists [], Y. rewrite app_nil_r. repeat split; auto; try apply HY.
      + intros r Hr. lia.
      + intros s Hs. rewrite orb_false_r. reflexivity.
    - destruct (x_loop_ok ne ns et st Het egs sgs sg W Yp g fuel) as (X & HX & HXg & HXe); auto.
      rewrite HX. cbn [bind]. fold m.
      destruct (good_Or ne ns Y X HY HXg) as [HO1 HO2]. fold m in HO1, HO2.
      destruct (IH (acc ++ [X]) _ HO1) as (Xs & R & HR & Hl & HXs & HRg & Hn & HRe).
      exists (X :: Xs), R. split; [rewrite <- app_assoc in HR; exact HR|].
      split; [simpl; lia|]. split; [constructor; auto|]. split; auto. split.
      + intros r Hr. destruct r; simpl; auto. apply Hn. lia.
      + intros s Hs. rewrite HRe by auto.
        rewrite HO2 by (apply all_vecs_spec; auto). rewrite (HXe s Hs), orb_assoc. reflexivity.
  Qed.

  (** the ladder up to level [j] *)
  Definition ladder (j : nat) (Ys : list dt) (Xs : list (list dt)) : Prop :=
    length Ys = S j /\ length Xs = S j /\
    (forall i, i <= j -> Good (nth i Ys z0) /\ eqP states (den (nth i Ys z0)) (up Fs i)) /\
    nth 0 Xs [] = repeat z0 (length egs) /\
    (forall i, 1 <= i <= j -> length (nth i Xs []) = length egs /\
       Forall Good (nth i Xs []) /\
       forall r, r < length egs -> eqP states (den (nth r (nth i Xs []) z0))
         (nuX G vec_eqb Bs (den (nth r egs z0)) (up Fs (Nat.pred i)))) /\
    (forall i, i < j -> ~ eqP states (up Fs (S i)) (up Fs i)).

  Lemma up_incr : forall j, leP states (up Fs j) (up Fs (S j)).
  Proof. intros. apply up_step. apply Fs_mono. Qed.

  Lemma nth_snoc_l : forall A (l : list A) x i d, i < length l -> nth i (l ++ [x]) d = nth i l d.
  Proof. intros. apply app_nth1; auto. Qed.
  Lemma nth_snoc_r : forall A (l : list A) x i d, i = length l -> nth i (l ++ [x]) d = x.
  Proof. intros. subst. rewrite app_nth2, Nat.sub_diag by lia. reflexivity. Qed.

  Lemma sub_loop_ok : forall xfuel, length states < xfuel ->
    forall fuel j Ys Xs, ladder j Ys Xs ->
    length states - card states (up Fs j) < fuel ->
    exists Ys' Xs' K, sub_loop ne ns et st fuel xfuel egs sg W Ys (nth j Ys z0) Xs = Ok (Ys', Xs') /\
      ladder K Ys' Xs' /\ eqP states (up Fs (S K)) (up Fs K).
  Proof.
    intros xfuel Hxf. induction fuel; intros j Ys Xs HL Hfuel; [lia|].
    destruct HL as (HlY & HlX & HY & HX0 & HX & Hstrict).
    cbn [sub_loop]. fold m.
    destruct (HY j (le_n j)) as (HgYp & HeYp).
    destruct (good_Zero ne ns) as [HZ1 HZ2]. fold m in HZ1, HZ2.
    destruct (sub_union_ok (nth j Ys z0) xfuel HgYp Hxf egs Hegs [] z0 HZ1)
      as (Xr & R & HR & HlXr & HgXr & HgR & HXr & HeR).
    rewrite HR. cbn [bind fst snd app].
    destruct (good_Or ne ns R (nth j Ys z0) HgR HgYp) as [HO1 HO2]. fold m in HO1, HO2.
    set (Y := bOr m R (nth j Ys z0)) in *.
    assert (HeY : eqP states (den Y) (up Fs (S j))).
    { intros s Hs. rewrite HO2 by (apply all_vecs_spec; auto). rewrite (HeR s Hs).
      rewrite HZ2 by (apply all_vecs_spec; auto). rewrite orb_false_l.
      change (existsb (fun g => nuX G vec_eqb Bs g (den (nth j Ys z0)) s) (map den egs))
        with (Fs (den (nth j Ys z0)) s).
      rewrite (mono_ext _ _ Fs_mono _ _ HeYp s Hs). rewrite (HeYp s Hs).
      change (Fs (up Fs j) s) with (up Fs (S j) s).
      destruct (up Fs j s) eqn:E; [|apply orb_false_r].
      rewrite (up_incr j s Hs E). reflexivity. }
    destruct (same ne ns Y (nth j Ys z0)) eqn:Es.
    - apply same_good in Es; auto.
      exists Ys, Xs, j. split; [reflexivity|]. split; [repeat split; auto; apply HY || apply HX; auto|].
      intros s Hs. rewrite <- (HeY s Hs), <- (HeYp s Hs). apply Es; auto.
    - assert (Hne : ~ eqP states (up Fs (S j)) (up Fs j)).
      { intros H. assert (same ne ns Y (nth j Ys z0) = true); [|congruence].
        apply same_good; auto. intros s Hs. rewrite (HeY s Hs), (HeYp s Hs). apply H; auto. }
      assert (HL' : ladder (S j) (Ys ++ [Y]) (Xs ++ [Xr])).
      { split; [rewrite app_length; simpl; lia|]. split; [rewrite app_length; simpl; lia|].
        split; [|split; [|split]].
        - intros i Hi. destruct (Nat.eq_dec i (S j)) as [->|Hn].
          + rewrite nth_snoc_r by auto. split; auto.
          + rewrite nth_snoc_l by lia. apply HY. lia.
        - rewrite nth_snoc_l by lia. auto.
        - intros i Hi. destruct (Nat.eq_dec i (S j)) as [->|Hn].
          + rewrite nth_snoc_r by auto. split; auto. split; auto.
            intros r Hr. simpl Nat.pred. eapply eqP_trans; [apply HXr; auto|].
            apply leP_antisym; apply (nuX_le G vec_eqb vec_eqb_eq); try apply leP_refl;
              apply eqP_leP; [exact HeYp|apply eqP_sym; exact HeYp].
          + rewrite nth_snoc_l by lia. apply HX. lia.
        - intros i Hi. destruct (Nat.eq_dec i j) as [->|Hn]; auto. apply Hstrict. lia. }
      assert (HYn : nth (S j) (Ys ++ [Y]) z0 = Y) by (rewrite nth_snoc_r; auto).
      pose proof (IHfuel (S j) (Ys ++ [Y]) (Xs ++ [Xr]) HL') as IH'. rewrite HYn in IH'.
      apply IH'.
      assert (Hc : card states (up Fs j) < card states (up Fs (S j))).
      { destruct (leb states (up Fs (S j)) (up Fs j)) eqn:El.
        - exfalso. apply Hne. apply leP_antisym; [apply leb_spec; auto|apply up_incr].
        - apply not_leb in El. destruct El as (a & Ha & H1 & H2).
          apply card_lt with (a := a); auto. apply up_incr. }
      pose proof (card_bound states (up Fs (S j))). lia.
  Qed.

  Lemma ladder_0 : ladder 0 [z0] [repeat z0 (length egs)].
  Proof.
    repeat split; auto; try (intros; lia).
    - destruct i; [|lia]. apply good_Zero.
    - destruct i; [|lia]. apply (good_Zero ne ns).
    - destruct i; [|lia]. intros s Hs. simpl.
      apply (good_Zero ne ns). apply all_vecs_spec; auto.
  Qed.

  Lemma up_fix_mu : forall K, eqP states (up Fs (S K)) (up Fs K) ->
    eqP states (up Fs K) (muY G vec_eqb Bs).
  Proof.
    intros K HK. apply (lfp_unique states Fs).
    - split.
      + intros s Hs H. rewrite <- (HK s Hs). exact H.
      + intros P HP. apply up_below_pre; auto. apply Fs_mono.
    - apply (mu_lfp states Fs Fs_mono).
  Qed.
  End OneGoal.

  Lemma sub_goals_ok : forall fuel W, length states < fuel -> Good W ->
    forall l, Forall Good l ->
    exists R, sub_goals ne ns et st fuel egs W l = Ok R /\ length R = length l /\
      forall i, i < length l -> exists K,
        ladder (nth i l z0) W K (fst (nth i R ([], []))) (snd (nth i R ([], []))) /\
        eqP states (up (Fs (nth i l z0) W) (S K)) (up (Fs (nth i l z0) W) K).
  Proof.
    intros fuel W Hf HW l Hl. induction Hl as [|sg l Hsg Hl IH]; cbn [sub_goals].
    - exists []. repeat split; auto. simpl. intros; lia.
    - destruct (sub_loop_ok sg W Hsg HW fuel Hf fuel 0 [z0] [repeat z0 (length egs)]
                  (ladder_0 sg W)) as (Ys & Xs & K & HR & HL & HK).
      { lia. }
      cbn [nth] in HR. unfold m in HR. rewrite HR. cbn [bind].
      destruct IH as (R & HRl & HlR & HRi). rewrite HRl. cbn [bind].
      eexists. split; [reflexivity|]. split; [simpl; lia|].
      intros i Hi. destruct i; cbn [nth fst snd]; eauto. apply HRi. simpl in Hi. lia.
  Qed.
End SubProofs.
