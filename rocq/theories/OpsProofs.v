(** Proofs about the model of solve_operators.c. *)
From Coq Require Import List ZArith Lia Bool Arith.
From Verif Require Import Base Fix Game GameTheory GameComplete Bdd BGame Support SupportProofs EnumProofs Ops.
Import ListNotations.
Open Scope nat_scope.

(** ** Generic fixpoint loops *)
Section Loops.
  Context {A D : Type}.
  Variable dom : list D.
  Variable Inv : A -> Prop.
  Variable den : A -> D -> bool.
  Variable same : A -> A -> bool.
  Variable step : A -> out A.
  Variable F : (D -> bool) -> (D -> bool).
  Hypothesis F_mono : monoP dom F.
  Hypothesis same_spec : forall x y, Inv x -> Inv y ->
    (same x y = true <-> eqP dom (den x) (den y)).

  Lemma gfp_loop :
    (forall x, Inv x -> exists x', step x = Ok x' /\ Inv x' /\
       eqP dom (den x') (fun a => F (den x) a && den x a)) ->
    forall x0 fuel, Inv x0 -> eqP dom (den x0) topP -> length dom < fuel ->
    exists r, do_until fuel same step x0 = Ok r /\ Inv r /\ is_gfp dom F (den r).
  Proof.
    intros Hstep x0 fuel Hx0 Htop Hfuel.
    assert (Hle : forall x x', Inv x -> step x = Ok x' -> leP dom (den x') (den x)).
    { intros x x' Hx Hs a Ha H. destruct (Hstep x Hx) as (y & Hy & _ & Hd).
      rewrite Hs in Hy. injection Hy as <-. rewrite Hd in H; auto.
      apply andb_true_iff in H. tauto. }
    destruct (do_until_terminates A same step Inv (fun x => card dom (den x))) with
      (fuel := fuel) (x := x0) as (r & Hr); auto.
    { intros x Hx. destruct (Hstep x Hx) as (x' & Hs & Hx' & Hd).
      exists x'. repeat split; auto. intros Hns.
      destruct (leb dom (den x) (den x')) eqn:El.
      - exfalso. apply leb_spec in El.
        assert (same x' x = true); [|congruence].
        apply same_spec; auto. apply leP_antisym; [exact (Hle x x' Hx Hs)|exact El].
      - apply not_leb in El. destruct El as (a & Ha & H1 & H2).
        apply card_lt with (a := a); auto; exact (Hle x x' Hx Hs). }
    { pose proof (card_bound dom (den x0)). lia. }
    exists r. split; auto.
    destruct (do_until_spec A same step
        (fun x => Inv x /\ forall P, leP dom P (F P) -> leP dom P (den x))) with
      (fuel := fuel) (x := x0) (r := r) as (y & (Hy1 & Hy2) & Hst & Hsm); auto.
    { intros x x' (Hx & HP) Hs. destruct (Hstep x Hx) as (z & Hz & Hz' & Hd).
      rewrite Hs in Hz. injection Hz as <-. split; auto.
      intros P HPF a Ha H. rewrite Hd by auto.
      rewrite (HP P HPF a Ha H), andb_true_r.
      apply (F_mono P (den x)); auto. }
    { split; auto. intros P _ a Ha _. rewrite Htop; auto. }
    destruct (Hstep y Hy1) as (z & Hz & Hr' & Hd). rewrite Hst in Hz. injection Hz as <-.
    split; auto. apply same_spec in Hsm; auto.
    split.
    - intros a Ha H. rewrite Hd in H by auto. apply andb_true_iff in H. destruct H as [H _].
      apply (F_mono (den y) (den r)); auto. apply eqP_leP, eqP_sym. exact Hsm.
    - intros P HP. eapply leP_trans; [apply Hy2; auto|]. apply eqP_leP, eqP_sym. exact Hsm.
  Qed.

  Lemma lfp_loop :
    (forall x, Inv x -> exists x', step x = Ok x' /\ Inv x' /\
       eqP dom (den x') (fun a => F (den x) a || den x a)) ->
    forall x0 fuel, Inv x0 -> eqP dom (den x0) botP -> length dom < fuel ->
    exists r, do_until fuel same step x0 = Ok r /\ Inv r /\ is_lfp dom F (den r).
  Proof.
    intros Hstep x0 fuel Hx0 Hbot Hfuel.
    assert (Hle : forall x x', Inv x -> step x = Ok x' -> leP dom (den x) (den x')).
    { intros x x' Hx Hs a Ha H. destruct (Hstep x Hx) as (y & Hy & _ & Hd).
      rewrite Hs in Hy. injection Hy as <-. rewrite Hd; auto. rewrite H, orb_true_r. auto. }
    destruct (do_until_terminates A same step Inv
        (fun x => length dom - card dom (den x))) with
      (fuel := fuel) (x := x0) as (r & Hr); auto.
    { intros x Hx. destruct (Hstep x Hx) as (x' & Hs & Hx' & Hd).
      exists x'. repeat split; auto. intros Hns.
      destruct (leb dom (den x') (den x)) eqn:El.
      - exfalso. apply leb_spec in El.
        assert (same x' x = true); [|congruence].
        apply same_spec; auto. apply leP_antisym; [exact El|exact (Hle x x' Hx Hs)].
      - apply not_leb in El. destruct El as (a & Ha & H1 & H2).
        assert (card dom (den x) < card dom (den x')).
        { apply card_lt with (a := a); auto; exact (Hle x x' Hx Hs). }
        pose proof (card_bound dom (den x')). lia. }
    { lia. }
    exists r. split; auto.
    destruct (do_until_spec A same step
        (fun x => Inv x /\ forall P, leP dom (F P) P -> leP dom (den x) P)) with
      (fuel := fuel) (x := x0) (r := r) as (y & (Hy1 & Hy2) & Hst & Hsm); auto.
    { intros x x' (Hx & HP) Hs. destruct (Hstep x Hx) as (z & Hz & Hz' & Hd).
      rewrite Hs in Hz. injection Hz as <-. split; auto.
      intros P HPF a Ha H. rewrite Hd in H by auto.
      apply orb_true_iff in H. destruct H as [H|H].
      - apply HPF; auto. apply (F_mono (den x) P); auto.
      - apply (HP P HPF); auto. }
    { split; auto. intros P _ a Ha H. rewrite Hbot in H; auto. discriminate. }
    destruct (Hstep y Hy1) as (z & Hz & Hr' & Hd). rewrite Hst in Hz. injection Hz as <-.
    split; auto. apply same_spec in Hsm; auto.
    split.
    - intros a Ha H. rewrite Hd by auto.
      rewrite (F_mono (den r) (den y)); auto. apply eqP_leP. exact Hsm.
    - intros P HP. eapply leP_trans; [|apply Hy2; auto]. apply eqP_leP. exact Hsm.
  Qed.
End Loops.

Section OpsProofs.
  Variables (ne ns : nat) (et st : dt).
  Let n := ne + ns.
  Let m := 2 * (ne + ns).
  Hypothesis Het : no_primed_sys ne ns et.

  Definition Good (f : dt) : Prop := wf m f /\ unprimed n f.
  Definition den (f : dt) : vec -> bool := evS n f.
  Notation states := (all_vecs n).
  Notation EXb := (EXm ne ns et st).

  (** the game without goals, enough for EX *)
  Definition G0 (eg sg : list dt) := bgame ne ns et st eg sg.

  Lemma mm : m = n + n.
  Proof. unfold m, n. lia. Qed.
  Lemma join2 : forall s p, bitvec n s -> bitvec n p -> bitvec m (s ++ p).
  Proof. intros. rewrite mm. apply bitvec_app; auto. Qed.
  Lemma split_m : forall v, bitvec m v ->
    exists s p, v = s ++ p /\ bitvec n s /\ bitvec n p.
  Proof.
    intros v H. rewrite mm in H. exists (firstn n v), (skipn n v).
    rewrite firstn_skipn. repeat split; try apply (bitvec_firstn _ _ _ H);
      try apply (bitvec_skipn _ _ _ H).
  Qed.
  Lemma den_ev : forall f s p, unprimed n f -> bitvec n s -> bitvec n p ->
    ev f (s ++ p) = den f s.
  Proof. intros f s p H Hs Hp. apply H; auto using bitvec_zeros. Qed.

  Lemma good_eq : forall a b, Good a -> Good b ->
    (a = b <-> eqP states (den a) (den b)).
  Proof.
    intros a b [Ha1 Ha2] [Hb1 Hb2]. split.
    - intros ->. apply eqP_refl.
    - intros H. apply (dt_ext m); auto. intros v Hv.
      destruct (split_m v Hv) as (s & p & -> & Hs & Hp).
      rewrite !den_ev by auto. apply H. apply all_vecs_spec; auto.
  Qed.
  Lemma same_good : forall a b, Good a -> Good b ->
    (same ne ns a b = true <-> eqP states (den a) (den b)).
  Proof.
    intros a b Ha Hb. unfold same. fold m. rewrite bLeq_dbl by (apply Ha || apply Hb).
    apply good_eq; auto.
  Qed.

  Lemma good_mk : forall f (g : vec -> bool),
    (forall s p, bitvec n s -> bitvec n p -> f (s ++ p) = g s) ->
    Good (mk m f) /\ forall s, bitvec n s -> den (mk m f) s = g s.
  Proof.
    intros f g H. split; [split|].
    - apply wf_mk.
    - intros s p q Hs Hp Hq. rewrite !ev_mk by (apply join2; auto).
      rewrite !H by auto. reflexivity.
    - intros s Hs. unfold den, evS.
      rewrite ev_mk by (apply join2; auto using bitvec_zeros).
      apply H; auto using bitvec_zeros.
  Qed.

  Lemma good_And : forall a b, Good a -> Good b -> Good (bAnd m a b) /\
    forall s, bitvec n s -> den (bAnd m a b) s = den a s && den b s.
  Proof.
    intros a b [_ Ha] [_ Hb]. apply good_mk. intros s p Hs Hp.
    rewrite !den_ev; auto.
  Qed.
  Lemma good_Or : forall a b, Good a -> Good b -> Good (bOr m a b) /\
    forall s, bitvec n s -> den (bOr m a b) s = den a s || den b s.
  Proof.
    intros a b [_ Ha] [_ Hb]. apply good_mk. intros s p Hs Hp.
    rewrite !den_ev; auto.
  Qed.
  Lemma good_Not : forall a, Good a -> Good (bNot m a) /\
    forall s, bitvec n s -> den (bNot m a) s = negb (den a s).
  Proof.
    intros a [_ Ha]. apply good_mk. intros s p Hs Hp. rewrite !den_ev; auto.
  Qed.
  Lemma good_One : Good (bOne m) /\ forall s, bitvec n s -> den (bOne m) s = true.
  Proof. apply good_mk. auto. Qed.
  Lemma good_Zero : Good (bZero m) /\ forall s, bitvec n s -> den (bZero m) s = false.
  Proof. apply good_mk. auto. Qed.

  Lemma cube0_length : length (cube0 ne ns) = 2 * (ne + ns).
  Proof. apply repeat_length. Qed.

  Lemma good_EX : forall eg sg C, Good C -> Good (EXb C) /\
    forall s, bitvec n s -> den (EXb C) s = EX (G0 eg sg) vec_eqb (den C) s.
  Proof.
    intros eg sg C [HC1 HC2].
    assert (Hiff : forall s p, bitvec n s -> bitvec n p ->
       (ev (EXb C) (s ++ p) = true <-> EX (G0 eg sg) vec_eqb (den C) s = true)).
    { intros s p Hs Hp. destruct (split2 ne ns p Hp) as (e & w & -> & He & Hw).
      unfold EXm. rewrite existsmodal_gen by (auto using cube0_length).
      rewrite EX_spec by (apply vec_eqb_eq). unfold legal_env, legal_sys. simpl.
      split.
      - intros H e' [He' Ht]. apply all_vecs_spec in He'.
        destruct (H e' He') as (w' & Hw' & H1 & H2).
        { rewrite <- Ht. apply Het; auto using bitvec_zeros. }
        exists (e' ++ w'). split.
        + split; [apply all_vecs_spec, bitvec_app; auto|]. split; [|exact H1].
          destruct He' as [He' _]. rewrite firstn_app, He', Nat.sub_diag, firstn_O, app_nil_r.
          apply firstn_all2. lia.
        + rewrite <- H2. symmetry. apply den_ev; auto. apply bitvec_app; auto.
      - intros H e' He' Ht. destruct (H e') as (s' & (H1 & H2 & H3) & H4).
        { split; [apply all_vecs_spec; auto|]. rewrite <- Ht.
          apply Het; auto using bitvec_zeros. }
        apply all_vecs_spec in H1. destruct (split2 ne ns s' H1) as (e1 & w1 & -> & He1 & Hw1).
        assert (e1 = e').
        { rewrite <- H2. destruct He1 as [He1 _].
          rewrite firstn_app, He1, Nat.sub_diag, firstn_O, app_nil_r.
          symmetry. apply firstn_all2. lia. }
        subst e1. exists w1. repeat split; auto; try apply Hw1.
        rewrite <- H4. apply den_ev; auto. }
    split; [split|].
    - apply wf_existsmodal.
    - intros s p q Hs Hp Hq. apply eq_true_iff_eq.
      rewrite (Hiff s p), (Hiff s q) by auto. tauto.
    - intros s Hs. apply eq_true_iff_eq. apply Hiff; auto using bitvec_zeros.
  Qed.

  (** ** The loops compute the fixpoints of GameTheory *)
  Variables (egs sgs : list dt).
  Hypothesis Hegs : Forall Good egs.
  Hypothesis Hsgs : Forall Good sgs.
  Let G := bgame ne ns et st egs sgs.
  Notation EXg := (EX G vec_eqb).

  Lemma st_bv : forall s, In s states -> bitvec n s.
  Proof. intros. apply all_vecs_spec; auto. Qed.

  Lemma x_loop_ok : forall sg Z Yp eg fuel, Good sg -> Good Z -> Good Yp -> Good eg ->
    length states < fuel ->
    exists X, x_loop ne ns et st fuel sg Z (EXb Yp) eg = Ok X /\ Good X /\
      eqP states (den X)
        (nuX G vec_eqb (fun s => den sg s && den Z s) (den eg) (den Yp)).
  Proof.
    intros sg Z Yp eg fuel Hsg HZ HYp Heg Hfuel. unfold x_loop. fold m.
    set (F := PhiB G vec_eqb (fun s => den sg s && den Z s) (den eg) (den Yp)).
    assert (HF : monoP states F) by exact (PhiB_mono G vec_eqb vec_eqb_eq _ _ _).
    destruct good_One as [HO1 HO2].
    destruct (gfp_loop states Good den (same ne ns) (x_step ne ns et st sg Z (EXb Yp) eg) F HF
                same_good) with (x0 := bOne m) (fuel := fuel) as (X & HX & HG & Hg); auto.
    { intros X HX. unfold x_step. fold m. eexists. split; [reflexivity|].
      destruct (good_EX egs sgs X HX) as [HE1 HE2].
      destruct (good_EX egs sgs Yp HYp) as [HY1 HY2].
      destruct (good_And sg Z Hsg HZ) as [HA1 HA2].
      destruct (good_Or _ _ HA1 HY1) as [HB1 HB2].
      destruct (good_Not eg Heg) as [HN1 HN2].
      destruct (good_And _ _ HE1 HN1) as [HC1 HC2].
      destruct (good_Or _ _ HB1 HC1) as [HD1 HD2].
      destruct (good_And _ _ HD1 HX) as [HR1 HR2].
      split; auto. intros s Hs. apply st_bv in Hs.
      rewrite HR2, HD2, HB2, HA2, HC2, HN2, HY2, HE2 by auto.
      reflexivity. }
    { intros s Hs. apply HO2, st_bv; auto. }
    exists X. split; [exact HX|]. split; auto.
    eapply gfp_unique; [exact Hg|]. apply nu_gfp; auto.
  Qed.

  (** the union over environment goals *)
  Lemma y_union_ok : forall sg Z Yp fuel, Good sg -> Good Z -> Good Yp ->
    length states < fuel -> forall eg, Forall Good eg -> forall Y, Good Y ->
    exists R, y_union ne ns et st fuel sg Z (EXb Yp) eg Y = Ok R /\ Good R /\
      eqP states (den R) (fun s => den Y s ||
        existsb (fun g => nuX G vec_eqb (fun s => den sg s && den Z s) g (den Yp) s)
          (map den eg)).
  Proof.
    intros sg Z Yp fuel Hsg HZ HYp Hfuel eg Heg.
    induction Heg as [|g eg Hg Heg IH]; intros Y HY; simpl.
    - exists Y. repeat split; try apply HY. intros s Hs. rewrite orb_false_r. reflexivity.
    - destruct (x_loop_ok sg Z Yp g fuel) as (X & HX & HXg & HXe); auto.
      rewrite HX. cbn [bind]. fold m. destruct (good_Or Y X HY HXg) as [HO1 HO2].
      destruct (IH _ HO1) as (R & HR & HRg & HRe). exists R. split; [exact HR|].
      split; auto. intros s Hs. rewrite HRe by auto.
      rewrite HO2 by (apply st_bv; auto). rewrite (HXe s Hs), orb_assoc. reflexivity.
  Qed.

  Lemma map_den : map den egs = g_egoals G.
  Proof. reflexivity. Qed.

  Lemma y_loop_ok : forall sg Z fuel, Good sg -> Good Z -> length states < fuel ->
    exists Y, y_loop ne ns et st fuel egs sg Z = Ok Y /\ Good Y /\
      eqP states (den Y) (muY G vec_eqb (fun s => den sg s && den Z s)).
  Proof.
    intros sg Z fuel Hsg HZ Hfuel. unfold y_loop. fold m.
    set (B := fun s => den sg s && den Z s).
    assert (HF : monoP states (stepY G vec_eqb B)) by exact (stepY_mono G vec_eqb vec_eqb_eq B).
    destruct good_Zero as [HO1 HO2].
    destruct (lfp_loop states Good den (same ne ns) (y_step ne ns et st fuel egs sg Z)
                (stepY G vec_eqb B) HF same_good) with (x0 := bZero m) (fuel := fuel)
      as (Y & HY & HG & Hg); auto.
    { intros Y HY. unfold y_step. fold m.
      destruct (y_union_ok sg Z Y fuel Hsg HZ HY Hfuel egs Hegs (bZero m) HO1)
        as (R & HR & HRg & HRe).
      rewrite HR. cbn [bind]. eexists. split; [reflexivity|].
      destruct (good_Or R Y HRg HY) as [HR1 HR2]. split; auto.
      intros s Hs. rewrite HR2 by (apply st_bv; auto). rewrite HRe by auto.
      rewrite HO2 by (apply st_bv; auto). rewrite map_den. reflexivity. }
    { intros s Hs. apply HO2, st_bv; auto. }
    exists Y. split; [exact HY|]. split; auto.
    eapply lfp_unique; [exact Hg|]. apply mu_lfp; auto.
  Qed.

  (** *** the outer loop *)
  Let k := length sgs.
  Definition GoodZ (Z : list dt) : Prop := length Z = k /\ Forall Good Z.
  Definition denZ (Z : list dt) (p : nat * vec) : bool :=
    den (nth (fst p) Z (bZero m)) (snd p).
  Notation domZ := (domZ G).

  Lemma good_nth : forall Z i, Forall Good Z -> i < length Z -> Good (nth i Z (bZero m)).
  Proof. intros Z i H Hi. rewrite Forall_forall in H. apply H. apply nth_In; auto. Qed.
  Lemma ngoals_k : ngoals G = k.
  Proof. unfold ngoals, G. simpl. apply map_length. Qed.

  Lemma z_same_spec : forall Z Z', length Z = length Z' -> Forall Good Z -> Forall Good Z' ->
    (z_same ne ns Z Z' = true <->
     forall i, i < length Z -> eqP states (den (nth i Z (bZero m))) (den (nth i Z' (bZero m)))).
  Proof.
    induction Z as [|a Z IH]; intros Z' Hl H H'; destruct Z' as [|b Z']; simpl in *; try discriminate.
    - split; auto. intros _ i Hi. lia.
    - inversion H; inversion H'; subst. destruct (same ne ns a b) eqn:Es.
      + apply same_good in Es; auto. rewrite IH by (auto; lia). split.
        * intros Hi i Hlt. destruct i; auto. apply Hi. lia.
        * intros Hi i Hlt. apply (Hi (S i)). lia.
      + split; [discriminate|]. intros Hi. exfalso.
        assert (same ne ns a b = true); [|congruence]. apply same_good; auto.
        apply (Hi 0). lia.
  Qed.

  Lemma z_pass_ok : forall fuel Zp, length states < fuel -> GoodZ Zp -> 0 < k ->
    forall l i, skipn i sgs = l -> i + length l = k ->
    exists R, z_pass ne ns et st fuel egs k i l Zp = Ok R /\ length R = length l /\
      Forall Good R /\
      forall j, j < length l ->
        eqP states (den (nth j R (bZero m)))
          (fun s => Zop G vec_eqb (denZ Zp) (i + j, s) && denZ Zp (i + j, s)).
  Proof.
    intros fuel Zp Hfuel [HZl HZg] Hk. induction l as [|sg l IH]; intros i Hsp Hi.
    - exists []. simpl. repeat split; auto. intros j Hj. lia.
    - simpl in Hi.
      assert (Hnth : nth i sgs (bZero m) = sg).
      { pose proof (nth_skipn _ i sgs 0 (bZero m)) as E. rewrite Hsp, Nat.add_0_r in E.
        symmetry. exact E. }
      assert (Hgsg : Good sg) by (rewrite <- Hnth; apply good_nth; auto; fold k; lia).
      cbn [z_pass]. fold m.
      set (Zn := if i =? k - 1 then nth 0 Zp (bZero m) else nth (i + 1) Zp (bZero m)).
      assert (HZn : Zn = nth (nxt G i) Zp (bZero m)).
      { unfold Zn, nxt. rewrite ngoals_k. destruct (i =? k - 1); reflexivity. }
      assert (HgZn : Good Zn).
      { rewrite HZn. apply good_nth; auto. rewrite HZl, <- ngoals_k. apply nxt_lt.
        rewrite ngoals_k. lia. }
      destruct (good_EX egs sgs Zn HgZn) as [HE1 HE2].
      destruct (y_loop_ok sg (EXb Zn) fuel Hgsg HE1 Hfuel) as (Y & HY & HYg & HYe).
      rewrite HY. cbn [bind].
      destruct (IH (i + 1)) as (R & HR & HRl & HRg & HRe).
      { rewrite skipn_add, Hsp. reflexivity. }
      { lia. }
      rewrite HR. cbn [bind]. eexists. split; [reflexivity|].
      assert (Hgi : Good (nth i Zp (bZero m))) by (apply good_nth; auto; lia).
      destruct (good_And Y (nth i Zp (bZero m)) HYg Hgi) as [HA1 HA2].
      split; [simpl; lia|]. split; [constructor; auto|].
      intros j Hj. destruct j; simpl.
      + rewrite Nat.add_0_r. intros s Hs. rewrite HA2 by (apply st_bv; auto).
        change (denZ Zp (i, s)) with (den (nth i Zp (bZero m)) s). f_equal. rewrite HYe by auto.
        unfold Zop. simpl. apply muY_ext; auto; [apply vec_eqb_eq|].
        intros s' Hs'. unfold Bz. f_equal.
        * unfold sgoal. unfold G. simpl.
          rewrite (nth_indep _ _ (den (bZero m))) by (rewrite map_length; fold k; lia).
          rewrite <- Hnth. symmetry.
          exact (f_equal (fun f => f s') (map_nth den sgs (bZero m) i)).
        * rewrite HE2 by (apply st_bv; auto). rewrite HZn. reflexivity.
      + replace (i + S j) with (i + 1 + j) by lia. apply HRe. simpl in Hj. lia.
  Qed.

  Lemma winning_set_ok : 0 < k -> forall fuel, length domZ < fuel -> length states < fuel ->
    exists W, compute_winning_set_BDD ne ns et st fuel egs sgs = Ok W /\ Good W /\
      eqP states (den W) (Wset G vec_eqb).
  Proof.
    intros Hk fuel Hf1 Hf2. unfold compute_winning_set_BDD. fold m k.
    assert (HF : monoP domZ (Zop G vec_eqb)) by exact (Zop_mono G vec_eqb vec_eqb_eq).
    destruct good_One as [HO1 HO2].
    assert (Hindom : forall i s, In (i, s) domZ <-> i < k /\ In s states).
    { intros. rewrite in_domZ, ngoals_k. tauto. }
    destruct (gfp_loop domZ GoodZ denZ (z_same ne ns) (z_pass ne ns et st fuel egs k 0 sgs)
                (Zop G vec_eqb) HF) with (x0 := repeat (bOne m) k) (fuel := fuel)
      as (Z & HZ & HG & Hg); auto.
    { intros Z Z' [Hl HZ] [Hl' HZ']. rewrite z_same_spec by (auto; congruence). split.
      - intros H [i s] Hin. apply Hindom in Hin. apply H; try tauto. destruct Hin as [Hi _]. rewrite Hl. exact Hi.
      - intros H i Hi s Hs. apply (H (i, s)). apply Hindom. split; auto. rewrite <- Hl. exact Hi. }
    { intros Z HZ. destruct (z_pass_ok fuel Z Hf2 HZ Hk sgs 0 eq_refl eq_refl)
        as (R & HR & HRl & HRg & HRe).
      exists R. split; auto. split; [split; auto|].
      intros [i s] Hin. apply Hindom in Hin. destruct Hin as [Hi Hs].
      unfold denZ at 1. simpl. rewrite (HRe i Hi s Hs). reflexivity. }
    { split. apply repeat_length. apply Forall_forall. intros x Hx.
      apply repeat_spec in Hx. subst; auto. }
    { intros [i s] Hin. apply Hindom in Hin. destruct Hin as [Hi Hs].
      unfold denZ. simpl.
      replace (nth i (repeat (bOne m) k) (bZero m)) with (bOne m).
      - apply HO2, st_bv; auto.
      - clear - Hi. revert i Hi. induction k; intros i Hi; [lia|]. destruct i; simpl; auto.
        apply IHn. lia. }
    rewrite HZ. cbn [bind]. destruct HG as [HGl HGf].
    destruct Z as [|W Z]; [simpl in HGl; lia|].
    exists W. split; auto. split; [inversion HGf; auto|].
    assert (Heq := gfp_unique domZ _ _ _ Hg (nu_gfp domZ _ HF)).
    intros s Hs. unfold Wset, Zstar. rewrite <- (Heq (0, s)); [reflexivity|].
    apply Hindom; auto.
  Qed.
End OpsProofs.
