(** What the BDD computations inside synthesize return, in terms of sets of states. *)
From Coq Require Import List ZArith Lia Bool Arith.
From Verif Require Import Base Game GameTheory GameSound Levels Bdd BGame Support SupportProofs
  EnumProofs Ops OpsProofs Automaton Synth SynthSets.
Import ListNotations.
Open Scope nat_scope.

(** ** cyclic order of the goals *)
Definition nx (k i : nat) : nat := if i =? k - 1 then 0 else i + 1.
Lemma nx_mod : forall k i, i < k -> nx k i = (i + 1) mod k.
Proof.
  intros k i H. unfold nx. destruct (Nat.eqb_spec i (k - 1)) as [->|].
  - replace (k - 1 + 1) with k by lia. rewrite Nat.mod_same; lia.
  - rewrite Nat.mod_small; lia.
Qed.
Lemma nx_lt : forall k i, i < k -> nx k i < k.
Proof. intros. unfold nx. destruct (Nat.eqb_spec i (k - 1)); lia. Qed.
Lemma iter_nx : forall k i c, i < k -> iter c (nx k) i = (i + c) mod k.
Proof.
  intros k i c H. induction c; simpl.
  - rewrite Nat.add_0_r, Nat.mod_small; auto.
  - rewrite IHc, nx_mod by (apply Nat.mod_upper_bound; lia).
    rewrite Nat.add_mod_idemp_l by lia. f_equal. lia.
Qed.
Lemma iter_nx_lt : forall k i c, i < k -> iter c (nx k) i < k.
Proof. intros. rewrite iter_nx by auto. apply Nat.mod_upper_bound. lia. Qed.
Lemma cycle_all : forall k lm c, lm < k -> 0 < c -> iter c (nx k) lm = lm ->
  forall i, i < k -> exists d, d < c /\ iter d (nx k) lm = i.
Proof.
  intros k lm c Hlm Hc H i Hi. rewrite iter_nx in H by auto.
  assert (Hkc : k <= c).
  { destruct (le_lt_dec k c) as [|Hlt]; auto. exfalso.
    destruct (le_lt_dec k (lm + c)) as [Hge|Hl2].
    - replace (lm + c) with ((lm + c - k) + 1 * k) in H by lia.
      rewrite Nat.mod_add, Nat.mod_small in H; lia.
    - rewrite Nat.mod_small in H; lia. }
  exists ((i + k - lm) mod k). split.
  - pose proof (Nat.mod_upper_bound (i + k - lm) k). lia.
  - rewrite iter_nx by auto. rewrite Nat.add_mod_idemp_r by lia.
    replace (lm + (i + k - lm)) with (i + 1 * k) by lia. rewrite Nat.mod_add, Nat.mod_small; lia.
Qed.

Lemma skipn_len : forall {A} k (a b : list A), length a = k -> skipn k (a ++ b) = b.
Proof. intros A k a b <-. rewrite skipn_app, Nat.sub_diag, skipn_all. auto. Qed.
Lemma firstn_len : forall {A} k (a b : list A), length a = k -> firstn k (a ++ b) = a.
Proof. intros A k a b <-. rewrite firstn_app, Nat.sub_diag, firstn_all. apply app_nil_r. Qed.

Section SynthBdd.
  Variables (ne ns : nat) (orc : oracle).
  Let n := ne + ns.
  Let m := 2 * (ne + ns).
  Hypothesis Horc : oracle_ok m orc.
  Variables (et st stW : dt) (egs sgs : list dt).
  Let G := bgame ne ns et st egs sgs.
  Variables (L : list levels_t).
  Let k := length L.
  Variables (goal : nat -> vec -> bool) (W : vec -> bool) (eg : nat -> vec -> bool) (neg : nat).
  Variables (K : nat -> nat) (Y : nat -> nat -> vec -> bool) (X : nat -> nat -> nat -> vec -> bool).
  Notation d0 := ([], []).
  Notation z0 := (bZero m).
  Notation den := (evS n).
  Hypothesis HLy : forall i, i < k -> length (fst (nth i L d0)) = K i.
  Hypothesis HLx : forall i, i < k -> length (snd (nth i L d0)) = K i.
  Hypothesis HYg : forall i j, i < k -> j < K i ->
    Good ne ns (nth j (fst (nth i L d0)) z0) /\
    forall s, bitvec n s -> den (nth j (fst (nth i L d0)) z0) s = Lf (goal i) W (Y i) j s.
  Hypothesis HXg : forall i j, i < k -> j < K i ->
    length (nth j (snd (nth i L d0)) []) = neg /\
    forall r, r < neg -> Good ne ns (nth r (nth j (snd (nth i L d0)) []) z0) /\
      forall s, bitvec n s -> den (nth r (nth j (snd (nth i L d0)) []) z0) s = X i (S j) r s.
  Hypothesis HK : forall i, i < k -> 0 < K i.
  Hypothesis HstW : forall s s', bitvec n s -> bitvec n s' ->
    ev stW (s ++ s') = ev st (s ++ s') && W s'.

  Lemma mm2 : m = n + n. Proof. unfold m, n. lia. Qed.

  (** *** evaluation at a state *)
  Lemma eval_at_den : forall f s, bitvec n s -> eval_at ne ns f s = den f s.
  Proof.
    intros f s Hs. unfold eval_at, evS.
    rewrite state_to_cube_spec by (rewrite cube0_length, (proj1 Hs); reflexivity).
    rewrite (proj1 Hs). rewrite <- ev_norm. f_equal. rewrite norm_app.
    rewrite (norm_id n) by auto. f_equal. unfold norm, zeros.
    clear. induction n; simpl; congruence.
  Qed.
  Lemma level_search_ok : forall i s j, i < k -> bitvec n s -> 0 < j <= K i ->
    (forall j', j <= j' < K i -> Lf (goal i) W (Y i) j' s = true) ->
    exists r, level_search ne ns j (fst (nth i L d0)) s = Ok r /\
      jspec (goal i) W (K i) (Y i) s r.
  Proof.
    intros i s j Hi Hs. induction j; intros Hj HL; [lia|]. simpl.
    rewrite (nth_error_nth' _ z0) by (rewrite HLy by auto; lia).
    rewrite eval_at_den by auto. destruct (HYg i j Hi ltac:(lia)) as (_ & HY). rewrite HY by auto.
    destruct (Lf (goal i) W (Y i) j s) eqn:El.
    - assert (HL' : forall j', j <= j' < K i -> Lf (goal i) W (Y i) j' s = true).
      { intros j' Hj'. destruct (Nat.eq_dec j' j) as [->|]; auto. apply HL. lia. }
      destruct j as [|j].
      + exists 0. split; auto. split; [lia|]. split; auto. lia.
      + apply IHj; auto. lia.
    - exists (S j). split; auto. split; [lia|]. split; auto.
      intros _. replace (S j - 1) with j by lia. auto.
  Qed.

  (** *** the mode search *)
  Definition g0 (i : nat) (s : vec) : bool := goal i s && W s.
  (** the mode may be advanced from [i] to [i'] in [s] *)
  Definition bump (s : vec) (i i' : nat) : Prop :=
    exists c, i' = iter c (nx k) i /\ forall d, d < c -> g0 (iter d (nx k) i) s = true.
  Lemma bump_refl : forall s i, bump s i i.
  Proof. intros. exists 0. split; auto. intros; lia. Qed.
  Lemma bump_trans : forall s a b c, bump s a b -> bump s b c -> bump s a c.
  Proof.
    intros s a b c (x & Hx & H1) (y & Hy & H2). exists (y + x). split.
    - rewrite iter_add, <- Hx. auto.
    - intros d Hd. destruct (le_lt_dec x d).
      + replace d with ((d - x) + x) by lia. rewrite iter_add, <- Hx. apply H2. lia.
      + apply H1. auto.
  Qed.
  Lemma bump_lt : forall s a b, a < k -> bump s a b -> b < k.
  Proof. intros s a b H (c & -> & _). apply iter_nx_lt; auto. Qed.

  Definition selected (s : vec) (lm md j : nat) : Prop :=
    bump s lm md /\ jspec (goal md) W (K md) (Y md) s j /\
    (j = 0 -> md = lm /\ forall i, i < k -> g0 i s = true).

  Lemma jspec_g0 : forall i s, i < k -> jspec (goal i) W (K i) (Y i) s 0 -> g0 i s = true.
  Proof. intros i s Hi (H1 & H2 & H3). apply (H2 0). split; [lia|]. apply HK; auto. Qed.

  Lemma mode_search_step : forall f lm mode s, mode < k -> bitvec n s ->
    exists j, jspec (goal mode) W (K mode) (Y mode) s j /\
    mode_search ne ns (S f) L lm mode s =
      match j with
      | O => if lm =? nx k mode then Ok (nx k mode, 0) else mode_search ne ns f L lm (nx k mode) s
      | _ => Ok (mode, j)
      end.
  Proof.
    intros f lm mode s Hm Hs.
    destruct (level_search_ok mode s (K mode) Hm Hs) as (j & Hj & Hspec).
    { pose proof (HK mode Hm). lia. } { intros; lia. }
    exists j. split; auto. cbn [mode_search].
    rewrite (nth_error_nth' L d0) by auto.
    destruct (nth mode L d0) as [Yl Xl] eqn:E. cbn [fst] in Hj.
    assert (length Yl = K mode) by (rewrite <- HLy by auto; rewrite E; auto).
    rewrite H. rewrite Hj. cbn [bind]. reflexivity.
  Qed.

  Lemma mode_search_gen : forall fuel lm mode s c, lm < k -> bitvec n s -> c < k ->
    mode = iter c (nx k) lm ->
    (forall d i, d < c -> i = iter d (nx k) lm -> jspec (goal i) W (K i) (Y i) s 0) ->
    (forall md j, mode_search ne ns fuel L lm mode s = Ok (md, j) -> selected s lm md j) /\
    (k <= fuel + c -> exists p, mode_search ne ns fuel L lm mode s = Ok p).
  Proof.
    induction fuel; intros lm mode s c Hlm Hs Hc Hmode Hg.
    - split; [discriminate|]. intros; lia.
    - assert (Hmk : mode < k) by (subst; apply iter_nx_lt; auto).
      destruct (mode_search_step fuel lm mode s Hmk Hs) as (j & Hj & ->).
      destruct j as [|j].
      + assert (Hg' : forall d i, d < S c -> i = iter d (nx k) lm ->
                  jspec (goal i) W (K i) (Y i) s 0).
        { intros d i Hd Hi. destruct (Nat.eq_dec d c) as [->|]; [|apply (Hg d); auto; lia].
          rewrite <- Hmode in Hi. subst i. auto. }
        assert (Hn : nx k mode = iter (S c) (nx k) lm) by (rewrite Hmode; reflexivity).
        assert (Hb : forall d, d < S c -> g0 (iter d (nx k) lm) s = true).
        { intros d Hd. apply jspec_g0; [apply iter_nx_lt; auto|]. eapply Hg'; eauto. }
        destruct (Nat.eqb_spec lm (nx k mode)) as [El|El].
        * split; [|eauto]. intros md j Hr. injection Hr as <- <-.
          split; [exists (S c); auto|]. split.
          -- rewrite <- El. apply (Hg' 0); auto. lia.
          -- intros _. split; auto. intros i Hi.
             destruct (cycle_all k lm (S c) Hlm ltac:(lia) ltac:(congruence) i Hi)
              as (d & Hd & <-). auto.
        * destruct (le_lt_dec k (S c)) as [Hk|Hk].
          -- exfalso. apply El. rewrite Hn, iter_nx by auto. replace (S c) with k by lia.
             replace (lm + k) with (lm + 1 * k) by lia. rewrite Nat.mod_add, Nat.mod_small; lia.
          -- destruct (IHfuel lm (nx k mode) s (S c) Hlm Hs Hk Hn Hg') as (IH1 & IH2).
             split; auto. intros; apply IH2; lia.
      + split; [|eauto]. intros md j' Hr. injection Hr as <- <-.
        split; [exists c; split; auto|].
        * intros d Hd. apply jspec_g0; [apply iter_nx_lt; auto|]. eapply Hg; eauto.
        * split; auto. discriminate.
  Qed.
  Lemma mode_search_ok : forall fuel lm s, lm < k -> bitvec n s ->
    (forall md j, mode_search ne ns fuel L lm lm s = Ok (md, j) -> selected s lm md j) /\
    (k <= fuel -> exists p, mode_search ne ns fuel L lm lm s = Ok p).
  Proof.
    intros fuel lm s Hlm Hs. destruct (mode_search_gen fuel lm lm s 0) as (H1 & H2); auto; try lia.
    split; auto. intros. apply H2. lia.
  Qed.

  (** *** sets of successors *)
  Lemma cof2_spec : forall f s e, bitvec n s -> bitvec ne e ->
    exists g, cof2 ne ns s e f = Ok g /\ wf m g /\
    forall u e' w, bitvec n u -> bitvec ne e' -> bitvec ns w ->
      ev g (u ++ e' ++ w) = ev f (s ++ e ++ w).
  Proof.
    intros f s e Hs He.
    assert (H1 : exists g, state_to_cof m (cube0 ne ns) s f 0 = Some g /\ wf m g /\
    forall u e' w, bitvec n u -> bitvec ne e' -> bitvec ns w ->
                ev g (u ++ e' ++ w) = ev f (s ++ e' ++ w)).
    { destruct (state_to_cof_spec 0 n n m (cube0 ne ns) f [] s s (zeros n)) as (g & Hg & Hwf & _);
        auto using bitvec_nil, bitvec_zeros.
      - apply cube0_length.
      - exact mm2.
      - exists g. split; auto. split; auto. intros u e' w Hu He' Hw.
        destruct (state_to_cof_spec 0 n n m (cube0 ne ns) f [] s u (e' ++ w)) as (g' & Hg' & _ & H);
          auto using bitvec_nil.
        + apply cube0_length.
        + exact mm2.
        + apply bitvec_app; auto.
        + assert (g' = g) by congruence. subst. exact H. }
    destruct H1 as (g1 & Hg1 & Hwf1 & H1). unfold cof2. fold m. rewrite Hg1.
    destruct (Nat.ltb_spec 0 ne) as [Hne|Hne].
    - destruct (state_to_cof_spec n ne ns m (cube0 ne ns) g1 s e e (zeros ns)) as (g & Hg & Hwf & _);
        auto using bitvec_zeros.
      + apply cube0_length.
      + unfold m, n. lia.
      + fold n. rewrite Hg. exists g. split; auto. split; auto. intros u e' w Hu He' Hw.
        destruct (state_to_cof_spec n ne ns m (cube0 ne ns) g1 u e e' w) as (g' & Hg' & _ & H); auto.
        * apply cube0_length.
        * unfold m, n. lia.
        * assert (g' = g) by congruence. subst. rewrite H. apply H1; auto.
    - exists g1. split; auto. split; auto. intros u e' w Hu He' Hw.
      rewrite H1 by auto. assert (ne = 0) by lia. destruct He' as [He' _], He as [He _].
      destruct e', e; simpl in *; try lia. reflexivity.
  Qed.

  (** [f] is the characteristic function of the successors in [T] *)
  Definition tspec (s e : vec) (T : vec -> bool) (f : dt) : Prop :=
    wf m f /\ forall u e' w, bitvec n u -> bitvec ne e' -> bitvec ns w ->
      ev f (u ++ e' ++ w) = ev st (s ++ e ++ w) && W (e ++ w) && T (e ++ w).
  Lemma toward_spec : forall f s e, Good ne ns f -> bitvec n s -> bitvec ne e ->
    exists g, toward ne ns stW f s e = Ok g /\ tspec s e (den f) g.
  Proof.
    intros f s e Hf Hs He. unfold toward. fold m n.
    destruct (cof2_spec (bAnd m stW (bSwap m n f)) s e Hs He) as (g & Hg & Hwf & H).
    exists g. split; auto. split; auto. intros u e' w Hu He' Hw. rewrite H by auto.
    assert (Hew : bitvec n (e ++ w)) by (apply bitvec_app; auto).
    rewrite ev_And by (apply join3; auto).
    rewrite HstW by auto. f_equal.
    etransitivity; [apply (ev_swap2 n f s (e ++ w)); auto|].
    apply den_ev; auto. apply Hf.
  Qed.
  Lemma any_spec : forall s e, bitvec n s -> bitvec ne e ->
    exists g, cof2 ne ns s e (bAnd m stW (bOne m)) = Ok g /\ tspec s e (fun _ => true) g.
  Proof.
    intros s e Hs He.
    destruct (cof2_spec (bAnd m stW (bOne m)) s e Hs He) as (g & Hg & Hwf & H).
    exists g. split; auto. split; auto. intros u e' w Hu He' Hw. rewrite H by auto.
    assert (Hew : bitvec n (e ++ w)) by (apply bitvec_app; auto).
    rewrite ev_And by (apply join3; auto).
    rewrite HstW by auto. f_equal. apply ev_One. apply join3; auto.
  Qed.

  Lemma succ_iff : forall s e T s', bitvec ne e ->
    (succ_in G W s e T s' <-> exists w, bitvec ns w /\ s' = e ++ w /\
       ev st (s ++ e ++ w) && W (e ++ w) && T (e ++ w) = true).
  Proof.
    intros s e T s' He. unfold succ_in, legal_sys. simpl. rewrite all_vecs_spec. split.
    - intros ((H1 & H2 & H3) & H4 & H5). destruct (split2 ne ns s' H1) as (e1 & w & -> & He1 & Hw).
      rewrite <- (proj1 He1) in H2. rewrite firstn_app, Nat.sub_diag, firstn_all, app_nil_r in H2.
      subst e1. exists w. rewrite H3, H4, H5. auto.
    - intros (w & Hw & -> & H). apply andb_true_iff in H. destruct H as [H H3].
      apply andb_true_iff in H. destruct H as [H1 H2]. repeat split; auto.
      + apply bitvec_app; auto.
      + apply (bitvec_app ne ns); auto.
      + rewrite <- (proj1 He), firstn_app, Nat.sub_diag, firstn_all, app_nil_r. auto.
  Qed.

  Lemma init_cube_in : forall c, Forall islit c ->
    bitvec (length c) (initialize_cube c) /\ in_cube c (initialize_cube c) = true.
  Proof.
    induction c as [|x c IH]; intros Hl; simpl.
    - split; [apply bitvec_nil|reflexivity].
    - inversion Hl; subst. destruct IH as (H3 & H4); auto. split.
      + apply bitvec_cons; auto. destruct (Z.eqb_spec x 2); [left; auto|].
        destruct H1 as [H|[H|H]]; [left; auto|right; auto|congruence].
      + rewrite H4, andb_true_r. unfold lit_match. destruct (Z.eqb_spec x 2); auto.
        simpl. apply Z.eqb_refl.
  Qed.
  Lemma first_cube_ok : forall t f c cs, wf m f -> orc t f = c :: cs ->
    length c = m /\ bitvec m (initialize_cube c) /\ ev f (initialize_cube c) = true.
  Proof.
    intros t f c cs Hwf Ho. pose proof (Horc t f Hwf) as (H1 & H2). rewrite Ho in H1, H2.
    inversion H1; subst. destruct H3 as (Hlc & Hlit & _).
    destruct (init_cube_in c Hlit) as (Hb & Hin). rewrite Hlc in Hb. split; auto. split; auto.
    specialize (H2 _ Hb). simpl in H2. rewrite Hin in H2. simpl in H2.
    destruct (ev f (initialize_cube c)); [auto|discriminate].
  Qed.
  Lemma no_cube_ok : forall t f, wf m f -> orc t f = [] -> forall v, bitvec m v -> ev f v = false.
  Proof.
    intros t f Hwf Ho v Hv. pose proof (Horc t f Hwf) as (_ & H2). rewrite Ho in H2.
    specialize (H2 v Hv). simpl in H2. destruct (ev f v); [discriminate|auto].
  Qed.

  Lemma next_state_app : forall c e, length c = m -> bitvec m (initialize_cube c) -> bitvec ne e ->
    exists u e' w, initialize_cube c = u ++ e' ++ w /\ bitvec n u /\ bitvec ne e' /\ bitvec ns w /\
       next_state ne ns c e = e ++ w.
  Proof.
    intros c e Hlc Hb He.
    destruct (split3 ne ns _ Hb) as (u & e' & w & Hv & Hu & He' & Hw). exists u, e', w.
    repeat split; auto; try apply Hu; try apply He'; try apply Hw.
    unfold next_state. rewrite <- (proj1 He) at 1. rewrite firstn_all. f_equal.
    unfold initialize_cube, slice in *. fold n. rewrite <- firstn_map, <- skipn_map, Hv.
    rewrite (skipn_len n u) by apply Hu.
    rewrite firstn_all2 by (rewrite app_length, (proj1 He'), (proj1 Hw); auto).
    apply skipn_len. apply He'.
  Qed.

  Lemma cube_succ : forall s e T f t c cs, bitvec ne e -> tspec s e T f -> orc t f = c :: cs ->
    succ_in G W s e T (next_state ne ns c e).
  Proof.
    intros s e T f t c cs He (Hwf & Hf) Ho.
    destruct (first_cube_ok t f c cs Hwf Ho) as (Hlc & Hb & Hev).
    destruct (next_state_app c e Hlc Hb He) as (u & e' & w & Hv & Hu & He' & Hw & Hn).
    rewrite Hv, Hf in Hev by auto. apply succ_iff; auto. exists w. rewrite Hn. auto.
  Qed.
  Lemma no_cube_none : forall s e T f, bitvec ne e -> tspec s e T f ->
    ((forall v, bitvec m v -> ev f v = false) <-> none G W s e T).
  Proof.
    intros s e T f He (Hwf & Hf). split.
    - intros H s' Hs'. apply succ_iff in Hs'; auto. destruct Hs' as (w & Hw & -> & Hev).
      rewrite <- (Hf (zeros n) e w) in Hev; auto using bitvec_zeros.
      rewrite H in Hev; [discriminate|]. apply join3; auto. apply bitvec_zeros.
    - intros H v Hv. destruct (split3 ne ns v Hv) as (u & e' & w & -> & Hu & He' & Hw).
      destruct (ev f (u ++ e' ++ w)) eqn:E; auto. exfalso. rewrite Hf in E by auto.
      apply (H (e ++ w)). apply succ_iff; auto. exists w. auto.
  Qed.
  Lemma some_succ : forall s e T f, bitvec ne e -> tspec s e T f ->
    ~ (forall v, bitvec m v -> ev f v = false) -> exists s', succ_in G W s e T s'.
  Proof.
    intros s e T f He (Hwf & Hf) H.
    destruct (existsb (ev f) (all_vecs m)) eqn:E.
    - apply existsb_exists in E. destruct E as (v & Hv & E). apply all_vecs_spec in Hv.
      destruct (split3 ne ns v Hv) as (u & e' & w & -> & Hu & He' & Hw). rewrite Hf in E by auto.
      exists (e ++ w). apply succ_iff; auto. exists w. auto.
    - exfalso. apply H. intros v Hv. apply existsb_false with (x := v) in E; auto.
      apply all_vecs_spec; auto.
  Qed.
  Lemma is_zero_spec : forall f, wf m f ->
    (is_zero ne ns f = true <-> forall v, bitvec m v -> ev f v = false).
  Proof.
    intros f Hwf. unfold is_zero. fold m. rewrite bLeq_dbl by (auto; apply wf_mk). split.
    - intros -> v Hv. rewrite ev_Not, ev_One by auto. auto.
    - intros H. apply (dt_ext m); auto; [apply wf_mk|]. intros v Hv.
      rewrite H, ev_Not, ev_One by auto. auto.
  Qed.

  (** *** the rows of X sets *)
  Lemma try_row_ok : forall s e, bitvec n s -> bitvec ne e -> forall row,
    Forall (Good ne ns) row ->
    (exists r f, r < length row /\ try_row ne ns stW row s e = Ok (Some f) /\
       tspec s e (den (nth r row z0)) f /\ (exists s', succ_in G W s e (den (nth r row z0)) s') /\
    forall r', r' < r -> none G W s e (den (nth r' row z0))) \/
    (try_row ne ns stW row s e = Ok None /\
    forall r, r < length row -> none G W s e (den (nth r row z0))).
  Proof.
    intros s e Hs He row Hg. induction Hg as [|x row Hx Hrow IH]; simpl.
    - right. split; auto. intros; lia.
    - destruct (toward_spec x s e Hx Hs He) as (f & -> & Hf). cbn [bind].
      destruct (is_zero ne ns f) eqn:Ez.
      + assert (Hn : none G W s e (den x)).
        { apply (no_cube_none s e _ f); auto. apply is_zero_spec; auto. apply Hf. }
        destruct IH as [(r & f' & Hr & Ht & Hf' & Hex & Hnone)|(Ht & Hnone)].
        * left. exists (S r), f'. split; [lia|]. split; auto. split; auto. split; auto.
          intros [|r'] Hr'; auto. apply Hnone. lia.
        * right. split; auto. intros [|r] Hr; auto. apply Hnone. lia.
      + left. exists 0, f. split; [lia|]. split; auto. split; auto. split; [|intros; lia].
        apply (some_succ s e _ f); auto. intros H.
        assert (is_zero ne ns f = true) by (apply is_zero_spec; auto; apply Hf). congruence.
  Qed.

  Lemma succ_ext : forall s e T T' s', (forall u, bitvec n u -> T u = T' u) ->
    succ_in G W s e T s' -> succ_in G W s e T' s'.
  Proof.
    intros s e T T' s' H (H1 & H2 & H3). split; auto. split; auto. rewrite <- H; auto.
    apply all_vecs_spec. apply H1.
  Qed.
  Lemma none_ext : forall s e T T', (forall u, bitvec n u -> T u = T' u) ->
    none G W s e T -> none G W s e T'.
  Proof. intros s e T T' H Hn s' Hs'. apply (Hn s'). apply (succ_ext s e T'); auto.
    intros. symmetry. auto. Qed.

  (** a row of the array of a goal, with the X sets it stands for *)
  Lemma row_ok : forall i j s e, i < k -> j < K i -> bitvec n s -> bitvec ne e ->
    nth_error (snd (nth i L d0)) j = Some (nth j (snd (nth i L d0)) []) /\
    ((exists r f, r < neg /\
        try_row ne ns stW (nth j (snd (nth i L d0)) []) s e = Ok (Some f) /\
        tspec s e (X i (S j) r) f /\ (exists s', succ_in G W s e (X i (S j) r) s') /\
        forall r', r' < r -> none G W s e (X i (S j) r')) \/
     (try_row ne ns stW (nth j (snd (nth i L d0)) []) s e = Ok None /\
      forall r, r < neg -> none G W s e (X i (S j) r))).
  Proof.
    intros i j s e Hi Hj Hs He. split; [apply nth_error_nth'; rewrite HLx; auto|].
    destruct (HXg i j Hi Hj) as (Hlen & HX).
    assert (HG : Forall (Good ne ns) (nth j (snd (nth i L d0)) [])).
    { apply Forall_forall. intros x Hx. destruct (In_nth _ _ z0 Hx) as (r & Hr & <-).
      apply HX. lia. }
    destruct (try_row_ok s e Hs He _ HG) as [(r & f & Hr & Ht & Hf & (s' & Hs') & Hnone)|(Ht & Hnone)].
    - left. exists r, f. rewrite Hlen in Hr. split; auto. split; auto. split.
      + destruct Hf as (Hwf & Hf). split; auto. intros u e' w Hu He' Hw. rewrite Hf by auto.
        f_equal. apply HX; auto. apply (bitvec_app ne ns); auto.
      + split.
        * exists s'. apply (succ_ext s e (den (nth r (nth j (snd (nth i L d0)) []) z0))); auto.
          apply HX; auto.
        * intros r' Hr'. apply (none_ext s e (den (nth r' (nth j (snd (nth i L d0)) []) z0))); auto.
          apply HX. lia.
    - right. split; auto. intros r Hr.
      apply (none_ext s e (den (nth r (nth j (snd (nth i L d0)) []) z0))).
      + apply HX; auto.
      + apply Hnone. lia.
  Qed.

  Definition choosable (i : nat) (s : vec) (j : nat) (e : vec) : Prop :=
    (exists s', succ_in G W s e (Lf (goal i) W (Y i) (j - 1)) s') \/
    match j with
    | O => exists s', succ_in G W s e (fun _ => true) s'
    | _ => (exists r s', r < neg /\ succ_in G W s e (X i j r) s') \/
           (j < K i /\ exists r s', r < neg /\ succ_in G W s e (X i (S j) r) s')
    end.

  Lemma choose_ok : forall i s j e t, i < k -> bitvec n s -> bitvec ne e ->
    jspec (goal i) W (K i) (Y i) s j ->
    (exists c t', choose ne ns orc stW t (nth i L d0) j s e = Ok (Some c, t') /\
       chosen G (goal i) W neg (K i) (Y i) (X i) s j e (next_state ne ns c e)) \/
    ((forall c t', choose ne ns orc stW t (nth i L d0) j s e <> Ok (Some c, t')) /\
     ~ choosable i s j e).
  Proof.
    intros i s j e t Hi Hs He Hj. unfold choose.
    assert (HjK : j - 1 < K i) by (pose proof (HK i Hi); destruct Hj; lia).
    rewrite (nth_error_nth' _ z0) by (rewrite HLy; auto).
    destruct (HYg i (j - 1) Hi HjK) as (HG & Hden).
    destruct (toward_spec _ s e HG Hs He) as (f & -> & Hf). cbn [bind].
    assert (Hf' : tspec s e (Lf (goal i) W (Y i) (j - 1)) f).
    { destruct Hf as (Hwf & Hf). split; auto. intros u e' w Hu He' Hw. rewrite Hf by auto.
      f_equal. apply Hden. apply (bitvec_app ne ns); auto. }
    clear Hf. destruct (orc t f) as [|c cs] eqn:Eo.
    2:{ left. exists c, (S t). split; auto. left. apply (cube_succ s e _ f t c cs); auto. }
    assert (Hnone : none G W s e (Lf (goal i) W (Y i) (j - 1))).
    { apply (no_cube_none s e _ f); auto. apply (no_cube_ok t); auto. apply Hf'. }
    assert (Hgo : forall T g, tspec s e T g -> (exists s', succ_in G W s e T s') ->
      exists c cs, orc (S t) g = c :: cs /\ succ_in G W s e T (next_state ne ns c e)).
    { intros T g Hg (s' & Hs'). destruct (orc (S t) g) as [|c cs] eqn:Eg.
      - exfalso. apply (proj1 (no_cube_none s e T g He Hg)) with (s' := s'); auto.
        apply (no_cube_ok (S t)); auto. apply Hg.
      - exists c, cs. split; auto. apply (cube_succ s e T g (S t) c cs); auto. }
    destruct j as [|j1]; cbn [fallback].
    - destruct (any_spec s e Hs He) as (g & Hg & Hgs). fold m. rewrite Hg. cbn [bind].
      destruct (orc (S t) g) as [|c cs] eqn:Eg.
      + right. split; [discriminate|]. intros [(s' & Hs')|(s' & Hs')]; [apply (Hnone s'); auto|].
        destruct (Hgo _ g Hgs (ex_intro _ s' Hs')) as (c & cs & E & _). congruence.
      + left. exists c, (S (S t)). split; auto. right. split; auto.
        apply (cube_succ s e _ g (S t) c cs); auto.
    - assert (Hj1 : j1 < K i) by (destruct Hj; lia).
      destruct (row_ok i j1 s e Hi Hj1 Hs He) as (-> & [(r & g & Hr & Ht & Hg & Hex & Hn)|(Ht & Hn)]).
      + rewrite Ht. cbn [bind]. destruct (Hgo _ g Hg Hex) as (c & cs & -> & Hc).
        left. exists c, (S (S t)). split; auto. right. split; auto. left. exists r. auto.
      + rewrite Ht. cbn [bind].
        destruct (le_lt_dec (K i) (S j1)) as [HKj|HKj].
        * assert (nth_error (snd (nth i L d0)) (S j1) = None)
            by (apply nth_error_None; rewrite HLx; auto).
          rewrite H. right. split; [discriminate|].
          intros [(s' & Hs')|[(r & s' & Hr & Hs')|(Hl & _)]]; [apply (Hnone s'); auto| |lia].
          apply (Hn r Hr s'); auto.
        * destruct (row_ok i (S j1) s e Hi HKj Hs He)
            as (-> & [(r & g & Hr & Ht2 & Hg & Hex & Hn2)|(Ht2 & Hn2)]).
          -- rewrite Ht2. cbn [bind]. destruct (Hgo _ g Hg Hex) as (c & cs & -> & Hc).
             left. exists c, (S (S t)). split; auto. right. split; auto. right. split; auto.
             split; auto. exists r. auto.
          -- rewrite Ht2. cbn [bind]. right. split; [discriminate|].
             intros [(s' & Hs')|[(r & s' & Hr & Hs')|(Hl & r & s' & Hr & Hs')]];
               [apply (Hnone s'); auto|apply (Hn r Hr s'); auto|apply (Hn2 r Hr s'); auto].
  Qed.
End SynthBdd.
