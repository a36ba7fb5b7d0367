(** The invariant of the main loop of synthesize_reachgame_BDD. The properties of the
    BDD operations enter as hypotheses on abstract relations. *)
From Coq Require Import List ZArith Lia Bool Arith.
From Verif Require Import Base Bdd Support EnumProofs Ops Automaton AutProofs AutProofs2 Synth
  SynthInv SynthProg Reach.
Import ListNotations.
Open Scope nat_scope.

Section Inv.
  Variables (ne ns : nat) (orc : oracle) (alloc : nat -> aut -> nat).
  Let n := ne + ns.
  Hypothesis Halloc : forall t A, ~ In (alloc t A) (ids A).
  Variables (stN et : dt) (L : levels_t).
  Variable ok : vec -> Prop.
  Variable target : vec -> bool.
  Variable lev : vec -> nat.
  Variable cur : vec -> dt -> Prop.
  Variable stepok : vec -> vec -> vec -> Prop.
  Variable lgl : vec -> vec -> Prop.
  Variable mvs : vec -> list vec -> Prop.
  Hypothesis Hok : forall s, ok s -> bitvec n s.
  Hypothesis Hsearch : forall s, ok s ->
    level_search ne ns (length (fst L)) (fst L) s = Ok (lev s).
  Hypothesis Hlev : forall s, ok s -> (lev s = 0 <-> target s = true).
  Hypothesis HT : forall s, ok s -> target s = false ->
    exists T, nth_error (fst L) (lev s - 1) = Some T /\ cur s T.
  Hypothesis Hchoose : forall s e T t c T' t', ok s -> target s = false -> bitvec ne e ->
    cur s T -> rchoose ne ns orc stN L t T (lev s) s e = Ok (Some (c, T'), t') ->
    stepok s e (next_state ne ns c e) /\ ok (next_state ne ns c e) /\ (lgl s e -> cur s T').
  Hypothesis Hmoves : 0 < ne -> forall fuel t s mv, bitvec n s ->
    get_env_moves fuel (orc t) (cube0 ne ns) s et ne ns = Ok mv -> mvs s mv.
  Hypothesis Hmoves0 : ne = 0 -> forall s, bitvec n s -> mvs s [[]].
  Hypothesis Hmvs : forall s mv, mvs s mv -> Forall (bitvec ne) mv.
  Hypothesis Hmv1 : forall s mv, bitvec n s -> mvs s mv ->
    (forall e, In e mv -> lgl s e) \/ length mv <= 1.

  Definition part (A : aut) (x : anode) (mv : list vec) : Prop :=
    argrad x = Z.of_nat (lev (astate x)) /\
    Forall2 (fun e t => exists y, In y A /\ aid y = t /\ stepok (astate x) e (astate y))
      mv (atrans x).
  Definition settled (A : aut) (x : anode) : Prop :=
    (target (astate x) = true /\ part A x []) \/
    (target (astate x) = false /\ exists mv, mvs (astate x) mv /\ part A x mv).
  Definition pending (stk : list vec) (x : anode) : Prop :=
    atrans x = [] /\ In (astate x) stk.
  Variable ss : list vec.
  Record base (A : aut) (stk : list vec) : Prop := {
    b_ids : NoDup (ids A);
    b_ok : forall x, In x A -> ok (astate x) /\ amode x = (-1)%Z;
    b_key : forall x y, In x A -> In y A -> astate x = astate y -> x = y;
    b_nd : NoDup stk;
    b_stk : forall s, In s stk -> exists x, In x A /\ astate x = s;
    b_cover : forall s, In s ss -> exists x, In x A /\ astate x = s;
    b_reach : forall y, In y A -> exists x, In x A /\ In (astate x) ss /\ reach A (aid x) (aid y);
    b_init : forall x, In x A -> ainit x = false
  }.
  Definition others (A : aut) (stk : list vec) (a : nat) : Prop :=
    forall x, In x A -> aid x <> a -> settled A x \/ pending stk x.
  Definition inv (A : aut) (stk : list vec) : Prop :=
    base A stk /\ forall x, In x A -> settled A x \/ pending stk x.
  Definition invp (A : aut) (stk : list vec) (a : nat) (s : vec) (mv : list vec) : Prop :=
    base A stk /\ others A stk a /\
    exists x, In x A /\ aid x = a /\ astate x = s /\ part A x mv.

  (** every node of [A] is in [A'] with the same address and state *)
  Definition ext (A A' : aut) : Prop :=
    forall y, In y A -> exists y', In y' A' /\ aid y' = aid y /\ astate y' = astate y.
  Lemma part_ext : forall A A' x x' mv, ext A A' -> astate x' = astate x ->
    argrad x' = argrad x -> atrans x' = atrans x -> part A x mv -> part A' x' mv.
  Proof.
    intros A A' x x' mv He H1 H2 H3 (Hr & Hall). split; [congruence|].
    rewrite H1, H3. clear - Hall He. induction Hall as [|e t mv tr H Hall IH]; constructor; auto.
    destruct H as (y & Hy & Hid & Hs). destruct (He y Hy) as (y' & Hy' & Hid' & Hs').
    exists y'. split; auto. split; [congruence|]. rewrite Hs'. auto.
  Qed.
  Lemma settled_ext : forall A A' x, ext A A' -> settled A x -> settled A' x.
  Proof.
    intros A A' x He [(H1 & H2)|(H1 & mv & H2 & H3)].
    - left. split; auto. apply (part_ext A A' x); auto.
    - right. split; auto. exists mv. split; auto. apply (part_ext A A' x); auto.
  Qed.

  Lemma find_some_iff : forall A stk s x, base A stk -> bitvec n s ->
    (find_anode A (-1) s = Some x <-> In x A /\ astate x = s).
  Proof.
    intros A stk s x HB Hs.
    assert (Hu : uniform n A) by (intros y Hy; apply (Hok _ (proj1 (b_ok _ _ HB y Hy)))).
    rewrite find_anode_find. split.
    - intros H. apply find_some in H. destruct H as (Hin & Hm).
      apply (matches_iff n A) in Hm; auto; [|apply Hs]. tauto.
    - intros (Hin & H1). destruct (find (matches (-1) s) A) as [y|] eqn:E.
      + apply find_some in E. destruct E as (Hin' & Hm).
        apply (matches_iff n A) in Hm; auto; [|apply Hs]. f_equal.
        apply (b_key _ _ HB); auto; destruct Hm; congruence.
      + apply find_none with (x := x) in E; auto.
        assert (matches (-1) s x = true); [|congruence].
        apply (matches_iff n A); auto; [apply Hs|]. split; auto. apply (b_ok _ _ HB); auto.
  Qed.

  Definition keeps (f : anode -> anode) : Prop := forall x,
    aid (f x) = aid x /\ astate (f x) = astate x /\ amode (f x) = amode x /\ ainit (f x) = ainit x /\
    incl (atrans x) (atrans (f x)).
  Lemma store_ext : forall A a f, keeps f -> ext A (store A a f).
  Proof.
    intros A a f Hf y Hy. exists (if aid y =? a then f y else y).
    split; [apply store_In; eauto|]. destruct (aid y =? a); [|auto].
    destruct (Hf y) as (H1 & H2 & _). auto.
  Qed.
  Lemma store_reach : forall A a f, keeps f -> forall u v, reach A u v -> reach (store A a f) u v.
  Proof.
    intros A a f Hf u v H. induction H as [|u v w H IH He]; [constructor|].
    econstructor; [exact IH|]. destruct He as (x & Hx & Hid & Ht).
    exists (if aid x =? a then f x else x). split; [apply store_In; eauto|].
    destruct (Hf x) as (H1 & H2 & H3 & H4 & H5).
    destruct (aid x =? a); auto. split; [congruence|]. apply H5. auto.
  Qed.
  Lemma store_base : forall A stk a f, base A stk -> keeps f -> base (store A a f) stk.
  Proof.
    intros A stk a f HB Hf.
    assert (Hg : forall x, let y := if aid x =? a then f x else x in
      aid y = aid x /\ astate y = astate x /\ amode y = amode x /\ ainit y = ainit x).
    { intros x. simpl. destruct (Hf x) as (H1 & H2 & H3 & H4 & H5).
      destruct (aid x =? a); auto. }
    constructor.
    - unfold store. rewrite ids_map; [apply (b_ids _ _ HB)|]. intros x. apply Hg.
    - intros y Hy. apply store_In in Hy. destruct Hy as (x & Hx & ->).
      destruct (Hg x) as (H1 & H2 & H3 & H4). rewrite H2, H3. apply (b_ok _ _ HB); auto.
    - intros y1 y2 Hy1 Hy2 Hs. apply store_In in Hy1. apply store_In in Hy2.
      destruct Hy1 as (x1 & Hx1 & ->). destruct Hy2 as (x2 & Hx2 & ->).
      destruct (Hg x1) as (H1 & H2 & H3 & H4). destruct (Hg x2) as (H5 & H6 & H7 & H8).
      assert (x1 = x2) by (apply (b_key _ _ HB); auto; congruence). subst. auto.
    - apply (b_nd _ _ HB).
    - intros s Hi. destruct (b_stk _ _ HB s Hi) as (x & Hx & H1).
      destruct (store_ext A a f Hf x Hx) as (y & Hy & _ & Hs). exists y. split; auto. congruence.
    - intros s Hi. destruct (b_cover _ _ HB s Hi) as (x & Hx & H1).
      destruct (store_ext A a f Hf x Hx) as (y & Hy & _ & Hs). exists y. split; auto. congruence.
    - intros y Hy. apply store_In in Hy. destruct Hy as (y0 & Hy0 & ->).
      destruct (Hg y0) as (-> & _). destruct (b_reach _ _ HB y0 Hy0) as (x & Hx & Hin & Hr).
      destruct (store_ext A a f Hf x Hx) as (x' & Hx' & Hid & Hs).
      exists x'. split; auto. split; [congruence|]. rewrite Hid. apply store_reach; auto.
    - intros y Hy. apply store_In in Hy. destruct Hy as (x & Hx & ->).
      destruct (Hg x) as (_ & _ & _ & ->). apply (b_init _ _ HB); auto.
  Qed.
  Lemma store_others : forall A stk a f, others A stk a -> keeps f -> others (store A a f) stk a.
  Proof.
    intros A stk a f HO Hf y Hy Hne. apply store_In in Hy. destruct Hy as (x & Hx & ->).
    destruct (Nat.eqb_spec (aid x) a) as [E|E].
    - destruct (Hf x) as (H1 & _). congruence.
    - destruct (HO x Hx E) as [Hs|Hp]; auto. left. apply (settled_ext A); auto.
      apply store_ext; auto.
  Qed.
  Lemma keeps_append : forall t, keeps (fun x => set_trans (atrans x ++ [t]) x).
  Proof. intros t x. simpl. repeat split. intros z Hz. apply in_or_app. auto. Qed.
  Lemma keeps_rgrad : forall z, keeps (set_rgrad z).
  Proof. intros z x. simpl. repeat split. apply incl_refl. Qed.

  (** a transition to a node [y] that is there already *)
  Lemma append_inv : forall A stk a s mv e y, invp A stk a s mv -> In y A ->
    stepok s e (astate y) ->
    invp (store A a (fun x => set_trans (atrans x ++ [aid y]) x)) stk a s (mv ++ [e]).
  Proof.
    intros A stk a s mv e y (HB & HO & x & Hx & H1 & H2 & Hp) Hy Hst.
    pose proof (keeps_append (aid y)) as Hk.
    split; [apply store_base; auto|]. split; [apply store_others; auto|].
    exists (set_trans (atrans x ++ [aid y]) x). split.
    { apply store_In. exists x. split; auto. rewrite H1, Nat.eqb_refl. auto. }
    simpl. split; [auto|]. split; [auto|].
    assert (Hext := store_ext A a _ Hk).
    destruct (part_ext A _ x x mv Hext eq_refl eq_refl eq_refl Hp) as (Hr & Hall).
    split; [exact Hr|]. simpl. apply Forall2_snoc; [exact Hall|].
    destruct (Hext y Hy) as (y' & Hy' & Hid & Hs'). exists y'. split; auto. split; auto.
    rewrite H2, Hs'. auto.
  Qed.
  (** a new node and a transition to it *)
  Lemma insert_append_inv : forall A stk a s mv e b s', invp A stk a s mv -> ~ In b (ids A) ->
    ok s' -> (forall x, In x A -> astate x = s' -> False) -> stepok s e s' ->
    invp (store (insert_anode A b (-1) (-1) false s') a (fun x => set_trans (atrans x ++ [b]) x))
      (s' :: stk) a s (mv ++ [e]).
  Proof.
    intros A stk a s mv e b s' (HB & HO & x & Hx & H1 & H2 & Hp) Hb Hs' Hnew Hst.
    unfold insert_anode. set (z := Automaton.Node b false s' (-1) (-1) []).
    assert (Hza : aid z <> a).
    { simpl. intros ->. apply Hb. rewrite <- H1. apply in_map. auto. }
    assert (Hxz : ext A (z :: A)).
    { intros y Hy. exists y. split; [right; auto|auto]. }
    pose proof (keeps_append b) as Hk. set (f := fun x => set_trans (atrans x ++ [b]) x) in *.
    assert (Hst2 : store (z :: A) a f = z :: store A a f).
    { unfold store at 1. simpl. destruct (Nat.eqb_spec b a); [simpl in Hza; congruence|]. auto. }
    rewrite Hst2. pose proof (store_base A stk a f HB Hk) as HB'.
    assert (Hext : ext A (z :: store A a f)).
    { intros y Hy. destruct (store_ext A a f Hk y Hy) as (y' & Hy' & H). exists y'.
      split; [right; auto|auto]. }
    assert (Hids : ids (store A a f) = ids A).
    { unfold store. rewrite ids_map; auto. intros y. destruct (aid y =? a); auto. }
    assert (Hrz : forall u v, reach (store A a f) u v -> reach (z :: store A a f) u v).
    { intros u v H. induction H as [|u v w H IH (y & Hy & Hyi & Ht)]; [constructor|].
      econstructor; [exact IH|]. exists y. split; [right; auto|auto]. }
    split; [|split].
    - constructor.
      + simpl. constructor; [|apply (b_ids _ _ HB')]. fold (ids (store A a f)). rewrite Hids. auto.
      + intros y [<-|Hy]; simpl; auto. apply (b_ok _ _ HB'); auto.
      + intros y1 y2 [<-|Hy1] [<-|Hy2]; simpl; auto; intros H.
        * exfalso. apply store_In in Hy2. destruct Hy2 as (y & Hy & ->).
          apply (Hnew y); auto. rewrite H. destruct (aid y =? a); auto.
        * exfalso. apply store_In in Hy1. destruct Hy1 as (y & Hy & ->).
          apply (Hnew y); auto. rewrite <- H. destruct (aid y =? a); auto.
        * apply (b_key _ _ HB'); auto.
      + constructor; [|apply (b_nd _ _ HB)]. intros H. destruct (b_stk _ _ HB s' H) as (y & Hy & E).
        apply (Hnew y); auto.
      + intros s1 [<-|H]; [exists z; split; [left; auto|auto]|].
        destruct (b_stk _ _ HB' s1 H) as (y & Hy & E). exists y. split; [right|]; auto.
      + intros s1 H. destruct (b_cover _ _ HB' s1 H) as (y & Hy & E).
        exists y. split; [right|]; auto.
      + intros y [<-|Hy].
        * destruct (b_reach _ _ HB x Hx) as (u & Hu & Hin & Hr).
          destruct (store_ext A a f Hk u Hu) as (u' & Hu' & Hid & Hs).
          exists u'. split; [right; auto|]. split; [congruence|]. rewrite Hid.
          econstructor; [apply Hrz, store_reach; [exact Hk|exact Hr]|].
          exists (f x). split.
          { right. apply store_In. exists x. split; auto. rewrite H1, Nat.eqb_refl. auto. }
          split; [reflexivity|]. simpl. apply in_or_app. right. left. auto.
        * destruct (b_reach _ _ HB' y Hy) as (u & Hu & Hin & Hr). exists u.
          split; [right; auto|]. split; auto.
      + intros y [<-|Hy]; simpl; auto. apply (b_init _ _ HB'); auto.
    - intros y [<-|Hy] Hne.
      + right. split; [auto|left; auto].
      + apply store_In in Hy. destruct Hy as (y0 & Hy0 & ->).
        destruct (Nat.eqb_spec (aid y0) a) as [E|E]; [simpl in Hne; congruence|].
        destruct (HO y0 Hy0 E) as [Hs|(Hp1 & Hp2)].
        * left. apply (settled_ext A); auto.
        * right. split; auto. right. auto.
    - exists (f x). split.
      { right. apply store_In. exists x. split; auto. rewrite H1, Nat.eqb_refl. auto. }
      simpl. split; [auto|]. split; [auto|].
      destruct (part_ext A _ x x mv Hext eq_refl eq_refl eq_refl Hp) as (Hr & Hall).
      split; [exact Hr|]. simpl. apply Forall2_snoc; [exact Hall|].
      exists z. split; [left; auto|]. split; auto. rewrite H2. auto.
  Qed.

  Definition room (A A' : aut) (stk stk' : list vec) : Prop :=
    length A + length stk' = length A' + length stk.
  Lemma rmove_inv : forall s e T q T' q' a mv, ok s -> target s = false -> bitvec ne e ->
    cur s T -> invp (r_str q) (r_stk q) a s mv ->
    rmove ne ns orc alloc stN L s (lev s) e T q = Ok (Some (T', q')) ->
    invp (r_str q') (r_stk q') a s (mv ++ [e]) /\ (lgl s e -> cur s T') /\
    room (r_str q) (r_str q') (r_stk q) (r_stk q').
  Proof.
    intros s e T q T' q' a mv Hs Ht He Hc HI Hm. unfold rmove in Hm.
    apply bind_ok in Hm. destruct Hm as ((o & t) & Hch & Hm). destruct o as [(c & T1)|]; [|discriminate].
    destruct (Hchoose s e T _ c T1 t Hs Ht He Hc Hch) as (Hst & Hs' & Hc').
    set (s' := next_state ne ns c e) in *. cbn zeta in Hm.
    pose proof HI as (HB & HO & x & Hx & H1 & H2 & Hp).
    destruct (find_anode (r_str q) (-1) s') as [y|] eqn:Ef.
    - cbn [r_str r_stk r_clk] in Hm. apply (find_some_iff _ (r_stk q)) in Ef; auto.
      destruct Ef as (Hy & Hys).
      apply bind_ok in Hm. destruct Hm as ((A' & b) & Hap & Hm). destruct b; [|discriminate].
      injection Hm as <- <-. simpl. unfold append_anode_trans in Hap.
      rewrite (proj2 (find_some_iff _ (r_stk q) s x HB (Hok _ Hs))) in Hap by auto.
      rewrite (proj2 (find_some_iff _ (r_stk q) s' y HB (Hok _ Hs'))) in Hap by auto.
      injection Hap as <-. rewrite H1. split; [|split; auto].
      + apply append_inv; auto. rewrite Hys. auto.
      + unfold room, store. rewrite map_length. lia.
    - cbn [r_str r_stk r_clk] in Hm.
      assert (Hnew : forall z, In z (r_str q) -> astate z = s' -> False).
      { intros z Hz E. rewrite (proj2 (find_some_iff _ (r_stk q) s' z HB (Hok _ Hs'))) in Ef; auto.
        discriminate. }
      set (b := alloc t (r_str q)) in *.
      pose proof (insert_append_inv _ _ a s mv e b s' HI (Halloc _ _) Hs' Hnew Hst) as HI'.
      apply bind_ok in Hm. destruct Hm as ((A' & b') & Hap & Hm). destruct b'; [|discriminate].
      injection Hm as <- <-. simpl. unfold append_anode_trans in Hap.
      assert (Hss : s <> s') by (intros E; apply (Hnew x); congruence).
      assert (Hu : uniform n (r_str q)) by (intros y Hy; apply (Hok _ (proj1 (b_ok _ _ HB y Hy)))).
      assert (F1 : find_anode (insert_anode (r_str q) b (-1) (-1) false s') (-1) s = Some x).
      { simpl. destruct (statecmp s' s) eqn:E; simpl.
        - apply statecmp_eq in E; [congruence|].
          rewrite (proj1 (Hok _ Hs)), (proj1 (Hok _ Hs')). auto.
        - apply (find_some_iff _ (r_stk q)); auto. }
      assert (F2 : find_anode (insert_anode (r_str q) b (-1) (-1) false s') (-1) s' =
                   Some (Automaton.Node b false s' (-1) (-1) [])).
      { simpl. rewrite statecmp_refl. auto. }
      rewrite F1, F2 in Hap. injection Hap as <-. cbn [aid]. rewrite H1. split; [exact HI'|].
      split; auto. unfold room. simpl length. fold (store (r_str q) a (fun x0 => set_trans (atrans x0 ++ [b]) x0)). unfold store. rewrite map_length. lia.
  Qed.
  Lemma rmoves_inv : forall s, ok s -> target s = false ->
    forall es T q q' a mv, Forall (bitvec ne) es ->
    (forall e, In e es -> lgl s e) \/ length es <= 1 ->
    cur s T -> invp (r_str q) (r_stk q) a s mv ->
    rmoves ne ns orc alloc stN L s (lev s) es T q = Ok (Some q') ->
    invp (r_str q') (r_stk q') a s (mv ++ es) /\
    room (r_str q) (r_str q') (r_stk q) (r_stk q').
  Proof.
    intros s Hs Ht. induction es as [|e es IH]; intros T q q' a mv Hes Hl Hc HI Hm; simpl in Hm.
    - injection Hm as <-. rewrite app_nil_r. split; auto. unfold room. lia.
    - inversion Hes as [|? ? He Hes']; subst. apply bind_ok in Hm. destruct Hm as (o & Hm1 & Hm).
      destruct o as [(T1 & q1)|]; [|discriminate].
      destruct (rmove_inv s e T q T1 q1 a mv Hs Ht He Hc HI Hm1) as (HI1 & Hc1 & Hr1).
      replace (mv ++ e :: es) with ((mv ++ [e]) ++ es) by (rewrite <- app_assoc; auto).
      destruct Hl as [Hl|Hl].
      + destruct (IH T1 q1 q' a (mv ++ [e])) as (HI2 & Hr2); auto.
        * left. intros e' He'. apply Hl. right. auto.
        * apply Hc1, Hl. left. auto.
        * split; auto. unfold room in *. lia.
      + destruct es; [|simpl in Hl; lia]. simpl in Hm. injection Hm as <-.
        rewrite app_nil_r. auto.
  Qed.

  Lemma finish_inv : forall A stk a s mv, invp A stk a s mv -> target s = false -> mvs s mv ->
    inv A stk.
  Proof.
    intros A stk a s mv (HB & HO & x & Hx & H1 & H2 & Hp) Ht Hm. split; auto.
    intros y Hy. destruct (Nat.eq_dec (aid y) a) as [E|E]; auto.
    assert (y = x) by (apply (node_unique A); auto; [apply (b_ids _ _ HB)|congruence]).
    subst y. left. right. rewrite H2. eauto.
  Qed.
  Lemma start_inv : forall A stk a s x, base A stk -> others A stk a -> In x A -> aid x = a ->
    astate x = s -> atrans x = [] ->
    invp (store A a (set_rgrad (Z.of_nat (lev s)))) stk a s [].
  Proof.
    intros A stk a s x HB HO Hx H1 H2 H3. pose proof (keeps_rgrad (Z.of_nat (lev s))) as Hk.
    split; [apply store_base; auto|]. split; [apply store_others; auto|].
    exists (set_rgrad (Z.of_nat (lev s)) x). split.
    { apply store_In. exists x. split; auto. rewrite H1, Nat.eqb_refl. auto. }
    simpl. split; [auto|]. split; [auto|]. split; simpl; [congruence|]. rewrite H3. constructor.
  Qed.
  Lemma pop_base : forall A s stk, base A (s :: stk) -> base A stk.
  Proof.
    intros A s stk HB. destruct HB. constructor; auto.
    - inversion b_nd0; auto.
    - intros s' H. apply b_stk0. right. auto.
  Qed.

  Lemma store_same : forall A a f, (forall x, In x A -> aid x = a -> f x = x) -> store A a f = A.
  Proof.
    intros A a f H. unfold store. rewrite <- (map_id A) at 2. apply map_ext_in. intros x Hx.
    destruct (Nat.eqb_spec (aid x) a); auto.
  Qed.
  Lemma riteration_inv : forall fuel s stk A t q', inv A (s :: stk) ->
    riteration ne ns orc alloc stN et L fuel s stk A t = Ok (Some q') ->
    inv (r_str q') (r_stk q') /\ room A (r_str q') stk (r_stk q').
  Proof.
    intros fuel s stk A t q' (HB & HA) Hit.
    destruct (b_stk _ _ HB s) as (old & Ho & Hos); [left; auto|].
    assert (Hs : ok s) by (rewrite <- Hos; apply (b_ok _ _ HB); auto).
    unfold riteration in Hit. rewrite (Hsearch s Hs) in Hit. cbn [bind] in Hit.
    rewrite (proj2 (find_some_iff _ _ s old HB (Hok _ Hs))) in Hit by auto. cbn zeta in Hit.
    set (A1 := store A (aid old) (set_rgrad (Z.of_nat (lev s)))) in *.
    assert (Hlen : length A1 = length A) by (unfold A1, store; apply map_length).
    pose proof (pop_base _ _ _ HB) as HB0. pose proof (b_nd _ _ HB) as Hnd.
    assert (Hpop : forall x, In x A -> aid x <> aid old -> settled A x \/ pending stk x).
    { intros x Hx Hne. destruct (HA x Hx) as [H|(H1 & [H2|H2])]; auto.
      - exfalso. apply Hne. f_equal. apply (b_key _ _ HB); auto. congruence.
      - right. split; auto. }
    destruct (Nat.ltb_spec 0 (length (atrans old))) as [Htr|Htr].
    { simpl in Hit. injection Hit as <-. simpl. split; [|unfold room; lia].
      assert (Hsame : A1 = A).
      { apply store_same. intros x Hx E. assert (x = old) by (apply (node_unique A); auto; apply (b_ids _ _ HB)).
        subst x. destruct (HA old Ho) as [[(_ & H)|(_ & mv & _ & H)]|(H & _)].
        - destruct H as (Hr & _). rewrite Hos in Hr. destruct old. simpl in *. rewrite <- Hr. auto.
        - destruct H as (Hr & _). rewrite Hos in Hr. destruct old. simpl in *. rewrite <- Hr. auto.
        - rewrite H in Htr. simpl in Htr. lia. }
      rewrite Hsame. split; auto. intros x Hx. destruct (Nat.eq_dec (aid x) (aid old)) as [E|E]; auto.
      assert (x = old) by (apply (node_unique A); auto; apply (b_ids _ _ HB)). subst x.
      destruct (HA old Ho) as [H|(H & _)]; auto. rewrite H in Htr. simpl in Htr. lia. }
    assert (Hnil : atrans old = []) by (destruct (atrans old); auto; simpl in Htr; lia).
    pose proof (start_inv A stk (aid old) s old HB0 Hpop Ho eq_refl Hos Hnil) as HI. fold A1 in HI.
    cbn [orb] in Hit. destruct (Nat.eqb_spec (lev s) 0) as [E0|E0].
    { injection Hit as <-. simpl. split; [|unfold room; lia]. apply (Hlev s Hs) in E0.
      destruct HI as (HB1 & HO1 & x & Hx & H1 & H2 & Hp). split; auto.
      intros y Hy. destruct (Nat.eq_dec (aid y) (aid old)) as [E|E]; auto.
      assert (y = x) by (apply (node_unique A1); auto; [apply (b_ids _ _ HB1)|congruence]).
      subst y. left. left. rewrite H2. auto. }
    assert (Ht : target s = false).
    { destruct (target s) eqn:E; auto. exfalso. apply E0, (Hlev s Hs), E. }
    destruct (HT s Hs Ht) as (T & HTn & Hc). rewrite HTn in Hit.
    destruct (Nat.ltb_spec 0 ne) as [Hne|Hne].
    - apply bind_ok in Hit. destruct Hit as (mv & Hmv & Hit).
      pose proof (Hmoves Hne _ _ _ _ (Hok _ Hs) Hmv) as Hm.
      destruct (rmoves_inv s Hs Ht mv T (RS A1 stk (S t)) q' (aid old) [] (Hmvs _ _ Hm)
        (Hmv1 s mv (Hok _ Hs) Hm) Hc HI Hit) as (HI2 & Hr).
      split; [apply (finish_inv _ _ (aid old) s mv); auto|]. unfold room in *. simpl in Hr. lia.
    - assert (Hm : mvs s [[]]) by (apply Hmoves0; auto; lia).
      destruct (rmoves_inv s Hs Ht [[]] T (RS A1 stk t) q' (aid old) [] (Hmvs _ _ Hm)
        (Hmv1 s _ (Hok _ Hs) Hm) Hc HI Hit) as (HI2 & Hr).
      split; [apply (finish_inv _ _ (aid old) s [[]]); auto|]. unfold room in *. simpl in Hr. lia.
  Qed.
  Lemma rmain_inv : forall ifuel fuel q A, inv (r_str q) (r_stk q) ->
    rmain ne ns orc alloc stN et L fuel ifuel q = Ok (Some A) -> inv A [].
  Proof.
    intros ifuel. induction fuel; intros q A HI Hm; simpl in Hm.
    - destruct (r_stk q) as [|s stk] eqn:E; [|discriminate]. injection Hm as <-. auto.
    - destruct (r_stk q) as [|s stk] eqn:E.
      + injection Hm as <-. auto.
      + apply bind_ok in Hm. destruct Hm as (o & Hi & Hm). destruct o as [q'|]; [|discriminate].
        apply (IHfuel q'); auto. eapply riteration_inv; eauto.
  Qed.

  (** ** progress *)
  Section Progress.
  Hypothesis Hmlegal : forall s mv e, bitvec n s -> mvs s mv -> In e mv -> lgl s e.
  Hypothesis Hmtotal : 0 < ne -> forall fuel t s, bitvec n s -> 2 ^ ne <= fuel ->
    exists mv, get_env_moves fuel (orc t) (cube0 ne ns) s et ne ns = Ok mv.
  Hypothesis Hctotal : forall s e T t, ok s -> target s = false -> lgl s e -> bitvec ne e ->
    cur s T -> exists c T' t', rchoose ne ns orc stN L t T (lev s) s e = Ok (Some (c, T'), t').

  Lemma rmove_total : forall s e T q a mv, ok s -> target s = false -> bitvec ne e -> lgl s e ->
    cur s T -> invp (r_str q) (r_stk q) a s mv ->
    exists T' q', rmove ne ns orc alloc stN L s (lev s) e T q = Ok (Some (T', q')).
  Proof.
    intros s e T q a mv Hs Ht He Hl Hc HI. unfold rmove.
    destruct (Hctotal s e T (r_clk q) Hs Ht Hl He Hc) as (c & T' & t' & Hch). rewrite Hch.
    cbn [bind]. cbn zeta. destruct (Hchoose s e T _ c T' t' Hs Ht He Hc Hch) as (Hst & Hs' & Hc').
    set (s' := next_state ne ns c e) in *. destruct HI as (HB & HO & x & Hx & H1 & H2 & Hp).
    destruct (find_anode (r_str q) (-1) s') as [y|] eqn:Ef; cbn [r_str r_stk r_clk];
      unfold append_anode_trans.
    - rewrite (proj2 (find_some_iff _ (r_stk q) s x HB (Hok _ Hs))) by auto. rewrite Ef.
      cbn [bind]. eauto.
    - set (b := alloc t' (r_str q)).
      assert (Hss : s <> s').
      { intros E. rewrite (proj2 (find_some_iff _ (r_stk q) s' x HB (Hok _ Hs'))) in Ef;
          [discriminate|]. split; auto. congruence. }
      assert (F1 : find_anode (insert_anode (r_str q) b (-1) (-1) false s') (-1) s = Some x).
      { simpl. destruct (statecmp s' s) eqn:E; simpl.
        - apply statecmp_eq in E; [congruence|].
          rewrite (proj1 (Hok _ Hs)), (proj1 (Hok _ Hs')). auto.
        - apply (find_some_iff _ (r_stk q)); auto. }
      assert (F2 : find_anode (insert_anode (r_str q) b (-1) (-1) false s') (-1) s' =
                   Some (Automaton.Node b false s' (-1) (-1) [])).
      { simpl. rewrite statecmp_refl. auto. }
      rewrite F1, F2. cbn [bind]. eauto.
  Qed.
  Lemma rmoves_total : forall s, ok s -> target s = false ->
    forall es T q a mv, Forall (bitvec ne) es -> (forall e, In e es -> lgl s e) ->
    cur s T -> invp (r_str q) (r_stk q) a s mv ->
    exists q', rmoves ne ns orc alloc stN L s (lev s) es T q = Ok (Some q').
  Proof.
    intros s Hs Ht. induction es as [|e es IH]; intros T q a mv Hes Hl Hc HI; simpl; eauto.
    inversion Hes as [|? ? He Hes']; subst. assert (Hle : lgl s e) by (apply Hl; left; auto).
    destruct (rmove_total s e T q a mv Hs Ht He Hle Hc HI) as (T' & q' & Hm). rewrite Hm.
    cbn [bind]. destruct (rmove_inv s e T q T' q' a mv Hs Ht He Hc HI Hm) as (HI' & Hc' & _).
    apply (IH T' q' a (mv ++ [e])); auto. intros e' He'. apply Hl. right. auto.
  Qed.
  Lemma riteration_total : forall fuel s stk A t, inv A (s :: stk) -> 2 ^ ne <= fuel ->
    exists q', riteration ne ns orc alloc stN et L fuel s stk A t = Ok (Some q').
  Proof.
    intros fuel s stk A t (HB & HA) Hf.
    destruct (b_stk _ _ HB s) as (old & Ho & Hos); [left; auto|].
    assert (Hs : ok s) by (rewrite <- Hos; apply (b_ok _ _ HB); auto).
    unfold riteration. rewrite (Hsearch s Hs). cbn [bind].
    rewrite (proj2 (find_some_iff _ _ s old HB (Hok _ Hs))) by auto. cbn zeta.
    pose proof (pop_base _ _ _ HB) as HB0.
    assert (Hpop : others A stk (aid old)).
    { intros x Hx Hne. destruct (HA x Hx) as [H|(H1 & [H2|H2])]; auto.
      - exfalso. apply Hne. f_equal. apply (b_key _ _ HB); auto. congruence.
      - right. split; auto. }
    destruct (Nat.ltb_spec 0 (length (atrans old))) as [Htr|Htr]; cbn [orb]; eauto.
    assert (Hnil : atrans old = []) by (destruct (atrans old); auto; simpl in Htr; lia).
    pose proof (start_inv A stk (aid old) s old HB0 Hpop Ho eq_refl Hos Hnil) as HI.
    destruct (Nat.eqb_spec (lev s) 0) as [E0|E0]; eauto.
    assert (Ht : target s = false).
    { destruct (target s) eqn:E; auto. exfalso. apply E0, (Hlev s Hs), E. }
    destruct (HT s Hs Ht) as (T & HTn & Hc). rewrite HTn.
    destruct (Nat.ltb_spec 0 ne) as [Hne|Hne].
    - destruct (Hmtotal Hne fuel t s (Hok _ Hs) Hf) as (mv & Hmv). rewrite Hmv. cbn [bind].
      pose proof (Hmoves Hne _ _ _ _ (Hok _ Hs) Hmv) as Hm.
      apply (rmoves_total s Hs Ht mv T (RS _ stk (S t)) (aid old) [] (Hmvs _ _ Hm)); auto.
      intros e He. eapply Hmlegal; eauto.
    - assert (Hm : mvs s [[]]) by (apply Hmoves0; auto; lia).
      apply (rmoves_total s Hs Ht [[]] T (RS _ stk t) (aid old) [] (Hmvs _ _ Hm)); auto.
      intros e He. eapply Hmlegal; eauto.
  Qed.
  Lemma inv_size : forall A stk, base A stk -> length A <= 2 ^ n.
  Proof.
    intros A stk HB. rewrite <- (map_length astate A). apply NoDup_bits_length.
    - pose proof (b_ids _ _ HB) as Hnd. pose proof (b_key _ _ HB) as Hk.
      clear - Hnd Hk. induction A as [|x A IH]; simpl; [constructor|].
      inversion Hnd as [|? ? Hni Hnd']; subst. constructor.
      + intros H. apply in_map_iff in H. destruct H as (y & E & Hy).
        assert (y = x) by (apply Hk; [right|left|]; auto). subst. apply Hni. apply in_map. auto.
      + apply IH; auto. intros y z Hy Hz. apply Hk; right; auto.
    - apply Forall_forall. intros s Hin. apply in_map_iff in Hin. destruct Hin as (x & <- & Hx).
      apply Hok, (b_ok _ _ HB); auto.
  Qed.
  Lemma rmain_total : forall ifuel fuel q, inv (r_str q) (r_stk q) -> 2 ^ ne <= ifuel ->
    (2 ^ n - length (r_str q)) + length (r_stk q) <= fuel ->
    exists A, rmain ne ns orc alloc stN et L fuel ifuel q = Ok (Some A).
  Proof.
    intros ifuel. induction fuel; intros q HI Hf Hm; simpl.
    - destruct (r_stk q); [eauto|simpl in Hm; lia].
    - destruct (r_stk q) as [|s stk] eqn:E; eauto.
      destruct (riteration_total ifuel s stk (r_str q) (r_clk q) HI Hf) as (q' & Hi).
      rewrite Hi. cbn [bind]. destruct (riteration_inv _ _ _ _ _ _ HI Hi) as (HI' & Hr).
      apply IHfuel; auto. pose proof (inv_size _ _ (proj1 HI)). pose proof (inv_size _ _ (proj1 HI')).
      unfold room in Hr. simpl in Hm. lia.
  Qed.
  End Progress.
End Inv.
