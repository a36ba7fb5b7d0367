(** Proofs about one search of sim_rhc (Sim.v): the states within the horizon and
    the state selected. *)
From Coq Require Import List ZArith Lia Bool Arith String.
From Verif Require Import Base Game GameTheory Bdd BGame Support SupportProofs EnumProofs Ops OpsProofs
  Automaton AutProofs2 Synth SynthBdd Nonbool Metric MetricSpec MetricProofs MetricLevels Sim.
Import ListNotations.
Open Scope list_scope.
Open Scope nat_scope.

(** ** Lists of states *)
Definition lev (stacks : list (list vec)) (d : nat) : list vec := nth d stacks [].
Lemma push_length : forall d s l, List.length (push d s l) = List.length l.
Proof. induction d; intros s [|x l]; cbn; auto. Qed.
Lemma push_lev : forall d s l j, d < List.length l ->
  lev (push d s l) j = if j =? d then s :: lev l d else lev l j.
Proof.
  unfold lev. induction d; intros s [|x l] j H; cbn in H; try lia.
  - destruct j; cbn; auto.
  - destruct j; cbn [push nth]; auto. rewrite IHd by lia. cbn [Nat.eqb]. reflexivity.
Qed.
Lemma found_spec : forall n l s, Forall (bitvec n) l -> bitvec n s -> (found l s = true <-> In s l).
Proof.
  intros n l s Hl Hs. unfold found. rewrite existsb_exists. rewrite Forall_forall in Hl. split.
  - intros (x & Hx & E). apply statecmp_eq in E; [subst; auto|]. rewrite (proj1 (Hl x Hx)), (proj1 Hs). auto.
  - intros H. exists s. split; auto. apply statecmp_refl.
Qed.
Lemma In_firstn_nth : forall A k (l : list A) d x, In x (firstn k l) <-> exists j, j < k /\ j < List.length l /\ nth j l d = x.
Proof.
  intros A. induction k; intros l d x; cbn.
  - split; [intros []|]. intros (j & H & _). lia.
  - destruct l as [|y l]; cbn.
    + split; [intros []|]. intros (j & _ & H & _). lia.
    + rewrite (IHk l d). split.
      * intros [->|(j & H1 & H2 & H3)]; [exists 0; repeat split; lia|]. exists (S j). repeat split; auto; lia.
      * intros ([|j] & H1 & H2 & H3); auto. right. exists j. repeat split; auto; lia.
Qed.

Section Search.
  Variables (ne ns : nat) (orc : oracle) (fuel : nat).
  Let n := ne + ns.
  Let m := 2 * (ne + ns).
  Hypothesis Horc : oracle_ok m orc.
  Hypothesis Hfuel : 2 ^ n <= fuel.
  Variables (W et st : dt) (offw : list (Z * Z)).
  Hypothesis HW : Good ne ns W.
  Hypothesis Het : no_primed_sys ne ns et.
  Hypothesis Hoff : fields_in n offw.
  Notation den := (evS n).
  Variable goalW : dt.
  Hypothesis Hgoal : Good ne ns goalW.

  (** the environment may make the move [e]; [s'] is in W and answers it *)
  Definition mv (s e : vec) : Prop := bitvec ne e /\ ev et (s ++ e ++ zeros ns) = true.
  Definition ans (s e s' : vec) : Prop :=
    mv s e /\ bitvec n s' /\ firstn ne s' = e /\ ev st (s ++ s') = true /\ den W s' = true.
  Definition succ (s e s' : vec) : Prop :=
    bitvec n s' /\ firstn ne s' = e /\ ev st (s ++ s') = true /\ den W s' = true.
  (** a step of both players into W *)
  Definition pstep (s s' : vec) : Prop := exists e, ans s e s'.

  Lemma stW_ev : forall s s', bitvec n s -> bitvec n s' ->
    ev (strans_into_W ne ns W st) (s ++ s') = ev st (s ++ s') && den W s'.
  Proof.
    intros s s' Hs Hs'. unfold strans_into_W.
    assert (Hb : bitvec (2 * (ne + ns)) (s ++ s')) by (apply (join2 ne ns); auto).
    rewrite ev_And by auto.
    rewrite ev_swap2 by auto. f_equal. apply (den_ev ne ns); auto. apply HW.
  Qed.

  Lemma explore_list : forall d mem s e q, bitvec n s -> bitvec ne e ->
    exists l, (forall x, In x l <-> succ s e x) /\
      explore ne ns orc fuel W st offw d goalW mem s e q =
      visit_all ne ns orc fuel offw d goalW mem l (Search (S (sr_t q)) (sr_stacks q) (sr_next q) (sr_min q)).
  Proof.
    intros d mem s e q Hs He. unfold explore.
    assert (H1 : exists g, state_to_cof m (cube0 ne ns) s (strans_into_W ne ns W st) 0 = Some g /\ wf m g /\
      forall u e' w, bitvec n u -> bitvec ne e' -> bitvec ns w ->
                ev g (u ++ e' ++ w) = ev (strans_into_W ne ns W st) (s ++ e' ++ w)).
    { destruct (state_to_cof_spec 0 n n m (cube0 ne ns) (strans_into_W ne ns W st) [] s s (zeros n)) as (g & Hg & Hwf & _);
        auto using bitvec_nil, bitvec_zeros; try apply cube0_length; try (unfold m, n; lia).
      exists g. split; auto. split; auto. intros u e' w Hu He' Hw.
      destruct (state_to_cof_spec 0 n n m (cube0 ne ns) (strans_into_W ne ns W st) [] s u (e' ++ w)) as (g' & Hg' & _ & H);
        auto using bitvec_nil; try apply cube0_length; try (unfold m, n; lia); [apply bitvec_app; auto|].
      assert (g' = g) by congruence. subst. exact H. }
    destruct H1 as (g1 & Hg1 & Hwf1 & H1). fold m. rewrite Hg1.
    assert (H2 : exists g, state_to_cof m (cube0 ne ns) e g1 n = Some g /\ wf m g /\
      forall u e' w, bitvec n u -> bitvec ne e' -> bitvec ns w ->
                ev g (u ++ e' ++ w) = ev st (s ++ e ++ w) && den W (e ++ w)).
    { destruct (state_to_cof_spec n ne ns m (cube0 ne ns) g1 s e e (zeros ns)) as (g & Hg & Hwf & _);
        auto using bitvec_zeros; try apply cube0_length; try (unfold m, n; lia).
      exists g. split; auto. split; auto. intros u e' w Hu He' Hw.
      destruct (state_to_cof_spec n ne ns m (cube0 ne ns) g1 u e e' w) as (g' & Hg' & _ & H);
        auto; try apply cube0_length; try (unfold m, n; lia).
      assert (g' = g) by congruence. subst. rewrite H, H1 by auto. apply stW_ev; auto. apply bitvec_app; auto. }
    destruct H2 as (g & Hg & Hwf & H2). fold n. rewrite Hg.
    pose proof (Horc (sr_t q) g Hwf) as Hcs.
    rewrite concat_out_ok with (g := fun c => completions (slice (ns + 2 * ne) ns c)).
    2:{ intros c Hin. apply enum_cube_ok. destruct Hcs as [Hsh _].
        rewrite Forall_forall in Hsh. destruct (Hsh c Hin) as (Hl & _ & _).
        unfold slice. rewrite firstn_length, skipn_length.
        replace (Nat.min ns (List.length c - (ns + 2 * ne))) with ns by (unfold m in Hl; lia).
        eapply Nat.le_trans; [|exact Hfuel]. apply Nat.pow_le_mono_r; unfold n; lia. }
    cbn [bind]. eexists. split; [|reflexivity].
    assert (Hdep : forall i, i < m -> depends m g i -> ns + 2 * ne <= i < ns + 2 * ne + ns).
    { apply depends_slice with (g := fun w => ev st (s ++ e ++ w) && den W (e ++ w)).
      - unfold m; lia.
      - intros v Hv. destruct (split3 ne ns v Hv) as (u & e' & w & -> & Hu & He' & Hw).
        rewrite H2 by auto.
        assert (Hsl : slice (ns + 2 * ne) ns (u ++ e' ++ w) = w); [|rewrite Hsl; auto].
        unfold slice. rewrite app_assoc.
        rewrite skipn_len by (rewrite app_length, (proj1 Hu), (proj1 He'); lia).
        apply firstn_all2. rewrite (proj1 Hw). lia. }
    destruct (enum_slices m (ns + 2 * ne) ns g (orc (sr_t q) g)) as [_ H3]; auto; try (unfold m; lia).
    intros x. rewrite in_map_iff. unfold succ. split.
    - intros (y & <- & Hy). apply H3 in Hy. destruct Hy as [Hb Hy].
      replace (m - (ns + 2 * ne) - ns) with 0 in Hy by (unfold m; lia).
      assert (Hbx : bitvec n (e ++ y)) by (apply bitvec_app; auto).
      replace (ns + 2 * ne) with (n + ne) in Hy by (unfold n; lia).
      unfold zeros in Hy. rewrite repeat_app in Hy. cbn [repeat] in Hy.
      rewrite app_nil_r, <- app_assoc in Hy.
      rewrite H2 in Hy; auto; try apply bitvec_zeros.
      apply andb_true_iff in Hy. split; auto. split; [|auto].
      apply firstn_len. apply He.
    - intros (Hb & Hf & H4 & H5). exists (skipn ne x).
      destruct (split2 ne ns x Hb) as (e1 & w & -> & He1 & Hw).
      rewrite firstn_len in Hf by apply He1. subst e1. rewrite skipn_len by apply He1.
      split; auto. apply H3. split; auto.
      replace (m - (ns + 2 * ne) - ns) with 0 by (unfold m; lia).
      replace (ns + 2 * ne) with (n + ne) by (unfold n; lia).
      unfold zeros. rewrite repeat_app. cbn [repeat]. rewrite app_nil_r, <- app_assoc.
      rewrite H2; auto; try apply bitvec_zeros. apply andb_true_iff. auto.
  Qed.

  (** ** Selection *)
  Definition goalset (s : vec) : Prop := in_set n goalW s.
  (** what next_state and next_min hold when the candidates [C] have been compared *)
  Definition sel (next0 : option vec) (C : vec -> Prop) (next : option vec) (mn : Z) : Prop :=
    ((forall x, ~ C x) /\ next = next0 /\ mn = (-1)%Z) \/
    exists x, C x /\ next = Some x /\
      ((exists g, goalset g) -> set_dist offw goalset x mn /\
         forall y d, C y -> set_dist offw goalset y d -> (mn <= d)%Z) /\
      ((forall g, ~ goalset g) -> mn = (-1)%Z).
  Lemma sel_ext : forall n0 C C' nx mn, (forall x, C x <-> C' x) -> sel n0 C nx mn -> sel n0 C' nx mn.
  Proof.
    intros n0 C C' nx mn H [(H1 & H2 & H3)|(x & H1 & H2 & H3 & H4)].
    - left. split; auto. intros x Hx. apply (H1 x). apply H. auto.
    - right. exists x. split; [apply H; auto|]. split; auto. split; auto.
      intros Hg. destruct (H3 Hg) as [H5 H6]. split; auto. intros y d Hy. apply H6. apply H. auto.
  Qed.
  Lemma set_dist_fun : forall x d d', set_dist offw goalset x d -> set_dist offw goalset x d' -> d = d'.
  Proof. intros x d d'. unfold set_dist. apply least_unique. Qed.
  Lemma set_dist_pos : forall x d, set_dist offw goalset x d -> (0 <= d)%Z.
  Proof. intros x d [(s & _ & <-) _]. apply dist_nonneg. Qed.

  (** the candidate is new: what happens to next_state and next_min *)
  Lemma select : forall t n0 C nx mn c, bitvec n c -> sel n0 C nx mn ->
    exists b, bounds_state n fuel orc t goalW c offw = Ok b /\
    sel n0 (fun x => C x \/ x = c)
      (if ((mn =? -1) || (fst b <? mn))%Z then Some c else nx)
      (if ((mn =? -1) || (fst b <? mn))%Z then fst b else mn).
  Proof.
    intros t n0 C nx mn c Hc Hsel. destruct Hgoal as [G1 G2].
    destruct (in_set_dec ne ns orc Horc goalW G1 G2) as [Hg|Hg].
    - destruct (bounds_state_ok n orc Horc goalW offw c G1 G2 Hoff Hc Hg t fuel Hfuel) as (lo & hi & E & L1 & _).
      exists (lo, hi). split; auto. cbn [fst].
      assert (Hd : set_dist offw goalset c lo) by exact L1.
      pose proof (set_dist_pos _ _ Hd) as Hp.
      destruct Hsel as [(H1 & -> & ->)|(x & H1 & -> & H3 & H4)].
      + change (-1 =? -1)%Z with true. cbn [orb]. right. exists c. split; auto. split; auto. split.
        * intros _. split; auto. intros y d [Hy|Hy] Hyd; [exfalso; eapply H1; eauto|]. subst y.
          rewrite (set_dist_fun c lo d); auto. lia.
        * intros Hn. exfalso. destruct Hg as (g & Hg). apply (Hn g Hg).
      + destruct (H3 Hg) as [H5 H6]. pose proof (set_dist_pos _ _ H5) as Hp'.
        destruct (Z.eqb_spec mn (-1)); [lia|]. cbn [orb].
        destruct (Z.ltb_spec lo mn) as [Hlt|Hge].
        * right. exists c. split; auto. split; auto. split.
          -- intros _. split; auto. intros y d [Hy|Hy] Hyd; [specialize (H6 y d Hy Hyd); lia|]. subst y.
             rewrite (set_dist_fun c lo d); auto. lia.
          -- intros Hn. exfalso. destruct Hg as (g & Hg). apply (Hn g Hg).
        * right. exists x. split; auto. split; auto. split.
          -- intros _. split; auto. intros y d [Hy|Hy] Hyd; [exact (H6 y d Hy Hyd)|]. subst y.
             rewrite <- (set_dist_fun c lo d); auto.
          -- intros Hn. exfalso. destruct Hg as (g & Hg). apply (Hn g Hg).
    - exists (-1, -1)%Z. split; [apply bounds_state_empty; auto|]. cbn [fst].
      assert (Hmn : mn = (-1)%Z).
      { destruct Hsel as [(_ & _ & ->)|(x & _ & _ & _ & H4)]; auto. }
      subst mn. change (-1 =? -1)%Z with true. cbn [orb]. right. exists c. split; auto. split; auto. split; auto.
      intros (g & Hg'). exfalso. apply (Hg g Hg').
  Qed.

  (** ** Candidates at one depth *)
  Variables (h : nat) (old : list (list vec)) (next0 : option vec) (mem : list vec).
  Hypothesis Hmem : Forall (bitvec n) mem.
  (** inserted since the search began, into some list *)
  Definition New (stacks : list (list vec)) (x : vec) : Prop :=
    exists d, d < h /\ In x (lev stacks d) /\ forall i, i <= d -> ~ In x (lev old i).
  Record stacks_ok (stacks : list (list vec)) : Prop := {
    so_len : List.length stacks = h;
    so_bits : forall d x, In x (lev stacks d) -> bitvec n x /\ den W x = true;
    so_nodup : forall d, NoDup (lev stacks d)
  }.
  Record inv (q : search) : Prop := {
    iv_ok : stacks_ok (sr_stacks q);
    iv_grown : forall d x, In x (lev old d) -> In x (lev (sr_stacks q) d);
    iv_sel : sel next0 (fun x => New (sr_stacks q) x /\ ~ In x mem) (sr_next q) (sr_min q)
  }.
  Lemma lev_bits : forall stacks d, stacks_ok stacks -> Forall (bitvec n) (lev stacks d).
  Proof. intros stacks d H. apply Forall_forall. intros x Hx. eapply so_bits; eauto. Qed.
  Lemma lev_beyond : forall stacks d, stacks_ok stacks -> h <= d -> lev stacks d = [].
  Proof. intros stacks d H Hd. unfold lev. apply nth_overflow. rewrite (so_len _ H). auto. Qed.
  Lemma inv_time : forall q t, inv q -> inv (Search t (sr_stacks q) (sr_next q) (sr_min q)).
  Proof. intros q t [H1 H2 H3]. constructor; auto. Qed.

  (** [q'] arises from [q] by putting the elements of [l] that are not in the lists
      0, ..., d into the list d *)
  Definition added (d : nat) (P : vec -> Prop) (q q' : search) : Prop :=
    (forall j, j <> d -> lev (sr_stacks q') j = lev (sr_stacks q) j) /\
    (forall x, In x (lev (sr_stacks q') d) ->
       In x (lev (sr_stacks q) d) \/ (P x /\ forall j, j <= d -> ~ In x (lev (sr_stacks q) j))) /\
    (forall x, In x (lev (sr_stacks q) d) -> In x (lev (sr_stacks q') d)) /\
    (forall x, P x -> exists j, j <= d /\ In x (lev (sr_stacks q') j)).

  Lemma visit_ok : forall d c q, d < h -> bitvec n c -> den W c = true -> inv q ->
    exists q', visit ne ns orc fuel offw d goalW mem c q = Ok q' /\ inv q' /\ added d (fun x => x = c) q q'.
  Proof.
    intros d c q Hd Hc HWc Hi. unfold visit.
    assert (Hin : existsb (fun stack => found stack c) (firstn (S d) (sr_stacks q)) = true <->
                  exists j, j <= d /\ In c (lev (sr_stacks q) j)).
    { rewrite existsb_exists. split.
      - intros (l & Hl & Hf). apply (In_firstn_nth _ _ _ []) in Hl. destruct Hl as (j & H1 & H2 & <-).
        exists j. split; [lia|]. apply (found_spec n) in Hf; auto. apply lev_bits. apply Hi.
      - intros (j & H1 & H2). exists (lev (sr_stacks q) j). split.
        + apply (In_firstn_nth _ _ _ []). exists j. split; [lia|]. split; auto.
          rewrite (so_len _ (iv_ok _ Hi)). lia.
        + apply (found_spec n); auto. apply lev_bits. apply Hi. }
    destruct (existsb _ _).
    { destruct (proj1 Hin eq_refl) as (j & Hj & Hx). exists q. split; auto. split; auto.
      split; [auto|]. split; [auto|]. split; [auto|]. intros x ->. eauto. }
    assert (Hnew : forall j, j <= d -> ~ In c (lev (sr_stacks q) j)).
    { intros j Hj H. destruct Hin as [_ Hin]. discriminate Hin. eauto. }
    clear Hin.
    set (stacks := push d c (sr_stacks q)).
    assert (Hlev : forall j, lev stacks j = if j =? d then c :: lev (sr_stacks q) d else lev (sr_stacks q) j).
    { intros j. apply push_lev. rewrite (so_len _ (iv_ok _ Hi)). auto. }
    assert (Hok : stacks_ok stacks).
    { destruct (iv_ok _ Hi) as [S1 S2 S3]. constructor.
      - unfold stacks. rewrite push_length. auto.
      - intros j x. rewrite Hlev. destruct (Nat.eqb_spec j d); [|apply S2].
        intros [<-|H]; auto. eapply S2; eauto.
      - intros j. rewrite Hlev. destruct (Nat.eqb_spec j d); [|apply S3]. constructor; auto. }
    assert (Hgr : forall j x, In x (lev old j) -> In x (lev stacks j)).
    { intros j x Hx. rewrite Hlev. apply (iv_grown _ Hi) in Hx. destruct (Nat.eqb_spec j d); auto.
      subst. right. auto. }
    assert (HNew : forall x, New stacks x <-> New (sr_stacks q) x \/ x = c).
    { intros x. split.
      - intros (j & Hj & Hx & Ho). rewrite Hlev in Hx. destruct (Nat.eqb_spec j d) as [->|];
          [destruct Hx as [->|Hx]; auto|]; left; eexists; eauto.
      - intros [(j & Hj & Hx & Ho) | -> ].
        + exists j. split; auto. split; auto. rewrite Hlev. destruct (Nat.eqb_spec j d) as [->|]; auto. right; auto.
        + exists d. split; auto. split; [rewrite Hlev, Nat.eqb_refl; left; auto|].
          intros i Hid H. apply (Hnew i); auto. apply (iv_grown _ Hi); auto. }
    assert (Hadd : forall t nx mn, added d (fun x => x = c) q (Search t stacks nx mn)).
    { intros t nx mn. split; cbn [sr_stacks]; [|split; [|split]].
      - intros j Hj. rewrite Hlev. destruct (Nat.eqb_spec j d); auto. contradiction.
      - intros x. rewrite Hlev, Nat.eqb_refl. intros [<-|H]; auto.
      - intros x Hx. rewrite Hlev, Nat.eqb_refl. right. auto.
      - intros x ->. exists d. split; auto. rewrite Hlev, Nat.eqb_refl. left. auto. }
    destruct (found mem c) eqn:Ef.
    - apply (found_spec n) in Ef; auto. eexists. split; [reflexivity|]. split; [|apply Hadd].
      constructor; cbn [sr_stacks sr_next sr_min]; auto.
      eapply sel_ext; [|apply (iv_sel _ Hi)]. intros x. cbn beta. rewrite HNew. split; [tauto|].
      intros ([H|H] & H'); [auto|]. subst x. contradiction.
    - assert (Hnm : ~ In c mem).
      { intros H. apply (found_spec n) in H; auto. congruence. }
      destruct (select (sr_t q) next0 _ _ _ c Hc (iv_sel _ Hi)) as (b & Eb & Hs).
      unfold n in Eb. rewrite Eb. cbn [bind].
      assert (Hs' : sel next0 (fun x => New stacks x /\ ~ In x mem)
         (if ((sr_min q =? -1) || (fst b <? sr_min q))%Z then Some c else sr_next q)
         (if ((sr_min q =? -1) || (fst b <? sr_min q))%Z then fst b else sr_min q)).
      { eapply sel_ext; [|exact Hs]. intros x. cbn beta. rewrite HNew. split.
        - intros [[H1 H2] | H]; [auto|]. subst x. auto.
        - intros ([H1 | H1] & H2); auto. }
      destruct ((sr_min q =? -1) || (fst b <? sr_min q))%Z.
      + eexists. split; [reflexivity|]. split; [|apply Hadd]. constructor; auto.
      + eexists. split; [reflexivity|]. split; [|apply Hadd]. constructor; auto.
  Qed.
  Lemma added_trans : forall d P Q q1 q2 q3, added d P q1 q2 -> added d Q q2 q3 ->
    added d (fun x => P x \/ Q x) q1 q3.
  Proof.
    intros d P Q q1 q2 q3 (A1 & A2 & A3 & A4) (B1 & B2 & B3 & B4).
    split; [intros j Hj; rewrite B1, A1; auto|]. split; [|split].
    - intros x Hx. apply B2 in Hx. destruct Hx as [Hx|[HQ Hx]].
      + apply A2 in Hx. destruct Hx as [Hx|[HP Hx]]; auto.
      + destruct (in_dec (list_eq_dec Z.eq_dec) x (lev (sr_stacks q1) d)) as [|Hn]; auto.
        right. split; auto. intros j Hj. destruct (Nat.eq_dec j d) as [->|Hjd]; auto.
        rewrite <- A1 by auto. auto.
    - auto.
    - intros x [HP|HQ]; [|auto]. destruct (A4 x HP) as (j & Hj & Hx). exists j. split; auto.
      destruct (Nat.eq_dec j d) as [->|Hjd]; auto. rewrite B1; auto.
  Qed.
  Lemma added_ext : forall d P Q q1 q2, (forall x, P x <-> Q x) -> added d P q1 q2 -> added d Q q1 q2.
  Proof.
    intros d P Q q1 q2 H (A1 & A2 & A3 & A4). split; auto. split; [|split; auto].
    - intros x Hx. apply A2 in Hx. destruct Hx as [|[HP Hx]]; auto. right. split; auto. apply H; auto.
    - intros x Hx. apply A4. apply H. auto.
  Qed.
  Lemma added_none : forall d P t q, (forall x, ~ P x) -> added d P q (Search t (sr_stacks q) (sr_next q) (sr_min q)).
  Proof.
    intros d P t q H. split; [auto|]. split; [auto|]. split; [auto|]. intros x Hx. destruct (H x Hx).
  Qed.
  Lemma added_refl : forall d P q, (forall x, ~ P x) -> added d P q q.
  Proof.
    intros d P q H. split; [auto|]. split; [auto|]. split; [auto|]. intros x Hx. destruct (H x Hx).
  Qed.
  Lemma visit_all_ok : forall d l q, d < h -> (forall x, In x l -> bitvec n x /\ den W x = true) -> inv q ->
    exists q', visit_all ne ns orc fuel offw d goalW mem l q = Ok q' /\ inv q' /\ added d (fun x => In x l) q q'.
  Proof.
    intros d. induction l as [|c l IH]; intros q Hd Hl Hi; cbn [visit_all].
    - exists q. split; auto. split; auto. apply added_refl. intros x [].
    - destruct (Hl c (or_introl eq_refl)) as [H1 H2].
      destruct (visit_ok d c q Hd H1 H2 Hi) as (q1 & E1 & I1 & A1). rewrite E1. cbn [bind].
      destruct (IH q1 Hd (fun x Hx => Hl x (or_intror Hx)) I1) as (q2 & E2 & I2 & A2). rewrite E2.
      exists q2. split; auto. split; auto.
      eapply added_ext; [|eapply added_trans; [exact A1|exact A2]]. intros x. cbn. split; intros [H|H]; auto.
  Qed.
  Lemma explore_ok : forall d s e q, d < h -> bitvec n s -> bitvec ne e -> inv q ->
    exists q', explore ne ns orc fuel W st offw d goalW mem s e q = Ok q' /\ inv q' /\ added d (succ s e) q q'.
  Proof.
    intros d s e q Hd Hs He Hi. destruct (explore_list d mem s e q Hs He) as (l & Hl & E). rewrite E.
    destruct (visit_all_ok d l (Search (S (sr_t q)) (sr_stacks q) (sr_next q) (sr_min q)) Hd) as (q' & E' & I' & A').
    - intros x Hx. apply Hl in Hx. destruct Hx as (H1 & _ & _ & H2). auto.
    - apply inv_time. auto.
    - exists q'. split; auto. split; auto. eapply added_ext; [exact Hl|]. exact A'.
  Qed.
  Lemma explore_moves_ok : forall d s l q, d < h -> bitvec n s -> Forall (bitvec ne) l -> inv q ->
    exists q', explore_moves ne ns orc fuel W st offw d goalW mem s l q = Ok q' /\ inv q' /\
      added d (fun x => exists e, In e l /\ succ s e x) q q'.
  Proof.
    intros d s. induction l as [|e l IH]; intros q Hd Hs Hl Hi; cbn [explore_moves].
    - exists q. split; auto. split; auto. apply added_refl. intros x (e & [] & _).
    - inversion Hl as [|? ? He Hl']; subst.
      destruct (explore_ok d s e q Hd Hs He Hi) as (q1 & E1 & I1 & A1). rewrite E1. cbn [bind].
      destruct (IH q1 Hd Hs Hl' I1) as (q2 & E2 & I2 & A2). rewrite E2. exists q2. split; auto. split; auto.
      eapply added_ext; [|eapply added_trans; [exact A1|exact A2]]. intros x. cbn. split.
      + intros [H|(e' & H1 & H2)]; [exists e|exists e']; auto.
      + intros (e' & [<-|H1] & H2); eauto.
  Qed.
  Lemma env_moves_ok : forall t s, bitvec n s -> exists l,
    get_env_moves fuel (orc t) (cube0 ne ns) s et ne ns = Ok l /\ NoDup l /\ forall e, In e l <-> mv s e.
  Proof.
    intros t s Hs. destruct (get_env_moves_spec fuel (orc t) (cube0 ne ns) s et ne ns) as (l & E & Hn & Hl).
    - apply cube0_length.
    - exact Hs.
    - intros f Hf. apply Horc. auto.
    - eapply Nat.le_trans; [|exact Hfuel]. apply Nat.pow_le_mono_r; unfold n; lia.
    - exists l. split; auto. split; auto. intros e. rewrite Hl. unfold mv. split.
      + intros (He & w & Hw & H). split; auto. rewrite <- H. apply Het; auto using bitvec_zeros.
      + intros (He & H). split; auto. exists (zeros ns). split; auto using bitvec_zeros.
  Qed.
  Lemma explore_nodes_ok : forall d nodes q, d < h -> Forall (bitvec n) nodes -> inv q ->
    exists q', explore_nodes ne ns orc fuel W et st offw d goalW mem nodes q = Ok q' /\ inv q' /\
      added d (fun x => exists s, In s nodes /\ pstep s x) q q'.
  Proof.
    intros d. induction nodes as [|s l IH]; intros q Hd Hl Hi; cbn [explore_nodes].
    - exists q. split; auto. split; auto. apply added_refl. intros x (e & [] & _).
    - inversion Hl as [|? ? Hs Hl']; subst.
      destruct (env_moves_ok (sr_t q) s Hs) as (mvs & E & _ & Hm). rewrite E. cbn [bind].
      destruct (explore_moves_ok d s mvs (Search (S (sr_t q)) (sr_stacks q) (sr_next q) (sr_min q)) Hd Hs) as (q1 & E1 & I1 & A1).
      { apply Forall_forall. intros e He. apply Hm in He. apply He. }
      { apply inv_time. auto. }
      rewrite E1. cbn [bind].
      destruct (IH q1 Hd Hl' I1) as (q2 & E2 & I2 & A2). rewrite E2. exists q2. split; auto. split; auto.
      assert (A1' : added d (fun x => exists e, In e mvs /\ succ s e x) q q1) by exact A1.
      eapply added_ext; [|eapply added_trans; [exact A1'|exact A2]]. intros x. cbn. unfold pstep, ans. split.
      + intros [(e & H1 & H2)|(s' & H1 & H2)]; [exists s|exists s'; auto]. split; auto. exists e.
        split; [apply Hm; auto|exact H2].
      + intros (s' & [<-|H1] & H2); eauto. destruct H2 as (e & H2 & H3). left. exists e.
        split; [apply Hm; auto|exact H3].
  Qed.

  (** ** All depths *)
  (** each state of a later list has a predecessor in the list before *)
  Definition linked (stacks : list (list vec)) : Prop :=
    forall d x, In x (lev stacks (S d)) -> exists p, In p (lev stacks d) /\ pstep p x.
  (** the successors of the states in the lists below [d] are in the lists *)
  Definition covered (d : nat) (stacks : list (list vec)) : Prop :=
    forall j p x, j < d -> In p (lev stacks j) -> pstep p x -> exists i, i <= S j /\ In x (lev stacks i).
  Lemma depths_ok : forall k d q, S d + k = h -> inv q -> linked (sr_stacks q) -> covered d (sr_stacks q) ->
    exists q', explore_depths ne ns orc fuel W et st offw (seq (S d) k) goalW mem q = Ok q' /\ inv q' /\
      linked (sr_stacks q') /\ covered (d + k) (sr_stacks q') /\ lev (sr_stacks q') 0 = lev (sr_stacks q) 0.
  Proof.
    induction k; intros d q Hk Hi Hl Hc; cbn [seq explore_depths].
    - exists q. rewrite Nat.add_0_r. auto.
    - replace (S d - 1) with d by lia.
      destruct (explore_nodes_ok (S d) (lev (sr_stacks q) d) q) as (q1 & E1 & I1 & A1 & A2 & A3 & A4); auto; [lia| |].
      { apply lev_bits. apply Hi. }
      unfold lev at 1 in E1. rewrite E1. cbn [bind].
      destruct (IHk (S d) q1) as (q2 & E2 & I2 & L2 & C2 & Z2); auto; [lia| | |].
      + intros j x Hx. destruct (Nat.eq_dec j d) as [->|Hjd].
        * apply A2 in Hx. rewrite A1 by lia. destruct Hx as [Hx|[Hx _]]; auto.
        * rewrite A1 in Hx by lia. destruct (Hl j x Hx) as (p & Hp & Hs). exists p. split; auto.
          destruct (Nat.eq_dec j (S d)) as [->|]; auto. rewrite A1; auto.
      + intros j p x Hj Hp Hs. rewrite A1 in Hp by lia. destruct (Nat.eq_dec j d) as [->|Hjd].
        * destruct (A4 x) as (i & Hi' & Hx); eauto.
        * destruct (Hc j p x) as (i & Hi' & Hx); auto; [lia|]. exists i. split; auto.
          rewrite A1 by lia. auto.
      + rewrite E2. exists q2. split; auto. split; auto. split; auto.
        replace (d + S k) with (S d + k) by lia. split; auto. rewrite Z2. apply A1. lia.
  Qed.
End Search.
