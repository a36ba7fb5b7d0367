(** From the loop invariant of synthesize_reachgame_BDD to the specification. Proofs only. *)
From Coq Require Import List ZArith Lia Bool Arith.
From Verif Require Import Base Fix Game GameTheory GameSound Levels Bdd BGame Support SupportProofs
  EnumProofs Ops OpsProofs SubProofs RealProofs Automaton AutProofs AutProofs2 Synth SynthSets
  SynthBdd SynthInit SynthCert SynthInv SynthProg Reach ReachSpec ReachSets ReachLevels ReachInv.
Import ListNotations.
Open Scope nat_scope.

Section Cert.
  Variables (ne ns : nat) (orc : oracle) (alloc : nat -> aut -> nat).
  Let n := ne + ns.
  Let m := 2 * (ne + ns).
  Hypothesis Horc : oracle_ok m orc.
  Hypothesis Halloc : forall t A, ~ In (alloc t A) (ids A).
  Variables (et st Exit N : dt) (egs sgs : list dt).
  Hypothesis Het : no_primed_sys ne ns et.
  Notation Good := (Good ne ns).
  Notation den := (evS n).
  Notation z0 := (bZero m).
  Hypothesis HgE : Good Exit.
  Hypothesis HgN : Good N.
  Hypothesis Hegs : Forall Good egs.
  Hypothesis HEN : sub ne ns Exit N.
  Let G0 := bgame ne ns et st egs sgs.
  Let G := within (den N) G0.
  Let eg r := nth r (g_egoals G) (fun _ => false).
  Let neg := length (g_egoals G).
  Let stN := bAnd m st (bSwap m n N).

  Section WithLevels.
  Variables (Ys : list dt) (Xs : list (list dt)) (K : nat).
  Hypothesis HL : rlad ne ns et st Exit N egs sgs K Ys Xs.
  Let Y := rY ne ns Ys.
  Let X := rX ne ns Xs.
  Let HLd : rladder G (den Exit) eg neg K Y X :=
    rlad_rladder ne ns et st Exit N egs sgs HEN K Ys Xs HL.
  Let J := rkJ K Y.

  Definition rok (s : vec) : Prop := In s (g_states G) /\ Y K s = true.
  Definition rcur (s : vec) (T : dt) : Prop := Good T /\ cur G eg neg K Y X s (den T).
  Definition rstep (s e s' : vec) : Prop :=
    legal_sys G s e s' /\ rok s' /\ (legal_env G s e -> lowers eg neg K Y X s s').

  Lemma rok_bv : forall s, rok s -> bitvec n s.
  Proof. intros s (H & _). apply (stG ne ns et st N egs sgs) in H. apply H. Qed.
  Lemma stN_ev : forall s s', bitvec n s -> bitvec n s' ->
    ev stN (s ++ s') = ev st (s ++ s') && den N s'.
  Proof.
    intros s s' Hs Hs'. unfold stN. rewrite ev_And by (apply (bm ne ns); auto).
    f_equal. rewrite ev_Swap by (apply (bm ne ns); auto).
    rewrite skipn_len, firstn_len by apply Hs. apply (evS_any ne ns); auto.
  Qed.
  Lemma suc_iff : forall s e T s', succ_in G0 (den N) s e T s' <-> suc G s e T s'.
  Proof.
    intros s e T s'. unfold succ_in, suc, legal_sys. simpl. rewrite filter_In. tauto.
  Qed.
  Lemma nosuc_iff : forall s e T, none G0 (den N) s e T <-> nosuc G s e T.
  Proof.
    intros s e T. split; intros H s' Hs'; apply (H s'); apply suc_iff; auto.
  Qed.

  Lemma search_ok : forall s j, rok s -> J s <= j <= S K -> (0 < j) ->
    level_search ne ns j Ys s = Ok (J s).
  Proof.
    intros s j Hs. pose proof (rok_bv s Hs) as Hb. destruct Hs as (Hs & HK).
    destruct (rkJ_spec G K Y s Hs HK) as (H1 & H2 & H3). fold (J s) in H1, H2, H3.
    pose proof HL as HL'; destruct HL' as (HlY & _).
    induction j as [|j IH]; intros Hj Hp; [lia|]. simpl.
    rewrite (nth_error_nth' _ z0) by lia. rewrite eval_at_den by auto.
    change (evS (ne + ns) (nth j Ys z0) s) with (Y j s).
    destruct (Y j s) eqn:E.
    - destruct j as [|j].
      + f_equal. destruct (J s); auto. rewrite H3 in E; [discriminate|lia].
      + apply IH; [|lia]. split; [|lia]. destruct (le_lt_dec (J s) (S j)); auto.
        rewrite H3 in E; [discriminate|lia].
    - f_equal. destruct (Nat.eq_dec (J s) (S j)); auto. exfalso.
      assert (Y j s = true); [|congruence].
      apply (Y_incr G (den Exit) eg neg K Y X HLd (J s) j); auto; lia.
  Qed.
  Lemma search_top : forall s, rok s ->
    level_search ne ns (length (fst (Ys, Xs))) (fst (Ys, Xs)) s = Ok (J s).
  Proof.
    intros s Hs. cbn [fst]. pose proof (proj1 HL) as ->. destruct Hs as (Hs & HK).
    pose proof (rkJ_spec G K Y s Hs HK) as (H1 & _). apply search_ok; [split; auto|unfold J; lia|lia].
  Qed.
  Lemma lev_zero : forall s, rok s -> (J s = 0 <-> den Exit s = true).
  Proof. intros s (Hs & HK). apply (rkJ_zero G (den Exit) eg neg K Y X HLd); auto. Qed.
  Lemma good_rY : forall j, j <= K -> Good (nth j Ys z0).
  Proof. intros j Hj. pose proof HL as HL'; destruct HL' as (_ & _ & H & _). auto. Qed.
  Lemma start_T : forall s, rok s -> den Exit s = false ->
    exists T, nth_error (fst (Ys, Xs)) (J s - 1) = Some T /\ rcur s T.
  Proof.
    intros s (Hs & HK) HE. destruct (rkJ_pos G (den Exit) eg neg K Y X HLd s Hs HK HE) as (H1 & H2).
    fold (J s) in H1, H2. exists (nth (J s - 1) Ys z0). split.
    - cbn [fst]. apply nth_error_nth'. pose proof HL as HL'; destruct HL' as (-> & _). lia.
    - split; [apply good_rY; lia|]. exact (cur_start G (den Exit) eg neg K Y X HLd s Hs HK HE).
  Qed.
  Lemma row_Good : forall j, j <= K -> length (nth j Xs []) = neg /\ Forall Good (nth j Xs []).
  Proof.
    intros j Hj. pose proof HL as HL'; destruct HL' as (_ & _ & _ & _ & HX0 & Hrow).
    assert (En : neg = length egs) by exact (neg_len ne ns et st N egs sgs).
    destruct j as [|j].
    - rewrite HX0, repeat_length. split; auto. apply Forall_forall. intros x Hx.
      apply repeat_spec in Hx. subst. apply (good_Zero ne ns).
    - destruct (Hrow j) as ((H1 & H2 & _) & _); [lia|]. split; auto. congruence.
  Qed.

  Lemma rtry_row_ok : forall s e, bitvec n s -> bitvec ne e -> forall row, Forall Good row ->
    (exists r f, r < length row /\ rtry_row ne ns stN row s e = Ok (Some (nth r row z0, f)) /\
       tspec ne ns st (den N) s e (den (nth r row z0)) f /\
       (exists s', suc G s e (den (nth r row z0)) s') /\
       forall r', r' < r -> nosuc G s e (den (nth r' row z0))) \/
    (rtry_row ne ns stN row s e = Ok None /\
     forall r, r < length row -> nosuc G s e (den (nth r row z0))).
  Proof.
    intros s e Hs He row Hg. induction Hg as [|x row Hx Hrow IH]; simpl.
    - right. split; auto. intros; lia.
    - destruct (toward_spec ne ns st stN [] (den N) stN_ev x s e Hx Hs He) as (f & -> & Hf). cbn [bind].
      destruct (is_zero ne ns f) eqn:Ez.
      + assert (Hn : nosuc G s e (den x)).
        { apply nosuc_iff. apply (no_cube_none ne ns et st egs sgs (den N) s e (den x) f); auto.
          apply is_zero_spec; auto. apply Hf. }
        destruct IH as [(r & f' & Hr & Ht & Hf' & Hex & Hnone)|(Ht & Hnone)].
        * left. exists (S r), f'. split; [lia|]. split; auto. split; auto. split; auto.
          intros [|r'] Hr'; auto. apply Hnone. lia.
        * right. split; auto. intros [|r] Hr; auto. apply Hnone. lia.
      + left. exists 0, f. split; [lia|]. split; auto. split; auto. split; [|intros; lia].
        destruct (some_succ ne ns et st egs sgs (den N) s e (den x) f He Hf) as (s' & Hs').
        * intros H. assert (is_zero ne ns f = true) by (apply is_zero_spec; auto; apply Hf). congruence.
        * exists s'. apply suc_iff. auto.
  Qed.

  (** what the choice of a cube can return *)
  Inductive chosen (s e : vec) (T : dt) : option (list Z * dt) -> Prop :=
  | ch_keep : forall c, suc G s e (den T) (next_state ne ns c e) -> chosen s e T (Some (c, T))
  | ch_below : forall c r, nosuc G s e (den T) -> r < neg ->
      suc G s e (X (J s - 1) r) (next_state ne ns c e) ->
      chosen s e T (Some (c, nth r (nth (J s - 1) Xs []) z0))
  | ch_same : forall c r, nosuc G s e (den T) -> r < neg ->
      (forall r', r' < r -> nosuc G s e (X (J s) r')) ->
      suc G s e (X (J s) r) (next_state ne ns c e) ->
      chosen s e T (Some (c, nth r (nth (J s) Xs []) z0))
  | ch_none : nosuc G s e (den T) -> (forall r, r < neg -> nosuc G s e (X (J s) r)) ->
      chosen s e T None.
  Lemma rchoose_ok : forall s e T t, bitvec n s -> bitvec ne e -> Good T -> 0 < J s <= K ->
    exists o t', rchoose ne ns orc stN (Ys, Xs) t T (J s) s e = Ok (o, t') /\ chosen s e T o.
  Proof.
    intros s e T t Hs He HgT HJ. unfold rchoose.
    destruct (toward_spec ne ns st stN [] (den N) stN_ev T s e HgT Hs He) as (f & -> & Hf). cbn [bind].
    destruct (orc t f) as [|c cs] eqn:Eo.
    2: { do 2 eexists. split; [reflexivity|]. constructor. apply suc_iff.
         eapply (cube_succ ne ns orc Horc et st egs sgs); eauto. }
    assert (Hn : nosuc G s e (den T)).
    { apply nosuc_iff. apply (no_cube_none ne ns et st egs sgs (den N) s e (den T) f); auto.
      apply (no_cube_ok ne ns orc Horc t f); auto. apply Hf. }
    assert (Hcube : forall T' f' s1 t', tspec ne ns st (den N) s e (den T') f' -> suc G s e (den T') s1 ->
      exists c cs, orc t' f' = c :: cs /\ suc G s e (den T') (next_state ne ns c e)).
    { intros T' f' s1 t' Hf' Hs1. destruct (orc t' f') as [|c cs] eqn:E.
      - exfalso. assert (H : nosuc G s e (den T')).
        { apply nosuc_iff. apply (no_cube_none ne ns et st egs sgs (den N) s e (den T') f'); auto.
          apply (no_cube_ok ne ns orc Horc t' f'); auto. apply Hf'. }
        apply (H s1 Hs1).
      - exists c, cs. split; auto. apply suc_iff.
        eapply (cube_succ ne ns orc Horc et st egs sgs); eauto. }
    assert (Hlx : length Xs = S K) by apply HL.
    unfold rfallback. cbn [snd].
    rewrite (nth_error_nth' Xs []) by lia.
    destruct (row_Good (J s - 1)) as (Hl1 & Hg1); [lia|].
    destruct (row_Good (J s)) as (Hl2 & Hg2); [lia|].
    destruct (rtry_row_ok s e Hs He _ Hg1) as [(r & f' & Hr & Ht & Hf' & (s1 & Hs1) & _)|(Ht & Hn1)];
      rewrite Ht; cbn [bind].
    - destruct (Hcube _ f' s1 (S t) Hf' Hs1) as (c & cs & Ec & Hc). rewrite Ec.
      do 2 eexists. split; [reflexivity|]. apply ch_below; auto. rewrite <- Hl1. auto.
    - rewrite (nth_error_nth' Xs []) by lia.
      destruct (rtry_row_ok s e Hs He _ Hg2) as [(r & f' & Hr & Ht2 & Hf' & (s1 & Hs1) & Hn2)|(Ht2 & Hn2)];
        rewrite Ht2; cbn [bind].
      + destruct (Hcube _ f' s1 (S t) Hf' Hs1) as (c & cs & Ec & Hc). rewrite Ec.
        do 2 eexists. split; [reflexivity|]. apply ch_same; auto. rewrite <- Hl2. auto.
      + do 2 eexists. split; [reflexivity|]. apply ch_none; auto.
        intros r Hr. apply Hn2. lia.
  Qed.
  Lemma legal_dec : forall s e, {legal_env G s e} + {~ legal_env G s e}.
  Proof.
    intros s e. unfold legal_env. destruct (g_etr G s e); [|right; intros (_ & H); discriminate].
    destruct (in_dec (list_eq_dec Z.eq_dec) e (g_envs G)); [left; auto|right; tauto].
  Qed.
  Lemma rchoose_step : forall s e T t c T' t', rok s -> den Exit s = false -> bitvec ne e ->
    rcur s T -> rchoose ne ns orc stN (Ys, Xs) t T (J s) s e = Ok (Some (c, T'), t') ->
    rstep s e (next_state ne ns c e) /\ rok (next_state ne ns c e) /\
    (legal_env G s e -> rcur s T').
  Proof.
    intros s e T t c T' t' Hs HE He (HgT & Hc) Hch. pose proof (rok_bv s Hs) as Hb.
    destruct Hs as (Hs & HK).
    pose proof (rkJ_pos G (den Exit) eg neg K Y X HLd s Hs HK HE) as HJ. fold (J s) in HJ.
    destruct (rchoose_ok s e T t Hb He HgT HJ) as (o & t1 & Heq & Hcho).
    rewrite Hch in Heq. injection Heq as <- <-. clear Hch.
    assert (Hmem : forall j r u, j <= J s -> r < neg -> suc G s e (X j r) u -> rok u).
    { intros j r u Hj Hr (H1 & H2). assert (Hu : In u (g_states G)) by apply H1. split; auto.
      eapply (X_le_K G (den Exit) eg neg K Y X HLd s); eauto. }
    inversion Hcho as [c0 Hsu|c0 r Hn Hr Hsu|c0 r Hn Hr Hfirst Hsu|]; subst.
    - assert (Hok : rok (next_state ne ns c e)).
      { split; [apply Hsu|]. apply (proj1 Hc); apply Hsu. }
      split; [split; [apply Hsu|split; auto]|].
      + intros _. eapply (keep_lowers G (den Exit) eg neg K Y X HLd); eauto.
      + split; auto. intros _. split; auto.
    - assert (Hok : rok (next_state ne ns c e)).
      { apply (Hmem (J s - 1) r); auto. lia. }
      destruct (row_Good (J s - 1)) as (Hl1 & Hg1); [lia|]. rewrite Forall_forall in Hg1.
      assert (Hle : legal_env G s e -> lowers eg neg K Y X s (next_state ne ns c e) /\
                rcur s (nth r (nth (J s - 1) Xs []) z0)).
      { intros Hlg. destruct (row_below G (den Exit) eg neg K Y X HLd s Hs HK HE e (den T) r
          (next_state ne ns c e) Hc Hlg Hn Hr Hsu) as (H1 & H2). split; auto.
        split; auto. apply Hg1, nth_In. lia. }
      split; [split; [apply Hsu|split; auto; intros H; apply Hle; auto]|].
      split; auto. intros H. apply Hle; auto.
    - assert (Hok : rok (next_state ne ns c e)).
      { apply (Hmem (J s) r); auto. }
      destruct (row_Good (J s)) as (Hl1 & Hg1); [lia|]. rewrite Forall_forall in Hg1.
      assert (Hle : legal_env G s e -> lowers eg neg K Y X s (next_state ne ns c e) /\
                rcur s (nth r (nth (J s) Xs []) z0)).
      { intros Hlg. destruct (row_same G (den Exit) eg neg K Y X HLd s Hs HK HE e (den T) r
          (next_state ne ns c e) Hc Hlg Hn Hr Hfirst Hsu) as (H1 & H2). split; auto.
        split; auto. apply Hg1, nth_In. lia. }
      split; [split; [apply Hsu|split; auto; intros H; apply Hle; auto]|].
      split; auto. intros H. apply Hle; auto.
  Qed.
  Lemma rchoose_total : forall s e T t, rok s -> den Exit s = false -> legal_env G s e ->
    bitvec ne e -> rcur s T ->
    exists c T' t', rchoose ne ns orc stN (Ys, Xs) t T (J s) s e = Ok (Some (c, T'), t').
  Proof.
    intros s e T t Hs HE Hl He (HgT & Hc). pose proof (rok_bv s Hs) as Hb.
    destruct Hs as (Hs & HK).
    pose proof (rkJ_pos G (den Exit) eg neg K Y X HLd s Hs HK HE) as HJ. fold (J s) in HJ.
    destruct (rchoose_ok s e T t Hb He HgT HJ) as (o & t1 & Heq & Hcho).
    destruct o as [(c & T')|]; eauto. exfalso. inversion Hcho as [| | |Hn Hall]; subst.
    destruct (row_some G (den Exit) eg neg K Y X HLd s Hs HK HE e (den T) Hc Hl Hn)
      as (r & s' & Hr & Hs'). apply (Hall r Hr s' Hs').
  Qed.

  (** *** the start of the loop *)
  Lemma rinsert_ok : forall l A t A' t', rinsert alloc l A t = (A', t') ->
    NoDup (ids A) ->
    (forall x, In x A -> amode x = (-1)%Z /\ atrans x = [] /\ ainit x = false) ->
    NoDup (ids A') /\
    (forall x, In x A' -> amode x = (-1)%Z /\ atrans x = [] /\ ainit x = false) /\
    map astate A' = rev l ++ map astate A.
  Proof.
    induction l as [|s l IH]; intros A t A' t' H Hnd Hx; simpl in H.
    - injection H as <- <-. auto.
    - apply IH in H.
      + destruct H as (H1 & H2 & H3). split; auto. split; auto. rewrite H3. simpl.
        rewrite <- app_assoc. auto.
      + simpl. constructor; auto.
      + intros x [<-|H0]; simpl; auto.
  Qed.
  Definition rinv (ss : list vec) (A : aut) (stk : list vec) : Prop :=
    inv rok (den Exit) J rstep (smvs ne ns et st egs sgs) ss A stk.
  Lemma start_rinv : forall l A t, NoDup l -> (forall s, In s l -> rok s) ->
    rinsert alloc (rev l) [] 1 = (A, t) -> rinv l A (rev l).
  Proof.
    intros l A t Hnd Hl H. destruct (rinsert_ok _ _ _ _ _ H) as (H1 & H2 & H3); [constructor|intros x []|].
    rewrite rev_involutive in H3. simpl in H3. rewrite app_nil_r in H3.
    assert (Hin : forall x, In x A -> In (astate x) l).
    { intros x Hx. rewrite <- H3. apply in_map. auto. }
    assert (Hcov : forall s, In s l -> exists x, In x A /\ astate x = s).
    { intros s Hs. rewrite <- H3 in Hs. apply in_map_iff in Hs. destruct Hs as (x & E & Hx). eauto. }
    split; [constructor|].
    - exact H1.
    - intros x Hx. split; [apply Hl, Hin; auto|apply H2; auto].
    - rewrite <- H3 in Hnd. clear - Hnd. intros x y Hx Hy E.
      induction A as [|z A IH]; [destruct Hx|]. simpl in Hnd. inversion Hnd as [|? ? Hni Hnd']; subst.
      destruct Hx as [<-|Hx], Hy as [<-|Hy]; auto.
      + exfalso. apply Hni. rewrite E. apply in_map. auto.
      + exfalso. apply Hni. rewrite <- E. apply in_map. auto.
    - apply NoDup_rev. auto.
    - intros s Hs. apply Hcov. apply in_rev. auto.
    - exact Hcov.
    - intros y Hy. exists y. split; auto. split; auto. constructor.
    - intros x Hx. apply H2. auto.
    - intros x Hx. right. split; [apply H2; auto|]. apply -> in_rev. auto.
  Qed.
  Lemma moves_one : forall s mv, bitvec n s -> smvs ne ns et st egs sgs s mv ->
    (forall e, In e mv -> legal_env G s e) \/ length mv <= 1.
  Proof.
    intros s mv Hs (_ & _ & H). destruct (0 <? ne).
    - left. intros e He. apply H. auto.
    - right. subst. auto.
  Qed.
  Lemma run_rinv : forall l fuel ifuel q A, rinv l (r_str q) (r_stk q) ->
    rmain ne ns orc alloc stN et (Ys, Xs) fuel ifuel q = Ok (Some A) -> rinv l A [].
  Proof.
    intros l fuel ifuel q A HI Hm.
    refine (rmain_inv ne ns orc alloc Halloc stN et (Ys, Xs) rok (den Exit) J rcur rstep
      (fun s e => legal_env G s e) (smvs ne ns et st egs sgs) rok_bv search_top lev_zero start_T
      rchoose_step (s_moves ne ns orc Horc et st egs sgs Het) (s_moves0 ne ns et st egs sgs)
      _ moves_one l ifuel fuel q A HI Hm).
    intros s mv (_ & H & _). exact H.
  Qed.
  Lemma run_total : (0 < ne \/ forall s, bitvec n s -> g_etr G s [] = true) ->
    forall l fuel ifuel q, rinv l (r_str q) (r_stk q) -> 2 ^ ne <= ifuel ->
    (2 ^ n - length (r_str q)) + length (r_stk q) <= fuel ->
    exists A, rmain ne ns orc alloc stN et (Ys, Xs) fuel ifuel q = Ok (Some A).
  Proof.
    intros Henv l fuel ifuel q HI Hf Hm.
    refine (rmain_total ne ns orc alloc Halloc stN et (Ys, Xs) rok (den Exit) J rcur rstep
      (fun s e => legal_env G s e) (smvs ne ns et st egs sgs) rok_bv search_top lev_zero start_T
      rchoose_step (s_moves ne ns orc Horc et st egs sgs Het) (s_moves0 ne ns et st egs sgs)
      _ moves_one l _ _ _ ifuel fuel q HI Hf Hm).
    - intros s mv (_ & H & _). exact H.
    - intros s mv e Hs Hmv He. 
      destruct Hmv as (_ & Hb & Hmm). rewrite Forall_forall in Hb. specialize (Hb e He).
      destruct (Nat.ltb_spec 0 ne) as [Hp|Hp]; [apply Hmm; auto|].
      destruct Henv as [Hc|Henv]; [lia|]. subst mv. destruct He as [<-|[]].
      split; [simpl; replace ne with 0 by lia; left; auto|]. apply Henv. auto.
    - intros Hne f t s Hs Hff.
      destruct (get_env_moves_spec f (orc t) (cube0 ne ns) s et ne ns) as (mv & Hmv & _); eauto.
      apply cube0_length.
    - intros s e T t Hs HE Hl He Hc. apply rchoose_total; auto.
  Qed.

  (** *** the final automaton *)
  Lemma Forall2_In_r : forall A B (R : A -> B -> Prop) l l' b, Forall2 R l l' -> In b l' ->
    exists a, In a l /\ R a b.
  Proof.
    intros A B R l l' b H. induction H; intros Hin; [destruct Hin|].
    destruct Hin as [<-|Hin]; [exists x; split; [left|]; auto|].
    destruct (IHForall2 Hin) as (a & Ha & HR). exists a. split; [right|]; auto.
  Qed.
  Lemma Forall2_In_l : forall A B (R : A -> B -> Prop) l l' a, Forall2 R l l' -> In a l ->
    exists b, In b l' /\ R a b.
  Proof.
    intros A B R l l' a H. induction H; intros Hin; [destruct Hin|].
    destruct Hin as [<-|Hin]; [exists y; split; [left|]; auto|].
    destruct (IHForall2 Hin) as (b & Hb & HR). exists b. split; [right|]; auto.
  Qed.

  Lemma rinv_strategy : forall l A, rinv l A [] ->
    forall entry : vec -> bool, (forall s, In s l <-> bitvec n s /\ entry s = true) ->
    reach_strategy G (den Exit) entry (ne =? 0) A.
  Proof.
    intros l A (HB & HS) entry Hl.
    assert (Hset : forall x, In x A -> settled (den Exit) J rstep (smvs ne ns et st egs sgs) A x).
    { intros x Hx. destruct (HS x Hx) as [H|(_ & [])]. auto. }
    pose proof (b_ids _ _ _ _ HB) as Hids. pose proof (b_key _ _ _ _ HB) as Hkey.
    assert (Huniq : forall x y, In x A -> In y A -> aid x = aid y -> x = y).
    { intros x y Hx Hy E. apply (node_unique A); auto. }
    assert (Hst : forall x, In x A -> In (astate x) (g_states G) /\ Y K (astate x) = true).
    { intros x Hx. apply (b_ok _ _ _ _ HB x Hx). }
    (* every transition is a step for some listed move *)
    assert (Htr : forall x t, In x A -> In t (atrans x) -> den Exit (astate x) = false /\
      exists mv e y, smvs ne ns et st egs sgs (astate x) mv /\ In e mv /\ In y A /\ aid y = t /\
        rstep (astate x) e (astate y)).
    { intros x t Hx Ht. destruct (Hset x Hx) as [(_ & _ & H)|(H1 & mv & Hm & _ & H)].
      - exfalso. inversion H as [E1 E2|]. rewrite <- E2 in Ht. destruct Ht.
      - split; auto. destruct (Forall2_In_r _ _ _ _ _ _ H Ht) as (e & He & y & Hy & Hid & Hs).
        exists mv, e, y. auto. }
    assert (Hlegal : forall x mv e, In x A -> smvs ne ns et st egs sgs (astate x) mv -> In e mv ->
      (ne =? 0) = false -> legal_env G (astate x) e).
    { intros x mv e Hx (_ & _ & Hm) He Hne. apply Nat.eqb_neq in Hne.
      replace (0 <? ne) with true in Hm by (symmetry; apply Nat.ltb_lt; lia). apply Hm. auto. }
    assert (noenv_legal : forall x y e, (ne =? 0) = true -> rstep (astate x) e (astate y) ->
      g_etr G (astate x) (g_env G (astate x)) = true -> legal_env G (astate x) e).
    { intros x y e E0 ((_ & Henv & _) & _) Hne. apply Nat.eqb_eq in E0.
      assert (Hem : forall v : vec, g_env G v = []) by (intros v; simpl; rewrite E0; auto).
      rewrite Hem in Hne. rewrite Hem in Henv. subst e.
      split; auto. simpl. rewrite E0. left. auto. }
    assert (Hrank : forall x, In x A -> argrad x = Z.of_nat (J (astate x))).
    { intros x Hx. destruct (Hset x Hx) as [(_ & H & _)|(_ & mv & _ & H & _)]; auto. }
    constructor.
    - exact Hids.
    - intros x Hx. apply Hst; auto.
    - exact Hkey.
    - intros x a Hx Ha. destruct (Htr x a Hx Ha) as (_ & mv & e & y & _ & _ & Hy & Hid & _). eauto.
    - intros x Hx. apply (b_ok _ _ _ _ HB x Hx).
    - intros s Hs He. apply (b_cover _ _ _ _ HB). apply Hl. split; auto.
      apply (stG ne ns et st N egs sgs) in Hs. apply Hs.
    - intros y Hy. destruct (b_reach _ _ _ _ HB y Hy) as (x & Hx & Hin & Hr). exists x.
      split; auto. split; auto. apply Hl in Hin. apply Hin.
    - intros x y Hx Hy Ht. destruct (Htr x _ Hx Ht) as (HE & mv & e & y' & Hm & He & Hy' & Hid & Hs).
      assert (y' = y) by (apply Huniq; auto). subst y'. split; auto.
      destruct Hs as ((_ & Henv & Hstr) & _). split; auto. intros Hne. rewrite Henv.
      eapply Hlegal; eauto.
    - intros x e Hx HE He. destruct (Hset x Hx) as [(H & _)|(_ & mv & Hm & _ & H)]; [congruence|].
      assert (Hin : In e mv).
      { destruct Hm as (_ & _ & Hm). destruct (Nat.ltb_spec 0 ne) as [Hne|Hne].
        - apply Hm. auto.
        - subst mv. destruct He as (He & _). simpl in He. replace ne with 0 in He by lia. auto. }
      destruct (Forall2_In_l _ _ _ _ _ _ H Hin) as (t & Ht & y & Hy & Hid & Hs). subst t.
      exists y. split; auto. split; auto. split; [apply Hs|].
      intros z Hz Hzt Hze.
      (* the same move stands at one place of [mv] only *)
      destruct Hm as (Hnd & _). destruct Hs as ((_ & Hye & _) & _).
      assert (Hpos : forall (tr : list nat) mv0, NoDup mv0 ->
        Forall2 (fun e t => exists y, In y A /\ aid y = t /\ rstep (astate x) e (astate y)) mv0 tr ->
        forall y z, In y A -> In z A -> In (aid y) tr -> In (aid z) tr ->
        g_env G (astate y) = g_env G (astate z) -> aid y = aid z).
      { clear - Huniq. intros tr mv0 Hnd HF. induction HF as [|e t mv0 tr (u & Hu & Hui & Hus) HF IH];
          intros y z Hy Hz Hyt Hzt E; [destruct Hyt|]. inversion Hnd as [|? ? Hni Hnd']; subst.
        assert (Hget : forall w, In w A -> In (aid w) tr -> In (g_env G (astate w)) mv0).
        { intros w Hw Hwt. destruct (Forall2_In_r _ _ _ _ _ _ HF Hwt) as (e' & He' & w' & Hw' & Hid & Hs).
          assert (w' = w) by (apply Huniq; auto). subst w'. destruct Hs as ((_ & -> & _) & _). auto. }
        assert (Hue : g_env G (astate u) = e) by apply Hus.
        destruct Hyt as [Hyt|Hyt], Hzt as [Hzt|Hzt].
        - congruence.
        - exfalso. assert (y = u) by (apply Huniq; auto). subst y. apply Hni.
          rewrite <- Hue, E. auto.
        - exfalso. assert (z = u) by (apply Huniq; auto). subst z. apply Hni.
          rewrite <- Hue, <- E. auto.
        - apply IH; auto. }
      apply Huniq; auto. eapply Hpos; eauto. congruence.
    - intros x Hx. destruct (Hset x Hx) as [(_ & _ & H)|(_ & mv & (Hnd & _) & _ & H)].
      + inversion H. constructor.
      + clear - H Hnd Huniq. induction H as [|e t mv tr (u & Hu & Hui & Hus) HF IH]; constructor.
        * inversion Hnd as [|? ? Hni Hnd']; subst. intros Hin.
          destruct (Forall2_In_r _ _ _ _ _ _ HF Hin) as (e' & He' & w & Hw & Hid & Hs).
          assert (w = u) by (apply Huniq; auto). subst w. apply Hni.
          destruct Hus as ((_ & <- & _) & _). destruct Hs as ((_ & -> & _) & _). auto.
        * inversion Hnd; auto.
    - intros p Hp Hne Hio.
      apply (run_reaches G (den Exit) eg neg K Y X HLd (fun t => astate (p t))).
      + intros t. right. destruct (Hp t) as (Hx & Ht). destruct (Hst _ Hx) as (H1 & H2).
        destruct (Htr _ _ Hx Ht) as (HE & mv & e & y & Hm & He & Hy & Hid & Hs).
        assert (y = p (S t)) by (apply Huniq; auto; apply Hp). subst y.
        repeat (split; [auto|]). apply Hs.
        destruct (ne =? 0) eqn:E0; [|eapply Hlegal; eauto].
        eapply noenv_legal; eauto.
      + intros r Hr. apply Hio, nth_In. exact Hr.
    - intros x Hx Hnil. destruct (den Exit (astate x)) eqn:E; auto. right.
      destruct (Hset x Hx) as [(H & _)|(_ & mv & Hm & _ & H)]; [congruence|].
      rewrite Hnil in H. inversion H; subst. intros e He. destruct Hm as (_ & _ & Hm).
      destruct (0 <? ne); [|discriminate]. apply Hm in He. destruct He.
    - intros x Hx. rewrite (Hrank x Hx). split; [lia|].
      rewrite <- (lev_zero (astate x) (Hst x Hx)). lia.
    - intros x y Hx Hy Ht Hne. rewrite (Hrank x Hx), (Hrank y Hy).
      destruct (Htr x _ Hx Ht) as (HE & mv & e & y' & Hm & He & Hy' & Hid & Hs).
      assert (y' = y) by (apply Huniq; auto). subst y'.
      assert (Hlw : lowers eg neg K Y X (astate x) (astate y)).
      { apply Hs. destruct (ne =? 0) eqn:E0; [|eapply Hlegal; eauto].
        apply (noenv_legal x y e); auto. }
      unfold J. destruct Hlw as [H1|(H1 & _)]; lia.
  Qed.
  End WithLevels.
End Cert.
