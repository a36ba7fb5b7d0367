(** The rules patch_localfixpoint works with, and the nodes it regards as affected. *)
From Coq Require Import List ZArith Lia Bool Arith.
From Verif Require Import Base Game Bdd BGame Support SupportProofs EnumProofs Ops OpsProofs Strs Ptree Form Solve FSpec
  SolveProofs Automaton AutProofs AutProofs2 Synth SynthSpec Reach ReachProofs ReadState Nonbool AutIO
  Hotswap HotSpec HotProofs Interactive InteractSpec InteractProofs Patch PatchMerge PatchSpec.
Import ListNotations.
Open Scope nat_scope.

Section Rules.
  Variable F : fspec.
  Hypothesis Hws : well_scoped F.
  Hypothesis Hbool : all_boolean F.
  Hypothesis Hsvars : fs_svars F <> [].
  Let ne := length (fs_evars F).
  Let ns := length (fs_svars F).
  Let n := ne + ns.
  Let m := 2 * (ne + ns).
  Let k := length (fs_sgoals F).
  Notation sp := (spec_of F).
  Variable N : list vec.
  Hypothesis HN : Forall (bitvec n) N.

  (** ** N *)
  Lemma NB_ok : Good ne ns (N_BDD ne ns N) /\ forall s, bitvec n s -> evS n (N_BDD ne ns N) s = inN N s.
  Proof.
    change (N_BDD ne ns N) with (states_BDD ne ns N). destruct (states_good ne ns N HN) as (H1 & H2). split; auto.
    intros s Hs. unfold n. rewrite H2 by auto. apply Bool.eq_iff_eq_true. rewrite among_In. symmetry. apply (inN_iff n).
    - revert HN. apply Forall_impl. intros v Hv. apply Hv.
    - apply Hs.
  Qed.

  (** ** Parts *)
  Lemma cof_part : forall s x part, bitvec n s -> bitvec n x -> forall u, bitvec n u ->
    ev (bCof m (s ++ repeat 2%Z n) part) (u ++ x) = ev part (s ++ x).
  Proof.
    intros s x part Hs Hx u Hu. rewrite ev_Cof.
    2:{ apply (bm2 F); auto. }
    rewrite merge_q_app by (rewrite (proj1 Hs); auto; symmetry; apply Hu).
    rewrite merge_self_bits; [|apply Hs|rewrite (proj1 Hs), (proj1 Hu); auto].
    rewrite merge_q_twos; auto; [apply Hx|apply repeat_length].
  Qed.
  Lemma bits_cube : forall s, bitvec n s -> forallb (fun z => (z =? 0) || (z =? 1) || (z =? 2))%Z s = true.
  Proof.
    intros s Hs. apply forallb_forall. intros z Hz. destruct Hs as (_ & Hs). rewrite Forall_forall in Hs.
    destruct (Hs z Hz) as [->| ->]; reflexivity.
  Qed.
  Lemma relevant_ok : forall part l, Forall (bitvec n) l -> exists b, relevant ne ns l part = Some b /\
    (b = false -> forall s x, In s l -> bitvec n x -> ev part (s ++ x) = true).
  Proof.
    intros part. induction l as [|s l IH]; intros Hl; cbn [relevant].
    { exists false. split; [reflexivity|]. intros _ s x []. }
    inversion Hl as [|? ? Hs Hl']; subst. destruct (IH Hl') as (b & Eb & Hb). rewrite bits_cube by auto. cbv zeta.
    fold n. fold m.
    destruct (negb _ || negb _) eqn:E; [exists true; split; auto; discriminate|].
    exists b. split; auto. intros -> u x [<-|Hu] Hx; auto.
    apply orb_false_iff in E. destruct E as (_ & E). apply negb_false_iff in E. rewrite bLeq_spec in E.
    rewrite <- (cof_part s x part Hs Hx s Hs). apply E; [apply (bm2 F); auto|].
    unfold bOne. cbn. apply ev_mk. apply (bm2 F); auto.
  Qed.
  Lemma local_rule_ok : forall parts acc, exists d, local_rule ne ns N parts acc = Some d /\
    (forall s x, In s N -> bitvec n x -> ev d (s ++ x) = ev acc (s ++ x) && forallb (fun p => ev p (s ++ x)) parts) /\
    (no_primed_sys ne ns acc -> Forall (no_primed_sys ne ns) parts -> no_primed_sys ne ns d).
  Proof.
    induction parts as [|part parts IH]; intros acc; cbn [local_rule].
    { exists acc. split; auto. split; auto. intros s x _ _. rewrite andb_true_r. auto. }
    destruct (relevant_ok part N HN) as (b & Eb & Hb). rewrite Eb. destruct b.
    - destruct (IH (bAnd (2 * (ne + ns)) acc part)) as (d & Ed & H1 & H2). exists d. split; auto. split.
      + intros s x Hs Hx. rewrite H1 by auto. cbn [forallb]. rewrite ev_And; [rewrite andb_assoc; auto|].
        apply (bm2 F); auto. rewrite Forall_forall in HN. auto.
      + intros Ha Hp. inversion Hp; subst. apply H2; auto. intros s e w w' Hs He Hw Hw'.
        rewrite !ev_And by (apply (bm3 F); auto). f_equal; auto.
    - destruct (IH acc) as (d & Ed & H1 & H2). exists d. split; auto. split.
      + intros s x Hs Hx. rewrite H1 by auto. cbn. rewrite (Hb eq_refl s x Hs Hx). auto.
      + intros Ha Hp. inversion Hp; subst. apply H2; auto.
  Qed.

  Lemma parts_sem : forall c x f l, parts_of f l -> sem c x f = forallb (sem c x) l.
  Proof.
    intros c x f l H. induction H as [f|f g l l' H1 IH1 H2 IH2]; cbn; [rewrite andb_true_r; auto|].
    rewrite forallb_app, <- IH1, <- IH2. auto.
  Qed.
  Lemma parts_scope : forall f l, parts_of f l -> forall g, In g l ->
    (boolean f = true -> boolean g = true) /\ incl (fvars g) (fvars f) /\ incl (fnexts g) (fnexts f).
  Proof.
    intros f l H. induction H as [f|f1 f2 l l' H1 IH1 H2 IH2]; intros g Hg.
    - destruct Hg as [<-|[]]. split; auto. split; apply incl_refl.
    - apply in_app_or in Hg. destruct Hg as [Hg|Hg]; [destruct (IH1 g Hg) as (K1 & K2 & K3)|destruct (IH2 g Hg) as (K1 & K2 & K3)];
        (split; [intros Hb; cbn in Hb; apply andb_true_iff in Hb; apply K1; apply Hb|]); cbn; split;
        try (apply incl_appl; auto; fail); apply incl_appr; auto.
  Qed.
  Lemma parts_BDD : forall l, (forall g, In g l -> boolean g = true /\ incl (fvars g) (names (fs_vars F)) /\
      incl (fnexts g) (names (fs_vars F))) ->
    exists ds, map_out (to_BDD sp) (map tree_of l) = Ok ds /\
      Forall2 (fun f d => forall s s', bitvec n s -> bitvec n s' -> ev d (s ++ s') = sem (val F s) (val F s') f) l ds.
  Proof.
    induction l as [|f l IH]; intros H; cbn [map map_out].
    { exists []. split; auto. }
    destruct (H f (or_introl eq_refl)) as (H1 & H2 & H3).
    destruct (to_BDD_ok F f H1 H2 H3) as (d & Hd & _ & Hs). destruct IH as (ds & Hds & Hf); [intros g Hg; apply H; right; auto|].
    exists (d :: ds). split; [|constructor; auto]. rewrite Hd. cbn [bind]. rewrite Hds. reflexivity.
  Qed.
  Lemma parts_forallb : forall s s' l ds, bitvec n s -> bitvec n s' ->
    Forall2 (fun f d => forall s s', bitvec n s -> bitvec n s' -> ev d (s ++ s') = sem (val F s) (val F s') f) l ds ->
    forallb (fun d => ev d (s ++ s')) ds = forallb (sem (val F s) (val F s')) l.
  Proof.
    intros s s' l ds Hs Hs' H. induction H as [|f d l ds H1 H2 IH]; cbn; auto. rewrite H1 by auto. rewrite IH. auto.
  Qed.

  (** the two BDDs say what the rules [r] say about moves from states of N *)
  Definition locally (r : rules) (et st : dt) : Prop :=
    no_primed_sys ne ns et /\
    (forall s e w, bitvec n s -> inN N s = true -> bitvec ne e -> bitvec ns w -> ev et (s ++ e ++ w) = may_env r s e) /\
    (forall s s', bitvec n s -> inN N s = true -> bitvec n s' -> ev st (s ++ s') = may_sys r s s').
  Lemma NI : forall s, bitvec n s -> inN N s = true -> In s N.
  Proof.
    intros s Hs H. apply (inN_iff n) in H; auto; [|apply Hs]. revert HN. apply Forall_impl. intros v Hv. apply Hv.
  Qed.
  Lemma first_rules : forall ep sq, parts_of (fs_etrans F) ep -> parts_of (fs_strans F) sq ->
    exists eps sps et st, map_out (to_BDD sp) (map tree_of ep) = Ok eps /\ map_out (to_BDD sp) (map tree_of sq) = Ok sps /\
      local_rule ne ns N eps (bOne m) = Some et /\ local_rule ne ns N sps (bOne m) = Some st /\ locally (loaded F) et st.
  Proof.
    intros ep sq Hep Hsq. destruct Hws as (_ & _ & (He1 & He2) & (Hs1 & Hs2) & _). destruct Hbool as (_ & _ & _ & Hbe & Hbs & _).
    assert (He2' : incl (fnexts (fs_etrans F)) (names (fs_vars F))).
    { intros x Hx. apply He2 in Hx. unfold names, fs_vars in *. rewrite map_app. apply in_or_app; auto. }
    destruct (parts_BDD ep) as (eps & Eep & Fep).
    { intros g Hg. destruct (parts_scope _ _ Hep g Hg) as (K1 & K2 & K3). split; auto. split; eapply incl_tran; eauto. }
    destruct (parts_BDD sq) as (sps & Esq & Fsq).
    { intros g Hg. destruct (parts_scope _ _ Hsq g Hg) as (K1 & K2 & K3). split; auto. split; eapply incl_tran; eauto. }
    destruct (local_rule_ok eps (bOne m)) as (et & Eet & Het & Hnp). destruct (local_rule_ok sps (bOne m)) as (st & Est & Hst & _).
    exists eps, sps, et, st. split; auto. split; auto. split; auto. split; auto.
    assert (One : forall v, bitvec m v -> ev (bOne m) v = true) by (intros v Hv; unfold bOne; apply ev_mk; auto).
    split; [|split].
    - apply Hnp.
      + intros s e w w' Hs He Hw Hw'. rewrite !One; auto; apply (bm3 F); auto.
      + assert (Hg : forall g, In g ep -> incl (fnexts g) (names (fs_evars F))).
        { intros g Hg. destruct (parts_scope _ _ Hep g Hg) as (_ & _ & K). eapply incl_tran; eauto. }
        clear - Fep Hg. induction Fep as [|f d l ds H1 H2 IH]; constructor; [|apply IH; intros g Hgl; apply Hg; right; auto].
        intros s e w w' Hs He Hw Hw'. rewrite !H1 by (auto; apply bitvec_app; auto).
        apply sem_ext; auto. intros x Hx. apply (Hg f (or_introl eq_refl)) in Hx. unfold val, fs_vars, names. rewrite map_app.
        rewrite !lookup_app_l; auto; rewrite map_length; apply He.
    - intros s e w Hs HsN He Hw. apply NI in HsN; auto. rewrite Het by (auto; apply bitvec_app; auto).
      rewrite One by (apply (bm3 F); auto). rewrite andb_true_l. rewrite (parts_forallb s (e ++ w) ep eps) by (auto; apply bitvec_app; auto).
      rewrite <- (parts_sem _ _ _ _ Hep). cbn. apply sem_ext; auto. intros x Hx. apply He2 in Hx. unfold val, eval, fs_vars, names.
      rewrite map_app. apply lookup_app_l; auto. rewrite map_length. apply He.
    - intros s s' Hs HsN Hs'. apply NI in HsN; auto. rewrite Hst by auto.
      rewrite One by (apply (bm2 F); auto). rewrite andb_true_l. rewrite (parts_forallb s s' sq sps) by auto.
      rewrite <- (parts_sem _ _ _ _ Hsq). reflexivity.
  Qed.
End Rules.
