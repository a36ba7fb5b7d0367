(** synthesize terminates and succeeds when play starts in the winning set. *)
From Coq Require Import List ZArith Lia Bool Arith.
From Verif Require Import Base Fix Game GameTheory GameSound Levels Bdd BGame Support SupportProofs
  EnumProofs Ops OpsProofs SubProofs LevelProofs RealProofs Solve Automaton AutProofs AutProofs2
  Synth SynthSets SynthBdd SynthInv SynthInit SynthCert.
Import ListNotations.
Open Scope nat_scope.

Lemma NoDup_bits_length : forall k l, NoDup l -> Forall (bitvec k) l -> length l <= 2 ^ k.
Proof.
  intros k l Hnd Hb. rewrite <- (all_vecs_length k). apply NoDup_incl_length; auto.
  intros v Hv. rewrite Forall_forall in Hb. apply all_vecs_spec. auto.
Qed.

Section Prog.
  Variables (ne ns : nat) (orc : oracle) (alloc : nat -> aut -> nat).
  Let n := ne + ns.
  Let m := 2 * (ne + ns).
  Hypothesis Horc : oracle_ok m orc.
  Hypothesis Halloc : forall t A, ~ In (alloc t A) (ids A).
  Variables (et st : dt) (egs sgs : list dt).
  Hypothesis Het : no_primed_sys ne ns et.
  Hypothesis Hegs : Forall (Good ne ns) egs.
  Hypothesis Hsgs : Forall (Good ne ns) sgs.
  Hypothesis Hsg0 : 0 < length sgs.
  Hypothesis Heg0 : 0 < length egs.
  Let G := bgame ne ns et st egs sgs.
  Hypothesis Henv : 0 < ne \/ forall s, bitvec n s -> g_etr G s [] = true.
  Notation Good := (Good ne ns).
  Notation den := (evS n).
  Notation z0 := (bZero m).
  Notation d0 := (@nil dt, @nil (list dt)).
  Notation states := (all_vecs n).
  Let neg := length egs.
  Let k := length sgs.

  Lemma shift_all_total : forall W l (ps : list (list dt * list (list dt))), length ps = length l ->
    (forall i, i < length l -> 2 <= length (fst (nth i ps d0)) /\ 1 <= length (snd (nth i ps d0))) ->
    exists L, shift_all ne ns W l ps = Ok L.
  Proof.
    induction l as [|sg l IH]; intros ps Hl H; simpl; eauto.
    destruct ps as [|p ps]; [discriminate|]. destruct (H 0) as (H1 & H2); [simpl; lia|].
    cbn [nth] in H1, H2. destruct (IH ps) as (L & HL); [simpl in Hl; lia| |].
    { intros i Hi. apply (H (S i)). simpl. lia. }
    rewrite HL. destruct p as [[|y0 [|y1 Ys]] [|x0 Xs]]; simpl in H1, H2; try lia.
    simpl. eauto.
  Qed.

  Lemma levels_total : exists N, forall fuel, N <= fuel -> exists W R,
    compute_winning_set_BDD ne ns et st fuel egs sgs = Ok W /\ Good W /\
    eqP states (den W) (Wset G vec_eqb) /\
    compute_sublevel_sets ne ns et st fuel W egs sgs = Ok (Some R) /\
    ((exists s, bitvec n s /\ den W s = true) -> exists L, shift_all ne ns W sgs R = Ok L).
  Proof.
    exists (S (length (domZ G) + length states)). intros fuel Hf.
    destruct (winning_set_ok ne ns et st Het egs sgs Hegs Hsgs Hsg0 fuel) as (W & HW & HGW & HeW).
    { fold G. lia. } { fold n. lia. }
    destruct (sub_goals_ok ne ns et st Het egs sgs Hegs fuel W ltac:(fold n; lia) HGW sgs Hsgs)
      as (R & HR & HlR & HRi).
    exists W, R. split; auto. split; auto. split; auto. split.
    - unfold compute_sublevel_sets. rewrite HR. destruct sgs; [simpl in Hsg0; lia|]. reflexivity.
    - intros (s & Hs & Hw). apply shift_all_total; auto. intros i Hi.
      destruct (HRi i Hi) as (K1 & HL1 & HK1).
      pose proof (ladder_is ne ns et st egs sgs W i K1) as Hlad.
      destruct K1 as [|K1].
      + exfalso. assert (Hla : is_ladder G (goal ne ns sgs i) (den W) (egoal ne ns egs) neg 0
           (fun j => den (nth j (fst (nth i R d0)) z0))
           (fun j r => den (nth r (nth j (snd (nth i R d0)) []) z0))) by (apply Hlad; auto).
        assert (Hss : In s states) by (apply all_vecs_spec; auto).
        pose proof (lad_top _ _ _ _ _ _ _ _ Hla s Hss) as E1.
        pose proof (lad_bottom _ _ _ _ _ _ _ _ Hla s Hss) as E2. congruence.
      + destruct HL1 as (H1 & H2 & _). lia.
  Qed.

  Section WithGlue.
  Variables (W : dt) (L : list levels_t) (K : nat -> nat) (Y : nat -> nat -> vec -> bool)
    (X : nat -> nat -> nat -> vec -> bool).
  Hypothesis HG : glue ne ns et st egs sgs W L K Y X.
  Let stW := bAnd m st (bSwap m n W).

  Lemma move_legal : forall s mv e, bitvec n s -> smvs ne ns et st egs sgs s mv -> In e mv -> legal_env G s e.
  Proof.
    intros s mv e Hs (_ & Hb & Hm) He. destruct (Nat.ltb_spec 0 ne) as [H|H]; [apply Hm; auto|].
    subst mv. destruct He as [<-|[]]. split.
    - simpl. replace ne with 0 by lia. left. auto.
    - destruct Henv as [Hne|Hne]; [lia|]. apply Hne. auto.
  Qed.
  Lemma W_forces : forall s, bitvec n s -> den W s = true -> forces G (den W) s.
  Proof.
    intros s Hs H. assert (Hin : In s states) by (apply all_vecs_spec; auto).
    intros e He.
    assert (HE : EX G vec_eqb (Wset G vec_eqb) s = true).
    { apply (W_EX G vec_eqb vec_eqb_eq); auto.
      - unfold ngoals. simpl. rewrite map_length. lia.
      - rewrite <- (gl_win _ _ _ _ _ _ _ _ _ _ _ HG); auto. }
    pose proof (proj1 (EX_spec G vec_eqb vec_eqb_eq (Wset G vec_eqb) s) HE) as HE'. destruct (HE' e He) as (s' & Hl & Hw).
    exists s'. split; auto. rewrite (gl_win _ _ _ _ _ _ _ _ _ _ _ HG); auto. apply Hl.
  Qed.
  Lemma choose_total : forall i s j e t mv, i < k -> bitvec n s -> den W s = true ->
    smvs ne ns et st egs sgs s mv -> In e mv -> sfin ne ns sgs W K Y i s j ->
    exists c t', choose ne ns orc stW t (nth i L d0) j s e = Ok (Some c, t').
  Proof.
    intros i s j e t mv Hi Hs HW Hm He (Hj & _).
    assert (Hbe : bitvec ne e) by (destruct Hm as (_ & Hb & _); rewrite Forall_forall in Hb; auto).
    destruct (choose_cases ne ns orc Horc et st egs sgs W L K Y X HG i s j e t Hi Hs Hbe Hj)
      as [(c & t' & H & _)|(_ & H)]; eauto.
    exfalso. apply H. clear H.
    apply (can_choose G (goal ne ns sgs i) (den W) (egoal ne ns egs) neg (K i) (Y i) (X i)
      (gl_lad _ _ _ _ _ _ _ _ _ _ _ HG i Hi) (gl_K _ _ _ _ _ _ _ _ _ _ _ HG i Hi)); auto.
    - apply all_vecs_spec. auto.
    - eapply move_legal; eauto.
    - apply W_forces; auto.
  Qed.
  Lemma loop_total : forall ss t A t', NoDup ss -> Forall (bitvec n) ss ->
    (forall s, In s ss -> den W s = true) ->
    insert_initial alloc (map (fun s => (s, 0)) ss) [] t = (A, t') ->
    forall fuel ifuel, k <= ifuel -> 2 ^ ne <= ifuel ->
    (2 ^ n * k) * S (2 ^ ne) + 2 ^ n <= fuel ->
    exists A', main_loop ne ns orc alloc stW et L fuel ifuel (SS A (map (fun s => (s, 0)) ss) t') = Ok (Some A').
  Proof.
    intros ss t A t' Hnd Hb HW H fuel ifuel Hf1 Hf2 Hf3.
    pose proof (initial_inv ne ns alloc Halloc et st egs sgs Hsg0 W L K Y X HG ss t A t' Hnd Hb H) as HI.
    destruct (insert_initial_ok alloc Halloc ss [] t A t') as (H1 & H2 & H3); auto; [constructor|].
    pose proof (kL ne ns et st egs sgs W L K Y X HG) as EkL. fold k in EkL.
    refine (main_loop_prog ne ns orc alloc Halloc stW et L (gw ne ns sgs W) (sbump ne ns sgs W L)
      (sfin ne ns sgs W K Y) (spick ne ns et st egs sgs W K Y X) (smvs ne ns et st egs sgs)
      (sbump_refl ne ns sgs W L) (sbump_trans ne ns sgs W L) _ _ _
      (s_moves ne ns orc Horc et st egs sgs Het) (s_moves0 ne ns et st egs sgs) _ ss
      (fun s => den W s = true) ifuel _ _ _ _ _ _ fuel (SS A (map (fun s => (s, 0)) ss) t') HI _ _).
    - intros f lm s md j Hlm Hs. rewrite EkL in *. apply (s_search ne ns et st egs sgs W L K Y X HG f lm s Hlm Hs).
    - intros i s j e t0 c t0' Hi. rewrite EkL in Hi. apply (s_choose ne ns orc Horc et st egs sgs W L K Y X HG); auto.
    - intros i s f Hi. rewrite EkL in Hi. apply (s_eval ne ns et st egs sgs W L K Y X HG); auto.
    - intros s mv (_ & Hbv & _). auto.
    - intros s i j e s' Hp. apply (spick_base _ _ _ _ _ _ _ _ _ _ _ _ _ _ _ Hp).
    - intros i s j e t0 mv Hi. rewrite EkL in Hi. apply choose_total; auto.
    - intros Hne t0 s Hs.
      destruct (get_env_moves_spec ifuel (orc t0) (cube0 ne ns) s et ne ns) as (l & Hl & _); eauto.
      apply cube0_length.
    - intros lm s Hlm Hs. rewrite EkL in Hlm. apply (s_search ne ns et st egs sgs W L K Y X HG); auto.
    - intros i Hi. rewrite EkL in Hi. pose proof (gl_K _ _ _ _ _ _ _ _ _ _ _ HG i Hi) as HK.
      rewrite <- (gl_Ly _ _ _ _ _ _ _ _ _ _ _ HG i Hi) in HK. 
      destruct (fst (nth i L d0)) as [|f l]; [simpl in HK; lia|]. exists f. reflexivity.
    - intros s mv (Hn & Hbv & _). apply NoDup_bits_length; auto.
    - intros x Hx. apply HW. simpl in H3. rewrite app_nil_r in H3. apply in_rev. rewrite <- H3.
      apply in_map. auto.
    - cbn [s_str s_stk]. rewrite map_length. pose proof (NoDup_bits_length n ss Hnd Hb) as Hl.
      unfold keys. rewrite prod_length, all_vecs_length, seq_length. fold n. rewrite EkL. nia.
  Qed.
  End WithGlue.

  (** the initial states exist and are winning *)
  Definition ready (flags : init_flags_t) (sg : bool) (einit sinit : dt) : Prop :=
    match flags with
    | ALL_INIT =>
        (exists s, bitvec n s /\ den einit s = true /\ den sinit s = true) /\
        (forall s, bitvec n s -> den einit s = true -> den sinit s = true -> Wset G vec_eqb s = true)
    | ALL_ENV_EXIST_SYS_INIT =>
        (exists s, bitvec n s /\ den einit s = true) /\
        (forall e w, bitvec ne e -> bitvec ns w -> den einit (e ++ w) = true ->
           exists w' e', bitvec ns w' /\ bitvec ne e' /\ Wset G vec_eqb (e ++ w') = true /\
             den sinit (e' ++ w') = true)
    | ONE_SIDE_INIT =>
        if sg then exists s, bitvec n s /\ Wset G vec_eqb s = true /\ den sinit s = true
        else (exists s, bitvec n s /\ den einit s = true) /\
             (forall s, bitvec n s -> den einit s = true -> Wset G vec_eqb s = true)
    | UNDEFINED_INIT => False
    end.

  Lemma synth_total : forall flags sg einit sinit, Good einit -> Good sinit ->
    ready flags sg einit sinit ->
    exists N, forall fuel, N <= fuel -> exists A,
      synthesize_BDD ne ns orc alloc fuel flags sg einit sinit et st egs sgs = Ok A /\ A <> [].
  Proof.
    intros flags sg einit sinit Hei Hsi Hready.
    destruct levels_total as (N0 & HN0).
    exists (N0 + (2 ^ n * k) * S (2 ^ ne) + 2 ^ n + 2 ^ ne + k). intros fuel Hf.
    destruct (HN0 fuel ltac:(lia)) as (W & R & HW & HGW & HeW & HR & HLs).
    assert (HWb : forall s, bitvec n s -> den W s = Wset G vec_eqb s).
    { intros s Hs. apply HeW. apply all_vecs_spec. auto. }
    assert (Hfl : flags <> UNDEFINED_INIT) by (destruct flags; try discriminate; contradiction).
    assert (Hsp : forall (s : vec), bitvec n s -> exists e w, bitvec ne e /\ bitvec ns w /\ s = e ++ w).
    { intros s Hs. exists (firstn ne s), (skipn ne s). rewrite firstn_skipn.
      split; [apply (bitvec_firstn ne ns); auto|]. split; [apply (bitvec_skipn ne ns); auto|]. auto. }
    assert (HWne : exists s, bitvec n s /\ den W s = true).
    { destruct flags; [contradiction| | |]; simpl in Hready.
      - destruct Hready as ((s & Hs & H1) & H2). destruct (Hsp s Hs) as (e & w & He & Hw & ->).
        destruct (H2 e w He Hw H1) as (w' & e' & Hw' & _ & HWs & _). exists (e ++ w').
        assert (bitvec n (e ++ w')) by (apply bitvec_app; auto). rewrite HWb; auto.
      - destruct Hready as ((s & Hs & H1 & H2) & H3). exists s. rewrite HWb; auto.
      - destruct sg.
        + destruct Hready as (s & Hs & H1 & _). exists s. rewrite HWb; auto.
        + destruct Hready as ((s & Hs & H1) & H3). exists s. rewrite HWb; auto. }
    destruct (HLs HWne) as (L & HL).
    destruct (levels_glue ne ns et st egs sgs Het Hegs Hsgs Hsg0 Heg0 fuel fuel W R L HW HR HL)
      as (K & Y & X & HG).
    destruct (stack_total ne ns orc Horc einit sinit W HGW Hei Hsi fuel flags sg ltac:(fold n; lia) Hfl)
      as (o & t & Ho & Hnone).
    assert (Hsome : exists ss, o = Some ss).
    { destruct o as [ss|]; eauto. exfalso. specialize (Hnone eq_refl).
      destruct flags; simpl in Hready; auto.
      - destruct Hready as (_ & H2). destruct Hnone as (e & He & (w & Hw & H1) & H3).
        destruct (H2 e w He Hw H1) as (w' & e' & Hw' & He' & HWs & Hsi').
        apply (H3 w' e'); auto. rewrite HWb; auto. apply bitvec_app; auto.
      - destruct Hnone as (-> & Hn). destruct Hready as (s & Hs & H1 & H2).
        assert (E : den sinit s = false) by (apply Hn; auto; change (den W s = true); rewrite HWb; auto).
        congruence. }
    destruct Hsome as (ss & ->).
    destruct (stack_any ne ns orc Horc einit sinit W HGW Hei Hsi _ _ _ _ _ Ho) as (Hnd & Hb & Hst).
    assert (HssW : (forall s, In s ss -> den W s = true) /\ exists s, In s ss).
    { destruct flags; simpl in Hready, Hst; [contradiction| | |].
      - destruct Hst as (H1 & H2). split; [intros s Hs; apply (H2 s Hs)|].
        destruct Hready as ((s & Hs & H3) & _). destruct (Hsp s Hs) as (e & w & He & Hw & ->).
        destruct (H1 e He) as (w' & _ & Hin); eauto.
      - destruct Hready as ((s & Hs & H1 & H2) & H3). split.
        + intros s1 Hs1. apply Hst in Hs1. destruct Hs1 as (? & ? & ?). rewrite HWb; auto.
        + exists s. apply Hst. auto.
      - destruct sg.
        + destruct Hst as (s & -> & Hs & H1 & H2). split; [|exists s; left; auto].
          intros s1 [<-|[]]. auto.
        + destruct Hready as ((s & Hs & H1) & H3). split.
          * intros s1 Hs1. apply Hst in Hs1. destruct Hs1 as (? & ?). rewrite HWb; auto.
          * exists s. apply Hst. auto. }
    destruct HssW as (HssW & s1 & Hs1).
    unfold synthesize_BDD. fold n. change (2 * n) with m. rewrite HW. cbn [bind]. rewrite HR.
    cbn [bind]. rewrite HL. cbn [bind]. rewrite Ho. cbn [bind].
    destruct (insert_initial alloc (map (fun s => (s, 0)) ss) [] t) as (A0 & t0) eqn:E0.
    destruct (loop_total W L K Y X HG ss t A0 t0 Hnd Hb HssW E0 fuel fuel) as (A & HA); try lia.
    rewrite HA. cbn [bind]. exists A. split; auto. intros ->.
    assert (HI : sinv ne ns et st egs sgs W L K Y X ss [] []).
    { eapply (sinv_loop ne ns orc alloc Horc Halloc et st egs sgs Het W L K Y X HG); [|exact HA].
      cbn [s_str s_stk]. eapply initial_inv; eauto. }
    destruct (c_cover ne ns et st egs sgs Hsg0 W L K Y X ss [] HG HI s1 Hs1) as (x & c & [] & _).
  Qed.
End Prog.
