(** Whole sessions of the interactive mode: answers to lists of commands. *)
From Coq Require Import List ZArith Bool Arith Lia.
From Verif Require Import Base Fix Game GameTheory Bdd Support SupportProofs EnumProofs BGame Ops
  OpsProofs Strs Ptree Form Solve FSpec SolveProofs Levels
  Automaton Synth SynthBdd SynthSpec Interactive InteractSpec InteractLevels InteractProofs.
Import ListNotations.
Open Scope list_scope.
Open Scope nat_scope.

(** a stuck command occurs in a session that starts with the book [b] *)
Definition gets_stuck (F : fspec) (b : book) (cs : list command) : Prop :=
  exists h c t, cs = h ++ c :: t /\ stuck F (fold_left (update F) h b) c.

Section Run.
  Variable F : fspec.
  Hypothesis Hws : well_scoped F.
  Hypothesis Hbool : all_boolean F.
  Hypothesis Hgoals : fs_sgoals F <> [].
  Hypothesis Hsvars : fs_svars F <> [].
  Let ne := length (fs_evars F).
  Let ns := length (fs_svars F).
  Let n := ne + ns.
  Let m := 2 * (ne + ns).
  Let k := length (fs_sgoals F).
  Notation sp := (spec_of F).

  (** *** every game with edited rules has sublevel sets *)
  Lemma rules_BDD : forall r, rep_rules F r
    (mk m (fun v => may_env r (firstn n v) (slice n ne v)))
    (mk m (fun v => may_sys r (firstn n v) (skipn n v))).
  Proof.
    intros r. split.
    - intros s e w Hs He Hw. rewrite ev_mk by (apply join3; auto). unfold slice.
      rewrite firstn_len, skipn_len, firstn_len; auto; [apply He|apply Hs|apply Hs].
    - intros s s' Hs Hs'. rewrite ev_mk.
      + rewrite firstn_len, skipn_len; auto; apply Hs.
      + replace m with (n + n) by (unfold m, n; lia). apply bitvec_app; auto.
  Qed.
  Lemma sublevels_exist : forall r i, i < k -> exists K Y, sublevels F r i K Y.
  Proof.
    intros r i Hi. destruct (spec_BDDs_ok F Hws Hbool) as
      (et & st & eg & sg & Hb & Hnp & Hgeg & Hgsg & _ & Hlsg & Hleg & Het & Hst & Heg & Hsg).
    pose proof (rules_BDD r) as HR.
    destruct (winning_rep F Hbool Hgoals eg sg Hgeg Hgsg Hlsg Hleg Heg Hsg r _ _ HR _ (le_n _))
      as (W & HW & _).
    destruct (levels_rep F Hbool Hgoals eg sg Hgeg Hgsg Hlsg Hleg Heg Hsg r _ _ HR _ (le_n _) W HW)
      as (L & _ & _ & HL).
    destruct (HL i Hi) as (K & _ & _ & HS). eauto.
  Qed.
  Lemma index_exist : forall r i K Y s, sublevels F r i K Y -> In s (fs_states F) ->
    exists j, index_in K Y s j.
  Proof.
    intros r i K Y s (W & X & _ & HL) Hs. pose proof (lad_bottom _ _ _ _ _ _ _ _ HL s Hs) as H0.
    assert (H : forall q, q <= K -> Y (K - q) s = false \/ exists j, index_in K Y s j).
    { induction q as [|q IH]; intros Hq.
      - rewrite Nat.sub_0_r. destruct (Y K s) eqn:E; auto. right.
        (* the least level *)
        clear Hq. assert (H : forall q, q <= K -> Y q s = false \/ exists j, index_in K Y s j).
        { induction q as [|q IH]; intros Hq; auto. destruct IH as [IH|IH]; [lia| |auto].
          destruct (Y (S q) s) eqn:E1; auto. right. exists (S q). split; [lia|].
          replace (S q - 1) with q by lia. auto. }
        destruct (H K) as [H1|H1]; auto. congruence.
      - destruct IH as [IH|IH]; [lia| |auto]. destruct (Y (K - S q) s) eqn:E; auto.
        pose proof (lad_mono _ _ _ _ _ _ _ _ HL s Hs (K - S q) (K - q) ltac:(lia) E). congruence. }
    destruct (H 0) as [H1|H1]; [lia| |auto]. rewrite Nat.sub_0_r in H1.
    exists (K + 1). split; [lia|]. replace (K + 1 - 1) with K by lia. split; auto. lia.
  Qed.

  Section Exec.
  Variable orc : oracle.
  Hypothesis Horc : oracle_ok m orc.
  Variable fuel : nat.
  Hypothesis Hfuel : fuel_bound F <= fuel.
  Variables (et0 st0 : dt) (eg sg : list dt).
  Hypothesis Hspec : spec_BDDs sp = Ok (et0, st0, eg, sg).
  Hypothesis Hgeg : Forall (Good ne ns) eg.
  Hypothesis Hgsg : Forall (Good ne ns) sg.
  Hypothesis Hlsg : length sg = k.
  Hypothesis Hleg : 0 < length eg.
  Hypothesis Heg : Forall2 (fun f d => forall s, bitvec n s -> evS n d s = holds F f s) (egoals1 F) eg.
  Hypothesis Hsg : Forall2 (fun f d => forall s, bitvec n s -> evS n d s = holds F f s) (fs_sgoals F) sg.
  Hypothesis Hload : rep_rules F (loaded F) et0 st0.

  Lemma stuck_dec : forall b x c, rep F b x -> valid F c -> stuck F b c \/ ~ stuck F b c.
  Proof.
    intros b x c Hrep Hv. destruct c; cbn [stuck]; try tauto. destruct Hv as (H1 & H2 & H3).
    apply (stb F Hbool) in H1. apply (enb F Hbool) in H2.
    destruct (levels_index F Hbool eg sg Hlsg Hleg fuel Hfuel (lev b) (i_L x) i s (rp_L _ _ _ Hrep) H3 H1)
      as (Y & X & K & j & _ & _ & HG & _ & HS & Hidx).
    pose proof (proj2 (stb F Hbool s) H1) as Hs.
    destruct (Nat.eq_dec j (K + 1)) as [->|Hne].
    - destruct (toward_list F Hbool Hsvars orc Horc eg sg Hlsg Hleg fuel Hfuel b x s e Hrep H1 H2 0 (nth K Y (bZero m)))
        as (_ & l & _ & _ & _ & Hin); [apply HG; lia|].
      destruct l as [|y l].
      + left. intros K' Y' HS'. destruct (sublevels_unique F _ _ _ _ _ _ HS HS') as (-> & HYY). split.
        * eapply (index_moves F _ _ _ _ s); [exact HS|exact Hs|exact Hidx|exact HS'].
        * intros z Hz. apply (Hin z). eapply good_answer_ext; [|exact Hz].
          intros u Hu. apply (HYY K u); auto.
      + right. intros H. destruct (H _ _ HS) as (_ & Hn). apply (Hn y). apply Hin. left. auto.
    - right. intros H. destruct (H _ _ HS) as (Hi & _).
      apply Hne. symmetry. eapply (index_unique F _ _ _ _ s); [exact HS|exact Hs|exact Hidx|exact HS|exact Hi].
  Qed.

  Lemma run_ok : forall cs b x, rep F b x -> Forall (valid F) cs ->
    (gets_stuck F b cs -> exec_all ne ns et0 st0 eg sg orc fuel x (map encode cs) = Crash) /\
    (~ gets_stuck F b cs -> exists x' l,
       exec_all ne ns et0 st0 eg sg orc fuel x (map encode cs) = Ok (x', l) /\
       session_ok F b cs l /\ rep F (fold_left (update F) cs b) x') /\
    (gets_stuck F b cs \/ ~ gets_stuck F b cs).
  Proof.
    induction cs as [|c cs IH]; intros b x Hrep Hv.
    - assert (Hn : ~ gets_stuck F b []).
      { intros (h & c & t & E & _). destruct h; discriminate. }
      split; [tauto|]. split; [|auto]. intros _. exists x, []. split; [reflexivity|].
      split; [constructor|exact Hrep].
    - inversion Hv; subst. cbn [map exec_all].
      destruct (exec_ok F Hbool Hgoals Hsvars orc Horc et0 st0 eg sg Hgeg Hgsg Hlsg Hleg Heg Hsg Hload fuel Hfuel
                  b x c Hrep H1) as (HC & HO). fold ne ns in HC, HO.
      destruct (stuck_dec b x c Hrep H1) as [Hs|Hs].
      + assert (Hg : gets_stuck F b (c :: cs)) by (exists [], c, cs; auto).
        split; [|split; [tauto|auto]]. intros _. rewrite HC by auto. reflexivity.
      + destruct (HO Hs) as (x' & a & Hx & Ha & Hrep'). rewrite Hx. cbn [bind fst snd].
        destruct (IH _ _ Hrep' H2) as (I1 & I2 & I3).
        assert (Hiff : gets_stuck F b (c :: cs) <-> gets_stuck F (update F b c) cs).
        { split.
          - intros (h & c' & t & E & Hst). destruct h as [|c0 h]; cbn in E; inversion E; subst.
            + exfalso. apply Hs. exact Hst.
            + exists h, c', t. split; auto.
          - intros (h & c' & t & -> & Hst). exists (c :: h), c', t. split; auto. }
        rewrite Hiff. split; [|split; [|tauto]].
        * intros Hst. rewrite (I1 Hst). reflexivity.
        * intros Hst. destruct (I2 Hst) as (x2 & l & Hl & Hok & Hr2). rewrite Hl. cbn [bind fst snd].
          exists x2, (a :: l). split; auto. split; auto. constructor; auto.
  Qed.
  Lemma start_ok : exists x, start_state ne ns et0 st0 eg sg orc fuel = Ok x /\ rep F (opening F) x.
  Proof.
    unfold start_state.
    destruct (winning_rep F Hbool Hgoals eg sg Hgeg Hgsg Hlsg Hleg Heg Hsg _ _ _ Hload fuel Hfuel)
      as (W & Hw & HG & HWs). fold ne ns in Hw.
    destruct (levels_rep F Hbool Hgoals eg sg Hgeg Hgsg Hlsg Hleg Heg Hsg _ _ _ Hload fuel Hfuel W Hw)
      as (L & Hl & HLr). fold ne ns in Hl.
    rewrite Hw. cbn [bind exec i_et i_st]. rewrite Hw. cbn [bind]. rewrite Hl. cbn [bind].
    eexists. split; [reflexivity|]. constructor; cbn; auto.
  Qed.
  End Exec.

  Lemma asked_ok : forall orc, oracle_ok m orc -> forall fuel, fuel_bound F <= fuel ->
    forall cs, Forall (valid F) cs ->
    (gets_stuck F (opening F) cs -> asked F orc fuel cs = Crash) /\
    (~ gets_stuck F (opening F) cs -> exists l, asked F orc fuel cs = Ok l /\ session_ok F (opening F) cs l).
  Proof.
    intros orc Horc fuel Hfuel cs Hv. destruct (spec_BDDs_ok F Hws Hbool) as
      (et & st & eg & sg & Hb & Hnp & Hgeg & Hgsg & _ & Hlsg & Hleg & Het & Hst & Heg & Hsg).
    assert (Hload : rep_rules F (loaded F) et st).
    { split; [intros; apply Het; auto|intros; apply Hst; auto]. }
    destruct (start_ok orc fuel Hfuel et st eg sg Hgeg Hgsg Hlsg Hleg Heg Hsg Hload) as (x & Hx & Hrep).
    destruct (run_ok orc Horc fuel Hfuel et st eg sg Hgeg Hgsg Hlsg Hleg Heg Hsg Hload cs _ _ Hrep Hv)
      as (H1 & H2 & _).
    unfold asked. rewrite Hb. cbn [bind]. rewrite num_env_eq, num_sys_eq. fold ne ns. rewrite Hx. cbn [bind].
    split.
    - intros Hs. rewrite (H1 Hs). reflexivity.
    - intros Hs. destruct (H2 Hs) as (x' & l & Hl & Hok & _). rewrite Hl. cbn [bind snd]. eauto.
  Qed.
End Run.

Lemma session_last : forall F h b c l, session_ok F b (h ++ [c]) l ->
  exists l0 a, l = l0 ++ [a] /\ length l0 = length h /\ answers F (fold_left (update F) h b) c a.
Proof.
  intros F h. induction h as [|c0 h IH]; intros b c l H; inversion H; subst.
  - inversion H5; subst. exists [], a. auto.
  - destruct (IH _ _ _ H5) as (l1 & a1 & -> & Hl & Ha). exists (a :: l1), a1. cbn. auto.
Qed.
Lemma asked_last : forall F, well_scoped F -> all_boolean F -> fs_sgoals F <> [] -> fs_svars F <> [] ->
  forall orc, oracle_ok (2 * (length (fs_evars F) + length (fs_svars F))) orc ->
  forall fuel h c l, fuel_bound F <= fuel -> Forall (valid F) h -> valid F c ->
  asked F orc fuel (h ++ [c]) = Ok l ->
  exists l0 a, l = l0 ++ [a] /\ length l0 = length h /\ answers F (book_after F h) c a.
Proof.
  intros F H1 H2 H3 H4 orc Ho fuel h c l Hf Hh Hc H.
  assert (Hv : Forall (valid F) (h ++ [c])) by (apply Forall_app; auto).
  destruct (asked_ok F H1 H2 H3 H4 orc Ho fuel Hf (h ++ [c]) Hv) as (HC & HO).
  assert (Hn : ~ gets_stuck F (opening F) (h ++ [c])) by (intros Hs; rewrite (HC Hs) in H; discriminate).
  destruct (HO Hn) as (l' & Hl & Hok). assert (l' = l) by congruence. subst l'.
  apply session_last in Hok. exact Hok.
Qed.
