(** The strategy returned by synthesize_reachgame_BDD, first for BDDs, then for a
    specification given to rg. Proofs only. *)
From Coq Require Import List ZArith Lia Bool Arith.
From Verif Require Import Base Fix Game GameTheory GameSound Levels Bdd BGame Support SupportProofs
  EnumProofs Ops OpsProofs SubProofs Strs Ptree Form Solve FSpec SolveProofs RealProofs
  Automaton AutProofs AutProofs2 Synth SynthSets
  SynthBdd SynthInit SynthCert SynthInv SynthProg SynthSpec
  Reach ReachSpec ReachSets ReachLevels ReachInv ReachCert.
Import ListNotations.
Open Scope nat_scope.

Section Top.
  Variables (ne ns : nat) (orc : oracle) (alloc : nat -> aut -> nat).
  Let n := ne + ns.
  Let m := 2 * (ne + ns).
  Hypothesis Horc : oracle_ok m orc.
  Hypothesis Halloc : forall t A, ~ In (alloc t A) (ids A).
  Variables (Entry Exit N et st : dt) (egs sgs : list dt).
  Hypothesis Het : no_primed_sys ne ns et.
  Notation Good := (Good ne ns).
  Notation den := (evS n).
  Notation z0 := (bZero m).
  Hypothesis HgEn : Good Entry.
  Hypothesis HgE : Good Exit.
  Hypothesis HgN : Good N.
  Hypothesis Hegs : Forall Good egs.
  Hypothesis HEN : sub ne ns Exit N.
  Let G := within (den N) (bgame ne ns et st egs sgs).
  Notation synth fuel := (synthesize_reachgame_BDD ne ns orc alloc fuel Entry Exit et st egs N).

  Lemma entry_ok : forall Ys Xs K, rlad ne ns et st Exit N egs sgs K Ys Xs ->
    sub ne ns Entry (nth K Ys z0) ->
    forall s, bitvec n s -> den Entry s = true -> rok ne ns et st N egs sgs Ys K s.
  Proof.
    intros Ys Xs K HL Hsub s Hs He. pose proof (Hsub s Hs He) as HY. split; auto.
    apply (stG ne ns et st N egs sgs). split; auto.
    apply (rY_in_N ne ns et st Exit N egs sgs HEN K Ys Xs HL K (le_n K)); auto.
  Qed.
  Lemma entry_wins : forall Ys Xs K, rlad ne ns et st Exit N egs sgs K Ys Xs ->
    forall s, rok ne ns et st N egs sgs Ys K s -> reach_wins G (den Exit) s.
  Proof.
    intros Ys Xs K HL s (Hs & HK).
    apply (levels_win G vec_eqb vec_eqb_eq (den Exit) K (rY ne ns Ys) (rX ne ns Xs)); auto.
    exact (rlad_rladder ne ns et st Exit N egs sgs HEN K Ys Xs HL).
  Qed.

  Lemma top_run : forall fuel A, synth fuel = Ok A -> A <> [] ->
    exists Ys Xs K l, rlad ne ns et st Exit N egs sgs K Ys Xs /\ sub ne ns Entry (nth K Ys z0) /\
      (forall s, In s l <-> bitvec n s /\ den Entry s = true) /\
      rinv ne ns et st Exit N egs sgs Ys Xs K l A [].
  Proof.
    intros fuel A H HA. unfold synthesize_reachgame_BDD in H.
    apply bind_ok in H. destruct H as (o & Ho & H).
    destruct o as [(Ys & Xs)|]; [|congruence].
    apply bind_ok in H. destruct H as (l & Hl & H).
    destruct (rinsert alloc (rev l) [] 1) as (A0 & t0) eqn:Ei.
    apply bind_ok in H. destruct H as (r & Hr & H). destruct r as [A1|]; [|congruence].
    injection H as ->.
    destruct (reach_levels_some ne ns et st Exit N egs sgs Het HgE HgN Hegs fuel Entry Ys Xs HgEn Ho)
      as (K & HL & Hsub).
    destruct (completions_good ne ns orc Horc _ _ _ _ HgEn Hl) as (Hnd & Hin).
    pose proof (entry_ok Ys Xs K HL Hsub) as Hok.
    assert (Hst : rinv ne ns et st Exit N egs sgs Ys Xs K l A0 (rev l)).
    { apply (start_rinv ne ns alloc Halloc et st Exit N egs sgs Ys Xs K l A0 t0); auto.
      intros s Hs. apply Hin in Hs. apply Hok; apply Hs. }
    exists Ys, Xs, K, l. split; auto. split; auto. split; auto.
    exact (run_rinv ne ns orc alloc Horc Halloc et st Exit N egs sgs Het HgN HEN Ys Xs K HL
      l fuel fuel (RS A0 (rev l) t0) A Hst Hr).
  Qed.
  Lemma top_sound : forall fuel A, synth fuel = Ok A -> A <> [] ->
    reach_strategy G (den Exit) (den Entry) (ne =? 0) A /\
    forall s, bitvec n s -> den Entry s = true -> den N s = true /\ reach_wins G (den Exit) s.
  Proof.
    intros fuel A H HA. destruct (top_run fuel A H HA) as (Ys & Xs & K & l & HL & Hsub & Hin & HI).
    split.
    - exact (rinv_strategy ne ns et st Exit N egs sgs HEN Ys Xs K HL l A HI (den Entry) Hin).
    - intros s Hs He. pose proof (entry_ok Ys Xs K HL Hsub s Hs He) as Hok.
      split; [|eapply entry_wins; eauto].
      destruct Hok as (H0 & _). apply (stG ne ns et st N egs sgs) in H0. apply H0.
  Qed.
  (** no node is ever marked as initial *)
  Lemma top_noinit : forall fuel A, synth fuel = Ok A -> forall x, In x A -> ainit x = false.
  Proof.
    intros fuel A H x Hx. destruct (top_run fuel A H) as (Ys & Xs & K & l & _ & _ & _ & (HB & _)).
    { intros ->. destruct Hx. }
    apply (b_init _ _ _ _ HB x Hx).
  Qed.

  Lemma top_total : 0 < length egs ->
    (0 < ne \/ forall s, bitvec n s -> g_etr G s [] = true) ->
    exists B, forall fuel, B <= fuel -> exists A, synth fuel = Ok A /\
      (A <> [] <-> (exists s, bitvec n s /\ den Entry s = true) /\
         forall s, bitvec n s -> den Entry s = true -> den N s = true /\ reach_wins G (den Exit) s).
  Proof.
    intros Hpos Henv. exists (S (length (all_vecs n)) + 2 ^ n + 2 ^ n + 2 ^ ne). intros fuel Hf.
    destruct (reach_levels_ok ne ns et st Exit N egs sgs Het HgE HgN Hegs fuel Entry)
      as (Ys & Xs & K & HL & Hc); auto; [fold n; lia|].
    unfold synthesize_reachgame_BDD. destruct Hc as [(Hlv & Hsub)|(Hlv & Hnsub & row & Hrow & Hcl)];
      rewrite Hlv; cbn [bind].
    - destruct (completions_of_total ne ns orc Horc fuel 0 Entry n) as (l & Hl);
        [apply HgEn|unfold n; lia|lia|].
      fold n in Hl. fold n. rewrite Hl. cbn [bind].
      destruct (completions_good ne ns orc Horc _ _ _ _ HgEn Hl) as (Hnd & Hin).
      pose proof (entry_ok Ys Xs K HL Hsub) as Hok.
      destruct (rinsert alloc (rev l) [] 1) as (A0 & t0) eqn:Ei.
      assert (Hst : rinv ne ns et st Exit N egs sgs Ys Xs K l A0 (rev l)).
      { apply (start_rinv ne ns alloc Halloc et st Exit N egs sgs Ys Xs K l A0 t0); auto.
        intros s Hs. apply Hin in Hs. apply Hok; apply Hs. }
      destruct (run_total ne ns orc alloc Horc Halloc et st Exit N egs sgs Het HgN HEN Ys Xs K HL
        Henv l fuel fuel (RS A0 (rev l) t0) Hst) as (A & HA).
      { lia. }
      { cbn [r_str r_stk]. fold n. rewrite rev_length.
        assert (Hl2 : length l <= 2 ^ n).
        { apply NoDup_bits_length; auto. apply Forall_forall. intros s Hs. apply Hin in Hs. apply Hs. }
        lia. }
      fold m. fold m in HA. unfold n, m in HA |- *. rewrite HA. cbn [bind].
      exists A. split; auto.
      pose proof (run_rinv ne ns orc alloc Horc Halloc et st Exit N egs sgs Het HgN HEN Ys Xs K HL
        l fuel fuel (RS A0 (rev l) t0) A Hst HA) as (HB & _).
      split.
      + intros HA0. split.
        * destruct A as [|x A]; [congruence|]. destruct (b_reach _ _ _ _ HB x) as (y & _ & Hy & _); [left; auto|].
          apply Hin in Hy. eauto.
        * intros s Hs He. specialize (Hok s Hs He). split; [|eapply entry_wins; eauto].
          destruct Hok as (H0 & _). apply (stG ne ns et st N egs sgs) in H0. apply H0.
      + intros ((s & Hs & He) & _) ->.
        destruct (b_cover _ _ _ _ HB s) as (x & [] & _). apply Hin. auto.
    - exists []. split; auto. split; [congruence|]. intros (_ & Hall). exfalso. apply Hnsub.
      intros s Hs He. destruct (Hall s Hs He) as (HN & Hw).
      apply (won_in_M G vec_eqb vec_eqb_eq vec_eqb vec_eqb_eq (den Exit) (rY ne ns Ys K)).
      + exact (closed_final ne ns et st Exit N egs sgs HEN K Ys Xs row HL Hrow Hcl).
      + simpl. rewrite map_length. auto.
      + apply (stG ne ns et st N egs sgs). auto.
      + exact Hw.
  Qed.
End Top.

(** ** games that agree on their states *)
Section RExt.
  Context {E : Type}.
  Variables G G' : game vec E.
  Hypothesis Hst : g_states G' = g_states G.
  Hypothesis Hen : g_envs G' = g_envs G.
  Hypothesis Hev : forall s, In s (g_states G) -> g_env G' s = g_env G s.
  Hypothesis Het : forall s e, In s (g_states G) -> In e (g_envs G) -> g_etr G' s e = g_etr G s e.
  Hypothesis Hsr : forall s s', In s (g_states G) -> In s' (g_states G) ->
    g_str G' s s' = g_str G s s'.
  Hypothesis Hio : forall p, (forall t : nat, In (p t) (g_states G)) ->
    (forall g, In g (g_egoals G') -> infinitely_often g p) ->
    forall g, In g (g_egoals G) -> infinitely_often g p.
  Variables tg tg' : vec -> bool.
  Hypothesis Htg : forall s, In s (g_states G) -> tg' s = tg s.

  Lemma reach_wins_ext : forall s0, In s0 (g_states G) -> reach_wins G tg s0 -> reach_wins G' tg' s0.
  Proof.
    intros s0 Hs0 (sg & Hl & Hp). exists sg.
    assert (Hh : forall h, rhist G' tg' sg s0 h -> rhist G tg sg s0 h /\
              forall s h', h = s :: h' -> In s (g_states G)).
    { intros h Hh. induction Hh as [|s h e Hh [IH1 IH2] Ht He].
      - split; [constructor|]. intros s h' Heq. inversion Heq; subst; auto.
      - specialize (IH2 s h eq_refl). apply (legal_env_ext G G' Hen Het) in He; auto.
        rewrite Htg in Ht by auto. pose proof (Hl s h e IH1 Ht He) as HL.
        split; [constructor; auto|]. intros s1 h1 Heq. inversion Heq; subst. apply HL. }
    split.
    - intros s h e Hhist Ht He. destruct (Hh _ Hhist) as [H1 H2]. specialize (H2 s h eq_refl).
      apply (legal_sys_ext G G' Hst Hev Hsr); auto. rewrite Htg in Ht by auto. apply Hl; auto.
      apply (legal_env_ext G G' Hen Het); auto.
    - intros p (H0 & Hin & Hpl) Hg. assert (Hin' : forall t, In (p t) (g_states G)).
      { intros t. rewrite <- Hst. auto. }
      destruct (Hp p) as (t & Ht).
      + split; auto. split; auto. intros t Hno. destruct (Hpl t) as (e & He & Heq).
        * intros u Hu. rewrite Htg; auto.
        * exists e. split; auto. apply (legal_env_ext G G' Hen Het); auto.
      + apply Hio; auto.
      + exists t. rewrite Htg; auto.
  Qed.

  Variables en en' : vec -> bool.
  Hypothesis Hent : forall s, In s (g_states G) -> en' s = en s.
  Hypothesis Hge : forall s, In s (g_states G) -> In (g_env G s) (g_envs G).
  Lemma reach_strategy_ext : forall noenv A, reach_strategy G tg en noenv A ->
    reach_strategy G' tg' en' noenv A.
  Proof.
    intros noenv A H. pose proof (rs_states _ _ _ _ _ H) as Hs.
    constructor.
    - apply H.
    - intros x Hx. rewrite Hst. auto.
    - apply H.
    - apply H.
    - apply H.
    - intros s Hi He. rewrite Hst in Hi. rewrite Hent in He by auto. apply (rs_entry _ _ _ _ _ H); auto.
    - intros y Hy. destruct (rs_reachable _ _ _ _ _ H y Hy) as (x & Hx & He & Hr). exists x.
      split; auto. split; auto. rewrite Hent; auto.
    - intros x y Hx Hy Ht. destruct (rs_safe _ _ _ _ _ H x y Hx Hy Ht) as (H1 & H2 & H3).
      rewrite Htg, Hsr, Hev by auto. split; auto. split; auto. intros Hn.
      apply (legal_env_ext G G' Hen Het); auto.
    - intros x e Hx Ht He. rewrite Htg in Ht by auto. apply (legal_env_ext G G' Hen Het) in He; auto.
      destruct (rs_answer _ _ _ _ _ H x e Hx Ht He) as (y & Hy & Hyt & Hye & Hu).
      exists y. split; auto. split; auto. split; [rewrite Hev; auto|].
      intros z Hz Hzt Hze. rewrite Hev in Hze by auto. auto.
    - apply H.
    - intros p Hp Hne Hg.
      assert (Hin : forall t, In (astate (p t)) (g_states G)) by (intros t; apply Hs; apply Hp).
      destruct (rs_live _ _ _ _ _ H p Hp) as (t & Ht).
      + intros Hn t. specialize (Hne Hn t). rewrite Hev in Hne by auto. rewrite Het in Hne; auto.
      + apply Hio; auto.
      + exists t. rewrite Htg; auto.
    - intros x Hx Hn. rewrite Htg by auto. destruct (rs_end _ _ _ _ _ H x Hx Hn) as [|Hx']; auto.
      right. intros e He. apply (Hx' e). apply (legal_env_ext G G' Hen Het); auto.
    - intros x Hx. rewrite Htg by auto. apply (rs_zero _ _ _ _ _ H x Hx).
    - intros x y Hx Hy Ht Hne. apply (rs_down _ _ _ _ _ H x y Hx Hy Ht). intros Hn.
      specialize (Hne Hn). rewrite Hev in Hne by auto. rewrite Het in Hne; auto.
  Qed.
End RExt.

(** ** rg on a specification with Boolean variables *)
(** the states rg must reach: those of the system goal (rg refuses a specification with
    more than one); the states it starts from *)
Definition rtarget (F : fspec) (s : vec) : bool :=
  match fs_sgoals F with [] => false | g :: _ => holds F g s end.
Definition rentry (F : fspec) (s : vec) : bool :=
  holds_opt F (fs_einit F) s && holds_opt F (fs_sinit F) s.
Section RG.
  Variable F : fspec.
  Hypothesis Hws : well_scoped F.
  Hypothesis Hbool : all_boolean F.
  Let ne := length (fs_evars F).
  Let ns := length (fs_svars F).
  Let n := ne + ns.
  Let m := 2 * (ne + ns).
  Variables (orc : oracle) (alloc : nat -> aut -> nat).
  Hypothesis Horc : oracle_ok m orc.
  Hypothesis Halloc : forall t A, ~ In (alloc t A) (ids A).
  Notation sp := (spec_of F).
  Notation GF := (game_of F).
  Notation den := (evS n).

  Lemma rg_bdds : exists et st eg Entry Exit,
    no_primed_sys ne ns et /\ Good ne ns Entry /\ Good ne ns Exit /\ Forall (Good ne ns) eg /\
    0 < length eg /\
    (forall s e w, bitvec n s -> bitvec ne e -> bitvec ns w ->
       ev et (s ++ e ++ w) = g_etr GF s e) /\
    (forall s s', bitvec n s -> bitvec n s' -> ev st (s ++ s') = g_str GF s s') /\
    Forall2 (fun f d => forall s, bitvec n s -> den d s = holds F f s) (egoals1 F) eg /\
    (forall s, bitvec n s -> den Entry s = rentry F s) /\
    (forall s, bitvec n s -> den Exit s = rtarget F s) /\
    forall fuel, rg_synthesize sp orc alloc fuel =
      synthesize_reachgame_BDD ne ns orc alloc fuel Entry Exit et st eg (bOne m).
  Proof.
    destruct (spec_BDDs_ok F Hws Hbool) as
      (et & st & eg & sg & Hb & Hnp & Hgeg & Hgsg & _ & Hlsg & Hleg & Het & Hst & Heg & Hsg).
    destruct (init_BDD_ok F (fs_einit F)) as (ei & Hd & Hg & He); [apply Hbool|apply Hws|].
    destruct (init_BDD_ok F (fs_sinit F)) as (si & Hd' & Hg' & He'); [apply Hbool|apply Hws|].
    exists et, st, eg, (bAnd m ei si), (match sg with [] => bZero m | g :: _ => g end).
    split; auto. destruct (good_And ne ns ei si Hg Hg') as (HgA & HeA).
    split; auto. destruct (good_Zero ne ns) as (HgZ & HeZ).
    split. { destruct sg; auto. inversion Hgsg; auto. }
    split; auto. split; auto. split; auto. split; auto. split; auto.
    split. { intros s Hs. change (OpsProofs.den ne ns) with den in HeA. unfold rentry.
      fold m in HeA. rewrite HeA by auto. rewrite He, He' by auto. auto. }
    split. { intros s Hs. unfold rtarget. change (OpsProofs.den ne ns) with den in HeZ. fold m in HeZ.
      destruct Hsg as [|f d fs ds Hfd Hsg]; auto. }
    intros fuel. unfold rg_synthesize.
    change (env_init sp) with (opt_tree (fs_einit F)). change (sys_init sp) with (opt_tree (fs_sinit F)).
    rewrite Hd. cbn [bind]. rewrite Hd'. cbn [bind]. rewrite Hb. cbn [bind].
    rewrite num_env_eq, num_sys_eq. reflexivity.
  Qed.

  Section Bdds.
  Variables (et st Entry Exit : dt) (eg sg : list dt).
  Hypothesis Hete : forall s e w, bitvec n s -> bitvec ne e -> bitvec ns w ->
       ev et (s ++ e ++ w) = g_etr GF s e.
  Hypothesis Hste : forall s s', bitvec n s -> bitvec n s' -> ev st (s ++ s') = g_str GF s s'.
  Hypothesis Hege : Forall2 (fun f d => forall s, bitvec n s -> den d s = holds F f s) (egoals1 F) eg.
  Let G := within (den (bOne m)) (bgame ne ns et st eg sg).
  Lemma gst : g_states GF = g_states G.
  Proof.
    change (g_states GF) with (fs_states F). rewrite (states_eq F Hbool). simpl. fold ne ns n.
    destruct (good_One ne ns) as (_ & H1). symmetry.
    change (OpsProofs.den ne ns) with den in H1. fold m in H1.
    assert (Hall : forall l, (forall s, In s l -> den (bOne m) s = true) -> filter (den (bOne m)) l = l).
    { clear. induction l as [|a l IH]; intros H; simpl; auto. rewrite H by (left; auto).
      f_equal. apply IH. intros s Hs. apply H. right. auto. }
    apply Hall. intros s Hs. apply H1. apply all_vecs_spec. auto.
  Qed.
  Lemma gst_bits : forall s, In s (g_states G) <-> bitvec n s.
  Proof. intros s. rewrite <- gst. apply (st_bits F Hbool). Qed.
  Lemma gen : g_envs GF = g_envs G.
  Proof. change (g_envs GF) with (fs_envs F). rewrite (envs_eq F Hbool). reflexivity. Qed.
  Lemma get : forall s e, In s (g_states G) -> In e (g_envs G) -> g_etr GF s e = g_etr G s e.
  Proof.
    intros s e Hs He. apply gst_bits in Hs. simpl in He. apply all_vecs_spec in He. simpl g_etr at 2.
    symmetry. apply Hete; auto using bitvec_zeros.
  Qed.
  Lemma gsr : forall s s', In s (g_states G) -> In s' (g_states G) -> g_str GF s s' = g_str G s s'.
  Proof.
    intros s s' Hs Hs'. apply gst_bits in Hs. apply gst_bits in Hs'. symmetry. apply Hste; auto.
  Qed.
  Lemma gge : forall s, In s (g_states G) -> In (g_env G s) (g_envs G).
  Proof.
    intros s Hs. apply gst_bits in Hs. simpl. apply all_vecs_spec. apply (bitvec_firstn ne ns); auto.
  Qed.
  Lemma gio : forall p : nat -> vec, (forall t, In (p t) (g_states G)) ->
    ((forall g, In g (g_egoals GF) -> infinitely_often g p) <->
     (forall g, In g (g_egoals G) -> infinitely_often g p)).
  Proof.
    intros p Hp. assert (Hpb : forall t, bitvec n (p t)) by (intros t; apply gst_bits; auto).
    assert (H1 : (forall g, In g (g_egoals GF) -> infinitely_often g p) <->
                 (forall f, In f (egoals1 F) -> infinitely_often (holds F f) p)).
    { simpl. unfold egoals1. destruct (fs_egoals F) as [|f l].
      - split; [|intros _ g []]. intros _ f [<-|[]] t. exists t. split; auto.
      - split; intros H g Hg.
        + apply H. apply (in_map (holds F)). auto.
        + apply in_map_iff in Hg. destruct Hg as (f' & <- & Hf'). auto. }
    rewrite H1. simpl. clear H1.
    assert (Hx : forall f d, (forall s, bitvec n s -> den d s = holds F f s) ->
      (infinitely_often (holds F f) p <-> infinitely_often (den d) p)).
    { intros f d Hfd. split; intros H t; destruct (H t) as (t' & Ht & Hh); exists t'; split; auto.
      - rewrite Hfd; auto.
      - rewrite <- Hfd; auto. }
    clear - Hege Hx. induction Hege as [|f d fs ds Hfd HF IH]; simpl.
    - split; intros _ g [].
    - split; intros H g [<-|Hg].
      + apply (Hx f d Hfd). apply H. left. auto.
      + apply (proj1 (IH HF)); [|auto]. intros f' Hf'. apply H. right. auto.
      + apply (Hx f d Hfd). apply H. left. auto.
      + apply (proj2 (IH HF)); [|auto]. intros f' Hf'. apply H. right. auto.
  Qed.
  Hypothesis HEx : forall s, bitvec n s -> den Exit s = rtarget F s.
  Lemma rg_wins_agree : forall s, bitvec n s ->
    (reach_wins G (den Exit) s <-> reach_wins GF (rtarget F) s).
  Proof.
    intros s Hs. apply gst_bits in Hs. split; apply reach_wins_ext; auto.
    - apply gst.
    - apply gen.
    - apply get.
    - apply gsr.
    - intros p Hp. apply gio. auto.
    - intros u Hu. symmetry. apply HEx. apply gst_bits. auto.
    - symmetry. apply gst.
    - symmetry. apply gen.
    - rewrite gst, gen. intros u e Hu He. symmetry. apply get; auto.
    - rewrite gst. intros u u' Hu Hu'. symmetry. apply gsr; auto.
    - rewrite gst. intros p Hp. apply gio. auto.
    - rewrite gst. intros u Hu. apply HEx. apply gst_bits. auto.
    - rewrite gst. auto.
  Qed.
  End Bdds.
  Lemma no_env_eqb : (ne =? 0) = match fs_evars F with [] => true | _ => false end.
  Proof. unfold ne. destruct (fs_evars F); auto. Qed.
  Lemma One_den : forall s, bitvec n s -> den (bOne m) s = true.
  Proof.
    intros s Hs. destruct (good_One ne ns) as (_ & H1). apply H1. auto.
  Qed.

  Lemma rg_sound : forall fuel A, rg_synthesize sp orc alloc fuel = Ok A -> A <> [] ->
    reach_strategy GF (rtarget F) (rentry F) (match fs_evars F with [] => true | _ => false end) A.
  Proof.
    intros fuel A H HA.
    destruct rg_bdds as (et & st & eg & Entry & Exit & Hnp & HgEn & HgE & Hgeg & Hleg &
      Het & Hst & Heg & HEn & HEx & Heq).
    rewrite (Heq fuel) in H. destruct (good_One ne ns) as (HgO & _).
    destruct (top_sound ne ns orc alloc Horc Halloc Entry Exit (bOne m) et st eg [] Hnp HgEn HgE HgO
      Hgeg (fun s Hs _ => One_den s Hs) fuel A H HA) as (HS & _).
    rewrite no_env_eqb in HS. refine (reach_strategy_ext _ _ _ _ _ _ _ _ _ _ _ _ _ _ _ _ _ HS).
    - eapply gst; eauto.
    - apply gen.
    - auto.
    - eapply get; eauto.
    - eapply gsr; eauto.
    - intros p Hp. apply (gio et st eg [] Heg p Hp).
    - intros s Hs. symmetry. apply HEx. eapply gst_bits; eauto.
    - intros s Hs. symmetry. apply HEn. eapply gst_bits; eauto.
    - intros s Hs. eapply gge; eauto.
  Qed.
  Lemma rg_noinit : forall fuel A, rg_synthesize sp orc alloc fuel = Ok A ->
    forall x, In x A -> ainit x = false.
  Proof.
    intros fuel A H.
    destruct rg_bdds as (et & st & eg & Entry & Exit & Hnp & HgEn & HgE & Hgeg & Hleg &
      Het & Hst & Heg & HEn & HEx & Heq).
    rewrite (Heq fuel) in H. destruct (good_One ne ns) as (HgO & _).
    exact (top_noinit ne ns orc alloc Horc Halloc Entry Exit (bOne m) et st eg [] Hnp HgEn HgE HgO
      Hgeg (fun s Hs _ => One_den s Hs) fuel A H).
  Qed.
  Lemma rg_exact : (fs_evars F <> [] \/ forall s, In s (fs_states F) -> g_etr GF s [] = true) ->
    exists B, forall fuel, B <= fuel -> exists A, rg_synthesize sp orc alloc fuel = Ok A /\
      (A <> [] <-> (exists s, initial F s) /\ forall s, initial F s -> reach_wins GF (rtarget F) s).
  Proof.
    intros Henv.
    destruct rg_bdds as (et & st & eg & Entry & Exit & Hnp & HgEn & HgE & Hgeg & Hleg &
      Het & Hst & Heg & HEn & HEx & Heq).
    destruct (good_One ne ns) as (HgO & _).
    destruct (top_total ne ns orc alloc Horc Halloc Entry Exit (bOne m) et st eg [] Hnp HgEn HgE HgO
      Hgeg (fun s Hs _ => One_den s Hs) Hleg) as (B & HB).
    - destruct Henv as [Hx|Hx]; [left; unfold ne; destruct (fs_evars F); [congruence|simpl; lia]|].
      destruct (Nat.eq_dec ne 0) as [Ez|]; [right|left; lia].
      intros s Hs. rewrite <- (get et st eg [] Het).
      + apply Hx. apply (st_bits F Hbool). auto.
      + eapply gst_bits; eauto.
      + simpl. rewrite Ez. left. auto.
    - exists B. intros fuel Hf. destruct (HB fuel Hf) as (A & HA & Hiff). exists A.
      rewrite (Heq fuel). split; auto. rewrite Hiff.
      assert (Hini : forall s, initial F s <-> bitvec n s /\ den Entry s = true).
      { intros s. unfold initial. rewrite (st_bits F Hbool s). fold ne ns n. split.
        - intros (H1 & H2 & H3). split; auto. rewrite HEn by auto. unfold rentry. rewrite H2, H3. auto.
        - intros (H1 & H2). rewrite HEn in H2 by auto. apply andb_true_iff in H2. tauto. }
      split; intros ((s0 & H0) & Hall); (split; [exists s0; apply Hini; auto|]).
      + intros s Hs. apply Hini in Hs. destruct Hs as (Hs & He).
        apply (rg_wins_agree et st Exit eg [] Het Hst Heg HEx s Hs). apply Hall; auto.
      + intros s Hs He. split; [apply One_den; auto|].
        apply (rg_wins_agree et st Exit eg [] Het Hst Heg HEx s Hs). apply Hall. apply Hini. auto.
  Qed.
End RG.

(** ** the wrapper taking arrays of states *)
Section Lists.
  Variables (ne ns : nat).
  Let n := ne + ns.
  Let m := 2 * (ne + ns).
  Definition among (l : list vec) (s : vec) : bool := existsb (vec_eqb s) l.
  Lemma among_In : forall l s, among l s = true <-> In s l.
  Proof.
    intros l s. unfold among. rewrite existsb_exists. split.
    - intros (x & Hx & H). apply vec_eqb_eq in H. subst. auto.
    - intros H. exists s. split; auto. apply vec_eqb_eq. auto.
  Qed.
  Lemma state_wf : forall s i v, wf m v -> wf m (state_to_BDD_loop m s i v).
  Proof. induction s as [|x s IH]; intros i v Hv; simpl; auto. apply IH. apply wf_mk. Qed.
  Lemma state_good : forall s, bitvec n s -> Good ne ns (state_to_BDD m s 0) /\
    forall u, bitvec n u -> evS n (state_to_BDD m s 0) u = vec_eqb u s.
  Proof.
    intros s Hs. pose proof Hs as (Hl & Hb).
    assert (Hspec : forall u p, bitvec n u -> bitvec n p ->
      ev (state_to_BDD m s 0) (u ++ p) = vec_eqb u s).
    { intros u p Hu Hp. apply eq_true_iff_eq. rewrite vec_eqb_eq.
      rewrite state_to_BDD_spec; [|apply (bm ne ns); auto|rewrite Hl; unfold m, n; lia|auto].
      unfold slice. simpl. rewrite Hl. rewrite firstn_len by apply Hu. tauto. }
    split; [split|].
    - apply state_wf. apply wf_mk.
    - intros u p q Hu Hp Hq. rewrite !Hspec; auto.
    - intros u Hu. unfold evS. apply Hspec; auto. apply bitvec_zeros.
  Qed.
  Lemma states_good : forall l, Forall (bitvec n) l -> Good ne ns (states_BDD ne ns l) /\
    forall u, bitvec n u -> evS n (states_BDD ne ns l) u = among l u.
  Proof.
    intros l Hl. unfold states_BDD. fold m.
    assert (H : forall l acc, Forall (bitvec n) l -> Good ne ns acc ->
      let d := fold_left (fun acc s => bOr m acc (state_to_BDD m s 0)) l acc in
      Good ne ns d /\ forall u, bitvec n u -> evS n d u = evS n acc u || among l u).
    { clear. induction l as [|s l IH]; intros acc Hl Hacc; cbn zeta.
      - split; auto. intros u Hu. simpl. rewrite orb_false_r. auto.
      - inversion Hl as [|? ? Hs Hl']; subst. destruct (state_good s Hs) as (H1 & H2).
        destruct (good_Or ne ns acc _ Hacc H1) as (H3 & H4).
        destruct (IH _ Hl' H3) as (H5 & H6). split; auto. intros u Hu.
        simpl. cbn zeta in H6. fold m in H6, H4. rewrite H6 by auto.
        change (OpsProofs.den ne ns) with (evS n) in H4. rewrite H4 by auto. rewrite H2 by auto.
        rewrite orb_assoc. auto. }
    destruct (good_Zero ne ns) as (HZ & HZ'). destruct (H l (bZero m) Hl HZ) as (H1 & H2).
    split; auto. intros u Hu. rewrite H2 by auto.
    change (OpsProofs.den ne ns) with (evS n) in HZ'. fold m in HZ'. rewrite HZ' by auto. auto.
  Qed.

  Variables (orc : oracle) (alloc : nat -> aut -> nat).
  Hypothesis Horc : oracle_ok m orc.
  Hypothesis Halloc : forall t A, ~ In (alloc t A) (ids A).
  Variables (Entry Exit : list vec) (N et st : dt) (egs : list dt).
  Hypothesis Het : no_primed_sys ne ns et.
  Hypothesis HgN : Good ne ns N.
  Hypothesis Hegs : Forall (Good ne ns) egs.
  Hypothesis Hen : Forall (bitvec n) Entry.
  Hypothesis Hex : Forall (bitvec n) Exit.
  Hypothesis HEN : forall s, In s Exit -> evS n N s = true.
  Let G := within (evS n N) (bgame ne ns et st egs []).
  Lemma lsub : sub ne ns (states_BDD ne ns Exit) N.
  Proof.
    intros s Hs H. apply HEN. apply among_In.
    rewrite <- (proj2 (states_good Exit Hex) s Hs). auto.
  Qed.
  Lemma lG_bits : forall s, In s (g_states G) -> bitvec n s.
  Proof. intros s Hs. apply (stG ne ns et st N egs []) in Hs. apply Hs. Qed.
  Lemma lwins : forall s, bitvec n s -> evS n N s = true ->
    (reach_wins G (evS n (states_BDD ne ns Exit)) s <-> reach_wins G (among Exit) s).
  Proof.
    intros s Hs HN. assert (Hin : In s (g_states G)) by (apply (stG ne ns et st N egs []); auto).
    split; apply reach_wins_ext; auto.
    - intros u Hu. symmetry. apply (states_good Exit Hex). apply lG_bits; auto.
    - intros u Hu. apply (states_good Exit Hex). apply lG_bits; auto.
  Qed.
  Lemma list_sound : forall fuel A,
    synthesize_reachgame ne ns orc alloc fuel Entry Exit et st egs N = Ok A -> A <> [] ->
    reach_strategy G (among Exit) (among Entry) (ne =? 0) A /\
    forall s, In s Entry -> evS n N s = true /\ reach_wins G (among Exit) s.
  Proof.
    intros fuel A H HA. unfold synthesize_reachgame in H.
    destruct (states_good Entry Hen) as (H1 & H2). destruct (states_good Exit Hex) as (H3 & H4).
    destruct (top_sound ne ns orc alloc Horc Halloc _ _ N et st egs [] Het H1 H3 HgN Hegs lsub
      fuel A H HA) as (HS & Hw).
    split.
    - refine (reach_strategy_ext G G eq_refl eq_refl _ _ _ _ _ _ _ _ _ _ _ _ _ HS); auto.
      + intros s Hs. symmetry. apply H4. apply lG_bits; auto.
      + intros s Hs. symmetry. apply H2. apply lG_bits; auto.
      + intros s Hs. simpl. apply all_vecs_spec. apply (bitvec_firstn ne ns). apply lG_bits; auto.
    - intros s Hs. assert (Hb : bitvec n s) by (rewrite Forall_forall in Hen; auto).
      destruct (Hw s Hb) as (HN & Hr).
      + fold n. rewrite H2 by auto. apply among_In. auto.
      + split; auto. apply (lwins s Hb HN). auto.
  Qed.
  Lemma list_exact : egs <> [] ->
    (0 < ne \/ forall s, bitvec n s -> g_etr G s [] = true) ->
    exists B, forall fuel, B <= fuel -> exists A,
      synthesize_reachgame ne ns orc alloc fuel Entry Exit et st egs N = Ok A /\
      (A <> [] <-> Entry <> [] /\
         forall s, In s Entry -> evS n N s = true /\ reach_wins G (among Exit) s).
  Proof.
    intros Hne Henv. unfold synthesize_reachgame.
    destruct (states_good Entry Hen) as (H1 & H2). destruct (states_good Exit Hex) as (H3 & H4).
    destruct (top_total ne ns orc alloc Horc Halloc _ _ N et st egs [] Het H1 H3 HgN Hegs lsub)
      as (B & HB); auto.
    { destruct egs; [congruence|simpl; lia]. }
    exists B. intros fuel Hf. destruct (HB fuel Hf) as (A & HA & Hiff). exists A. split; auto.
    rewrite Hiff. rewrite Forall_forall in Hen. fold n. split.
    - intros ((s & Hs & He) & Hall). split.
      + rewrite H2 in He by auto. apply among_In in He. intros ->. destruct He.
      + intros u Hu. destruct (Hall u (Hen u Hu)) as (HN & Hr).
        * rewrite H2 by auto. apply among_In. auto.
        * split; auto. apply lwins; auto.
    - intros (Hn & Hall). split.
      + destruct Entry as [|s l]; [congruence|]. exists s.
        assert (Hb : bitvec n s) by (apply Hen; left; auto). split; auto.
        rewrite H2 by auto. apply among_In. left. auto.
      + intros u Hu He. rewrite H2 in He by auto. apply among_In in He.
        destruct (Hall u He) as (HN & Hr). split; auto. apply lwins; auto.
  Qed.
End Lists.
