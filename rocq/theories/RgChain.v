(** The whole chain of rg for specifications with integer variables: preparation, synthesis
    and compaction. *)
From Coq Require Import List ZArith Lia Bool Arith String.
From Verif Require Import Base Strs Game Bdd Support EnumProofs Ptree Form Solve FSpec Nonbool RSpec
  PtreeProofs ExpProofs SolveProofs RealProofs Automaton AutProofs Synth SynthSpec NonboolProofs EncProofs
  PipeProofs PipeVerdict NbStateProofs NbProps SynthFindings Main MainSpec MainProofs
  OpsProofs OpsProofs Reach ReachSpec ReachProofs RgIso Options Program Rg RgPrep.
Import ListNotations.
Open Scope string_scope.
Open Scope list_scope.
Open Scope Z_scope.

Definition rwinnable (F : fspec) : Prop :=
  (exists s, initial F s) /\ forall s, initial F s -> reach_wins (game_of F) (rtarget F) s.

(** a nonempty result for Boolean variables means that rg's player wins everywhere *)
Lemma rg_nonempty_wins : forall F, well_scoped F -> all_boolean F -> forall orc alloc,
  oracle_ok (2 * (List.length (fs_evars F) + List.length (fs_svars F))) orc ->
  (forall t A, ~ In (alloc t A) (ids A)) ->
  forall fuel A, rg_synthesize (spec_of F) orc alloc fuel = Ok A -> A <> [] -> rwinnable F.
Proof.
  intros F Hws Hbool orc alloc Horc Halloc fuel A H HA.
  pose proof (rg_sound F Hws Hbool orc alloc Horc Halloc fuel A H HA) as HR.
  assert (Hini : forall s, initial F s <-> In s (fs_states F) /\ rentry F s = true).
  { intros s. unfold initial, rentry. rewrite andb_true_iff. tauto. }
  split.
  - destruct A as [|x0 A0] eqn:E; [congruence|]. rewrite <- E in *.
    destruct (rs_reachable _ _ _ _ _ HR x0) as (x & Hx & He & _); [rewrite E; left; auto|].
    exists (astate x). apply Hini. split; auto. exact (rs_states _ _ _ _ _ HR x Hx).
  - intros s Hs. apply Hini in Hs. destruct Hs as [Hs He].
    destruct (rg_bdds F Hws Hbool orc alloc) as (et & st & eg & Entry & Exit & Hnp & HgEn & HgE & Hgeg & Hleg &
      Het & Hst & Heg & HEn & HEx & Heq).
    rewrite (Heq fuel) in H. destruct (good_One (List.length (fs_evars F)) (List.length (fs_svars F))) as (HgO & _).
    destruct (top_sound _ _ orc alloc Horc Halloc Entry Exit _ et st eg [] Hnp HgEn HgE HgO
      Hgeg (fun s Hs _ => One_den F s Hs) fuel A H HA) as (_ & HW).
    apply (st_bits F Hbool) in Hs.
    apply (rg_wins_agree F Hbool et st Exit eg [] Het Hst Heg HEx s Hs). apply HW; auto.
    rewrite HEn; auto.
Qed.

Section Chain.
  Variable R : rspec.
  Hypothesis HT : well_typed R.
  Hypothesis HN : NoDup (names (rs_vars R)).
  Hypothesis HB : bits_distinct (rs_vars R).
  Variable g0 : form.
  Variable gs : list form.
  Hypothesis Hgoal : rs_sgoals R = g0 :: gs.
  Let flags := ALL_INIT.
  Let vs := rs_vars R.
  Let es := rs_evars R.
  Let ss := rs_svars R.
  Let F := fspec_of R.
  Let F' := solver_spec (-1) flags R.
  Notation GF := (game_of F).
  Notation GF' := (game_of F').

  Lemma typed_sgoal : typed R [] g0.
  Proof. destruct (typedR0 R HT) as (Ty & _). apply Ty. rewrite !in_app_iff, Hgoal. right; right; right. left. auto. Qed.
  Lemma typed_egoal : forall f, In f (rs_egoals R) -> typed R [] f.
  Proof. destruct (typedR0 R HT) as (Ty & _). intros f Hf. apply Ty. rewrite !in_app_iff. tauto. Qed.
  Lemma target_ok : forall s, In s (fs_states F) -> rtarget F' (enc vs s) = rtarget F s.
  Proof.
    intros s Hs. unfold rtarget. unfold F' at 1. rewrite (F'_sgoals flags R). unfold fdefaults. cbn [rs_sgoals].
    change (fs_sgoals F) with (rs_sgoals R). rewrite Hgoal. cbn [map].
    apply (goal_ok flags R HN HB); auto. exact typed_sgoal.
  Qed.
  Lemma rini : forall G s, initial G s <-> In s (fs_states G) /\ rentry G s = true.
  Proof. intros G s. unfold initial, rentry. rewrite andb_true_iff. tauto. Qed.
  Lemma entry_F' : forall t, In t (fs_states F') -> rentry F' t = true -> exists s, t = enc vs s /\ initial F s.
  Proof.
    intros t Ht He. apply (initial_ok flags R HT HN HB); [discriminate|]. apply rini. auto.
  Qed.
  Lemma entry_ok' : forall s, In s (fs_states F) -> rentry F s = true ->
    In (enc vs s) (fs_states F') /\ rentry F' (enc vs s) = true.
  Proof.
    intros s Hs He. apply (rini F'). apply (initial_ok flags R HT HN HB); [discriminate|]. exists s. split; auto.
    apply rini. auto.
  Qed.
  Lemma goals_ok : Forall2 (fun g1 g2 => forall s, In s (g_states GF) -> g2 (enc vs s) = g1 s) (g_egoals GF) (g_egoals GF').
  Proof.
    cbn [game_of g_egoals g_states]. unfold F' at 2. rewrite (F'_egoals flags R).
    change (fs_egoals F) with (rs_egoals R). pose proof typed_egoal as HE.
    induction (rs_egoals R) as [|f l IH]; [constructor|]. cbn [map]. constructor.
    - intros s Hs. apply (goal_ok flags R HN HB); auto. apply HE. left; auto.
    - apply IH. intros; apply HE; right; auto.
  Qed.
  Lemma rwins_ok : forall s, In s (fs_states F) ->
    (reach_wins GF (rtarget F) s <-> reach_wins GF' (rtarget F') (enc vs s)).
  Proof.
    apply (iso_reach GF GF' (enc vs) (dec vs) (enc es) (dec es)).
    - intros s Hs. apply dec_enc, (state_repr R); auto.
    - intros e He. apply dec_enc, (env_repr R); auto.
    - intros s Hs. apply (enc_state flags R HT), (state_repr R); auto.
    - exact (env_ok flags R HT HN HB).
    - exact (sys_ok flags R HT HN HB).
    - exact goals_ok.
    - exact target_ok.
  Qed.
  Lemma winnable_ok : rwinnable F' <-> rwinnable F.
  Proof.
    pose proof (initial_ok flags R HT HN HB ltac:(discriminate)) as HI. fold F F' vs in HI.
    unfold rwinnable. split; intros [(s0 & H0) Hall]; split.
    - apply HI in H0. destruct H0 as (s & _ & Hs). eauto.
    - intros s Hs. apply rwins_ok; [apply Hs|]. apply Hall. apply HI. eauto.
    - exists (enc vs s0). apply HI. eauto.
    - intros t Ht. apply HI in Ht. destruct Ht as (s & -> & Hs). apply rwins_ok; [apply Hs|]. auto.
  Qed.

  Variables (orc : oracle) (alloc : nat -> aut -> nat).
  Hypothesis Horc : oracle_ok (2 * List.length (all_bits vs)) orc.
  Hypothesis Halloc : forall t A, ~ In (alloc t A) (ids A).
  Let S1 := F'_scoped flags R HT HN.
  Let S2 := F'_boolean flags R HT HN.
  Lemma rHorc' : oracle_ok (2 * (List.length (fs_evars F') + List.length (fs_svars F'))) orc.
  Proof. exact (Horc' flags R HB orc Horc). Qed.
  Notation noenv := (match rs_evars R with [] => true | _ => false end).
  Lemma noenv' : match fs_evars F' with [] => true | _ => false end = noenv.
  Proof.
    pose proof (evars' flags R) as [H1 H2]. fold F' in H1, H2.
    destruct (fs_evars F') as [|w l]; [rewrite H1 by auto; reflexivity|].
    destruct (rs_evars R); [discriminate H2; auto|reflexivity].
  Qed.

  Section Result.
  Variables (fuel : nat) (A' : aut).
  Hypothesis HA' : rg_synthesize (spec_of F') orc alloc fuel = Ok A'.
  Hypothesis Hne' : A' <> [].
  Let A := with_states (dec vs) A'.
  Lemma strat' : reach_strategy GF' (rtarget F') (rentry F') noenv A'.
  Proof. rewrite <- noenv'. exact (rg_sound F' S1 S2 orc alloc rHorc' Halloc fuel A' HA' Hne'). Qed.

  Lemma reach_dom : forall a b, reach A' a b ->
    (forall x, In x A' -> aid x = a -> exists s, astate x = enc vs s /\ In s (fs_states F)) ->
    forall y, In y A' -> aid y = b -> exists s, astate y = enc vs s /\ In s (fs_states F).
  Proof.
    intros a b H Ha. induction H as [a|a b c H IH (x & Hx & Ex & Ht)]; [exact Ha|].
    intros y Hy Ey. destruct (IH Ha x Hx Ex) as (s & Es & Hs). subst c.
    destruct (rs_safe _ _ _ _ _ strat' x y Hx Hy Ht) as (_ & K1 & K2). rewrite Es in K1, K2.
    destruct (move_ok flags R HT HN HB s (astate y) Hs) as (s' & E & H1 & _).
    - exact (rs_states _ _ _ _ _ strat' y Hy).
    - exact K1.
    - intros Hn. apply K2. rewrite <- noenv'. destruct (fs_evars F') eqn:E0; auto. unfold F' in E0. congruence.
    - exists s'. auto.
  Qed.
  Lemma rnode_dom : forall x', In x' A' -> exists s, astate x' = enc vs s /\ In s (fs_states F).
  Proof.
    intros y Hy. destruct (rs_reachable _ _ _ _ _ strat' y Hy) as (x & Hx & He & Hr).
    apply (reach_dom _ _ Hr); auto. intros z Hz Ez.
    assert (z = x); [|subst z].
    { pose proof (rs_ids _ _ _ _ _ strat') as Hnd. clear - Hnd Hx Hz Ez.
      induction A' as [|w l IH]; [destruct Hx|]. cbn [map] in Hnd. inversion Hnd; subst.
      destruct Hx as [<-|Hx], Hz as [<-|Hz]; auto.
      - exfalso. apply H1. rewrite <- Ez. apply in_map; auto.
      - exfalso. apply H1. rewrite Ez. apply in_map; auto. }
    destruct (entry_F' (astate x) (rs_states _ _ _ _ _ strat' x Hx) He) as (s & Es & Hs). exists s.
    split; auto. apply Hs.
  Qed.
  Lemma rnode_out : forall x, In x A -> exists x', In x' A' /\ x' = set_state (enc vs (astate x)) x /\
    astate x' = enc vs (astate x) /\ aid x' = aid x /\ atrans x' = atrans x /\ amode x' = amode x /\
    argrad x' = argrad x /\ ainit x' = ainit x /\ In (astate x) (fs_states F).
  Proof.
    intros x Hx. unfold A, with_states in Hx. apply in_map_iff in Hx. destruct Hx as (x' & <- & Hx').
    exists x'. destruct (rnode_dom x' Hx') as (s & E & Hs). rewrite set_state_state, set_state_set, E.
    unfold vs. rewrite dec_enc by (apply (state_repr R); auto). fold vs. rewrite <- E, set_state_id.
    destruct x'. repeat split; auto.
  Qed.
  Lemma rnode_in : forall x', In x' A' -> exists x, In x A /\ x' = set_state (enc vs (astate x)) x /\
    astate x' = enc vs (astate x) /\ aid x' = aid x /\ atrans x' = atrans x.
  Proof.
    intros x' Hx'. exists (set_state (dec vs (astate x')) x'). split; [apply in_map_iff; eauto|].
    destruct (rnode_dom x' Hx') as (s & E & Hs). rewrite set_state_state, set_state_set, E.
    unfold vs. rewrite dec_enc by (apply (state_repr R); auto). fold vs. rewrite <- E, set_state_id.
    destruct x'. repeat split; auto.
  Qed.
  Lemma rback : A' = with_states (enc vs) A.
  Proof.
    unfold A, with_states. rewrite map_map. rewrite <- (map_id A') at 1. apply map_ext_in.
    intros x Hx. rewrite set_state_state, set_state_set.
    destruct (rnode_dom x Hx) as (s & E & Hs). rewrite E.
    unfold vs. rewrite dec_enc by (apply (state_repr R); auto). fold vs. rewrite <- E. symmetry. apply set_state_id.
  Qed.
  Lemma rids_eq : ids A = ids A'.
  Proof.
    unfold ids, A, with_states. rewrite map_map. apply map_ext. intros x. destruct x; reflexivity.
  Qed.
  Lemma same_state : forall x y, In x A -> In y A -> enc vs (astate x) = enc vs (astate y) -> astate x = astate y.
  Proof.
    intros x y Hx Hy E. destruct (rnode_out x Hx) as (_ & _ & _ & _ & _ & _ & _ & _ & _ & Sx).
    destruct (rnode_out y Hy) as (_ & _ & _ & _ & _ & _ & _ & _ & _ & Sy).
    apply (repr_inj R); auto; apply (state_repr R); auto.
  Qed.
  Lemma same_node : forall x y, In x A -> In y A -> aid x = aid y -> x = y.
  Proof.
    intros x y Hx Hy E. pose proof (rs_ids _ _ _ _ _ strat') as Hnd. fold (ids A') in Hnd. rewrite <- rids_eq in Hnd.
    clear - Hnd Hx Hy E. induction A as [|w l IH]; [destruct Hx|]. cbn [ids map] in Hnd. inversion Hnd; subst.
    destruct Hx as [<-|Hx], Hy as [<-|Hy]; auto.
    - exfalso. apply H1. rewrite E. apply in_map; auto.
    - exfalso. apply H1. rewrite <- E. apply in_map; auto.
  Qed.
  Lemma reach_back : forall a b, reach A' a b -> reach A a b.
  Proof.
    intros a b H. induction H as [|a b c H IH (x & Hx & Ex & Ht)]; [constructor|].
    apply (reach_step _ _ b); auto. destruct (rnode_in x Hx) as (y & Hy & _ & _ & Ei & Et).
    exists y. split; auto. split; congruence.
  Qed.
  Lemma env_eq : forall x y, In x A -> In y (fs_envs F) -> g_env GF' (enc vs (astate x)) = enc es y -> g_env GF (astate x) = y.
  Proof.
    intros x e Hx He E. destruct (rnode_out x Hx) as (_ & _ & _ & _ & _ & _ & _ & _ & _ & Sx).
    unfold F', vs in E. rewrite (genv' flags R) in E by (apply (state_repr R); auto). fold F es in E.
    rewrite <- (dec_enc es (g_env GF (astate x))), <- (dec_enc es e); [congruence| |].
    - apply (env_repr R). auto.
    - apply (env_repr R). apply (genv_in R HN HB). auto.
  Qed.
  Lemma noenv_etr : noenv = true -> forall s, In s (fs_states F) ->
    g_etr GF s (g_env GF s) = true -> g_etr GF' (enc vs s) (g_env GF' (enc vs s)) = true.
  Proof.
    intros Hn s Hs Het.
    assert (Ees : es = []) by (unfold es; destruct (rs_evars R); [auto|discriminate Hn]).
    assert (Hl : legal_env GF' (enc vs s) (enc es (g_env GF s))).
    { apply (env_ok flags R HT HN HB _ Hs). exists (g_env GF s). split; auto. split; auto.
      apply (genv_in R HN HB). auto. }
    unfold F' at 2. unfold vs at 2. rewrite (genv' flags R) by (apply (state_repr R); auto). apply Hl.
  Qed.

  Lemma rA_strategy : reach_strategy GF (rtarget F) (rentry F) noenv A.
  Proof.
    pose proof strat' as HS. pose proof (state_repr R) as SR. fold F in SR.
    assert (Tg : forall x, In x A -> rtarget F' (enc vs (astate x)) = rtarget F (astate x)).
    { intros x Hx. apply target_ok. destruct (rnode_out x Hx) as (_ & _ & _ & _ & _ & _ & _ & _ & _ & Sx). auto. }
    constructor.
    - fold (ids A). rewrite rids_eq. apply HS.
    - intros x Hx. destruct (rnode_out x Hx) as (_ & _ & _ & _ & _ & _ & _ & _ & _ & Sx). auto.
    - intros x y Hx Hy E.
      destruct (rnode_out x Hx) as (x' & Hx' & _ & Ex & Ix & _).
      destruct (rnode_out y Hy) as (y' & Hy' & _ & Ey & Iy & _).
      apply same_node; auto. rewrite <- Ix, <- Iy. f_equal. apply (rs_unique _ _ _ _ _ HS); auto. congruence.
    - intros x a Hx Ha. destruct (rnode_out x Hx) as (x' & Hx' & _ & _ & _ & Et & _). rewrite <- Et in Ha.
      destruct (rs_closed _ _ _ _ _ HS x' a Hx' Ha) as (y' & Hy' & Ey).
      destruct (rnode_in y' Hy') as (y & Hy & _ & _ & Ea & _). exists y. split; auto. congruence.
    - intros x Hx. destruct (rnode_out x Hx) as (x' & Hx' & _ & _ & _ & _ & Em & _). rewrite <- Em.
      exact (rs_mode _ _ _ _ _ HS x' Hx').
    - intros s Hs He. destruct (entry_ok' s Hs He) as [H1 H2].
      destruct (rs_entry _ _ _ _ _ HS _ H1 H2) as (x' & Hx' & Ex).
      destruct (rnode_in x' Hx') as (x & Hx & _ & Ex2 & _). exists x. split; auto.
      destruct (rnode_out x Hx) as (_ & _ & _ & _ & _ & _ & _ & _ & _ & Sx).
      apply (repr_inj R); auto. unfold vs in *. congruence.
    - intros y Hy. destruct (rnode_out y Hy) as (y' & Hy' & _ & _ & Iy & _).
      destruct (rs_reachable _ _ _ _ _ HS y' Hy') as (x' & Hx' & He & Hr).
      destruct (rnode_in x' Hx') as (x & Hx & _ & Ex & Ix & _). exists x. split; auto. split.
      + destruct (entry_F' (astate x') (rs_states _ _ _ _ _ HS x' Hx') He) as (s & Es & Hs).
        destruct (rnode_out x Hx) as (_ & _ & _ & _ & _ & _ & _ & _ & _ & Sx).
        assert (astate x = s) as -> by (apply (repr_inj R); [auto|apply SR; apply Hs|unfold vs in *; congruence]).
        apply rini in Hs. apply Hs.
      + rewrite <- Ix, <- Iy. apply reach_back. auto.
    - intros x y Hx Hy Ht.
      destruct (rnode_out x Hx) as (x' & Hx' & _ & Ex & Ix & Tx & _ & _ & _ & Sx).
      destruct (rnode_out y Hy) as (y' & Hy' & _ & Ey & Iy & Ty & _ & _ & _ & Sy).
      assert (Ht' : In (aid y') (atrans x')) by congruence.
      destruct (rs_safe _ _ _ _ _ HS x' y' Hx' Hy' Ht') as (K0 & K1 & K2). rewrite Ex in *. rewrite Ey in *.
      rewrite Tg in K0 by auto. split; auto.
      destruct (move_ok flags R HT HN HB (astate x) (enc vs (astate y)) Sx) as (s' & E & H1 & H2 & H3).
      + rewrite <- Ey. exact (rs_states _ _ _ _ _ HS y' Hy').
      + exact K1.
      + intros Hn. apply K2. rewrite <- noenv'. destruct (fs_evars F') eqn:E0; auto. unfold F' in E0. congruence.
      + apply (repr_inj R) in E; [|apply SR; auto|apply SR; auto]. subst s'. split; auto. intros Hn.
        apply H3. intros Hc. rewrite Hc in Hn. discriminate.
    - intros x e Hx Ht He. destruct (rnode_out x Hx) as (x' & Hx' & _ & Ex & Ix & Tx & _ & _ & _ & Sx).
      assert (He' : legal_env GF' (astate x') (enc es e)).
      { rewrite Ex. apply (env_ok flags R HT HN HB (astate x) Sx). exists e. auto. }
      destruct (rs_answer _ _ _ _ _ HS x' (enc es e) Hx') as (y' & Hy' & Ht' & Eg & Hu); auto.
      { rewrite Ex, Tg; auto. }
      destruct (rnode_in y' Hy') as (y & Hy & _ & Ey & Iy & _). exists y. split; auto. split; [congruence|].
      rewrite Ey in Eg. split; [apply env_eq; auto; apply He|].
      intros z Hz Hzt Ez. destruct (rnode_out z Hz) as (z' & Hz' & _ & Ez' & Iz & _ & _ & _ & _ & Sz).
      apply same_node; auto. rewrite <- Iz, <- Iy. f_equal. apply Hu; auto; [congruence|].
      rewrite Ez'. unfold F', vs. rewrite (genv' flags R) by auto. fold F es. rewrite Ez. reflexivity.
    - intros x Hx. destruct (rnode_out x Hx) as (x' & Hx' & _ & _ & _ & Et & _). rewrite <- Et.
      exact (rs_nodup _ _ _ _ _ HS x' Hx').
    - intros p Hp Hd Hg.
      assert (Hst : forall t, In (astate (p t)) (fs_states F)).
      { intros t. destruct (rnode_out _ (proj1 (Hp t))) as (_ & _ & _ & _ & _ & _ & _ & _ & _ & Sx). auto. }
      set (p' := fun t => set_state (enc vs (astate (p t))) (p t)).
      assert (Es : forall t, astate (p' t) = enc vs (astate (p t))) by (intros t; apply set_state_state).
      destruct (rs_live _ _ _ _ _ HS p') as (t & Ht).
      + intros t. split.
        * rewrite rback. unfold with_states, p'. apply in_map_iff. exists (p t). split; auto. apply Hp.
        * unfold p'. pose proof (proj2 (Hp t)) as Ht. destruct (p t), (p (S t)). exact Ht.
      + intros Hn t. rewrite Es. apply noenv_etr; auto.
      + intros g2 H2. destruct (goal2 GF GF' (enc vs) goals_ok g2 H2) as (g1 & H1 & E). intros t.
        destruct (Hg g1 H1 t) as (t' & Ht' & Hv). exists t'. split; auto. rewrite Es, E; auto.
      + exists t. rewrite Es, Tg in Ht; auto. apply Hp.
    - intros x Hx Hn. destruct (rnode_out x Hx) as (x' & Hx' & _ & Ex & Ix & Tx & _ & _ & _ & Sx).
      destruct (rs_end _ _ _ _ _ HS x' Hx') as [H|H]; [congruence|left; rewrite Ex, Tg in H; auto|right].
      intros e He. apply (H (enc es e)). rewrite Ex. apply (env_ok flags R HT HN HB (astate x) Sx). exists e. auto.
    - intros x Hx. destruct (rnode_out x Hx) as (x' & Hx' & _ & Ex & Ix & Tx & _ & Er & _ & Sx).
      destruct (rs_zero _ _ _ _ _ HS x' Hx') as [H1 H2]. rewrite Er in *. rewrite Ex, Tg in H2; auto.
    - intros x y Hx Hy Ht Hn.
      destruct (rnode_out x Hx) as (x' & Hx' & _ & Ex & Ix & Tx & _ & Rx & _ & Sx).
      destruct (rnode_out y Hy) as (y' & Hy' & _ & Ey & Iy & Ty & _ & Ry & _ & Sy).
      rewrite <- Rx, <- Ry. apply (rs_down _ _ _ _ _ HS x' y' Hx' Hy'); [congruence|].
      intros Hc. rewrite Ex. apply noenv_etr; auto.
  Qed.
  Lemma rA_noinit : forall x, In x A -> ainit x = false.
  Proof.
    intros x Hx. destruct (rnode_out x Hx) as (x' & Hx' & _ & _ & _ & _ & _ & _ & Ei & _). rewrite <- Ei.
    exact (rg_noinit F' S1 S2 orc alloc rHorc' Halloc fuel A' HA' x' Hx').
  Qed.
  Lemma rA_winnable : rwinnable F.
  Proof. apply winnable_ok. exact (rg_nonempty_wins F' S1 S2 orc alloc rHorc' Halloc fuel A' HA' Hne'). Qed.
  Hypothesis HP : prefix_free vs.
  Hypothesis HD : int_domains vs.
  Lemma rcompact : compact_all A' (vlist (bit_decls 0 es)) (vlist (bit_decls 0 ss)) (vlist (ints vs)) =
    Ok (A, vlist es, vlist ss).
  Proof.
    rewrite rback. unfold vs. rewrite (compact_ok (rs_evars R) (rs_svars R)); auto.
    - apply runs_of; auto.
    - intros x Hx. apply (state_repr R). destruct (rnode_out x Hx) as (_ & _ & _ & _ & _ & _ & _ & _ & _ & Sx). auto.
  Qed.
  End Result.

  Hypothesis Henv : es <> [] \/ rs_etrans R = [].
  Lemma rtotal : exists B, forall fuel, (B <= fuel)%nat -> exists A',
    rg_synthesize (spec_of F') orc alloc fuel = Ok A' /\ (A' <> [] <-> rwinnable F).
  Proof.
    destruct (rg_exact F' S1 S2 orc alloc rHorc' Halloc (henv' flags R Henv)) as [B H].
    exists B. intros fuel Hf. destruct (H fuel Hf) as (A' & E & Hi). exists A'. split; auto.
    rewrite <- winnable_ok. exact Hi.
  Qed.
End Chain.
