(** The strategy returned by synthesize, in terms of the specification. *)
From Coq Require Import List ZArith Lia Bool Arith.
From Verif Require Import Base Fix Game GameTheory GameComplete GameSound Levels Bdd BGame Support SupportProofs
  EnumProofs Ops OpsProofs SubProofs LevelProofs Strs Ptree Form Solve FSpec SolveProofs RealProofs
  Automaton AutProofs AutProofs2 Synth SynthSets SynthBdd SynthInv SynthInit SynthCert SynthProg.
Import ListNotations.
Open Scope nat_scope.

Lemma Forall2_nth' : forall P Q (R : P -> Q -> Prop) l l' i d d', Forall2 R l l' -> i < length l ->
  R (nth i l d) (nth i l' d').
Proof.
  intros P Q R l l' i d d' H. revert i. induction H as [|a b l l' Hab H IH]; intros i Hi; simpl in Hi; [lia|].
  destruct i as [|i]; auto. simpl. apply IH. lia.
Qed.
Lemma Forall2_len : forall P Q (R : P -> Q -> Prop) l l', Forall2 R l l' -> length l = length l'.
Proof. intros P Q R l l' H. induction H; simpl; auto. Qed.

(** what is assumed of CUDD's cube generator and of malloc: the cubes of a BDD are
    enumerated, in any order and any decomposition into disjoint cubes, and a new
    node gets an address that is not in use *)
Definition tools_ok (F : fspec) (orc : oracle) (alloc : nat -> aut -> nat) : Prop :=
  oracle_ok (2 * (length (fs_evars F) + length (fs_svars F))) orc /\
  forall t A, ~ In (alloc t A) (ids A).
Lemma tools_exist : forall F, tools_ok F robdd_oracle alloc_max.
Proof.
  intros F. split; [apply robdd_oracle_ok|]. intros t A H. unfold alloc_max, ids in H.
  pose proof (list_max_le (map aid A) (list_max (map aid A))) as (H1 & _).
  specialize (H1 (le_n _)). rewrite Forall_forall in H1. specialize (H1 _ H). lia.
Qed.

Section SynthSpec.
  Variable F : fspec.
  Hypothesis Hws : well_scoped F.
  Hypothesis Hbool : all_boolean F.
  Hypothesis Hgoals : fs_sgoals F <> [].
  Let ne := length (fs_evars F).
  Let ns := length (fs_svars F).
  Let n := ne + ns.
  Let m := 2 * (ne + ns).
  Let k := length (fs_sgoals F).
  Variables (orc : oracle) (alloc : nat -> aut -> nat).
  Hypothesis Horc : oracle_ok m orc.
  Hypothesis Halloc : forall t A, ~ In (alloc t A) (ids A).
  Notation sp := (spec_of F).
  Notation GF := (game_of F).
  (** system goal number [i] *)
  Definition sgoal (i : nat) (s : vec) : bool := holds F (nth i (fs_sgoals F) FTrue) s.

  Lemma k_pos : 0 < k.
  Proof. unfold k. destruct (fs_sgoals F); [congruence|simpl; lia]. Qed.
  Lemma ne_pos : fs_evars F <> [] -> 0 < ne.
  Proof. unfold ne. clear. destruct (fs_evars F); [congruence|simpl; lia]. Qed.
  Lemma ne_zero : ne = 0 -> fs_evars F = [].
  Proof. apply length_zero_iff_nil. Qed.
  Lemma st_bits : forall s, In s (fs_states F) <-> bitvec n s.
  Proof. intros s. rewrite states_eq by auto. apply all_vecs_spec. Qed.
  Lemma en_bits : forall e, In e (fs_envs F) <-> bitvec ne e.
  Proof. intros s. rewrite envs_eq by auto. apply all_vecs_spec. Qed.

  (** the BDDs of the specification *)
  Record bdds (et st : dt) (eg sg : list dt) (ei si : dt) : Prop := {
    bd_et : no_primed_sys ne ns et;
    bd_eg : Forall (Good ne ns) eg;
    bd_sg : Forall (Good ne ns) sg;
    bd_ei : Good ne ns ei;
    bd_si : Good ne ns si;
    bd_lsg : length sg = k;
    bd_leg : 0 < length eg;
    bd_ete : forall s e w, bitvec n s -> bitvec ne e -> bitvec ns w ->
       ev et (s ++ e ++ w) = g_etr GF s e;
    bd_ste : forall s s', bitvec n s -> bitvec n s' -> ev st (s ++ s') = g_str GF s s';
    bd_ege : Forall2 (fun f d => forall s, bitvec n s -> evS n d s = holds F f s) (egoals1 F) eg;
    bd_sge : Forall2 (fun f d => forall s, bitvec n s -> evS n d s = holds F f s) (fs_sgoals F) sg;
    bd_eie : forall s, bitvec n s -> evS n ei s = holds_opt F (fs_einit F) s;
    bd_sie : forall s, bitvec n s -> evS n si s = holds_opt F (fs_sinit F) s
  }.
  Lemma bdds_ex : exists et st eg sg ei si, bdds et st eg sg ei si /\
    forall fuel flags, synthesize sp orc alloc fuel flags =
      synthesize_BDD ne ns orc alloc fuel flags
        (match fs_sinit F with None => false | Some _ => true end) ei si et st eg sg.
  Proof.
    destruct (spec_BDDs_ok F Hws Hbool) as
      (et & st & eg & sg & Hb & Hnp & Hgeg & Hgsg & _ & Hlsg & Hleg & Het & Hst & Heg & Hsg).
    destruct (init_BDD_ok F (fs_einit F)) as (ei & Hd & Hg & He); [apply Hbool|apply Hws|].
    destruct (init_BDD_ok F (fs_sinit F)) as (si & Hd' & Hg' & He'); [apply Hbool|apply Hws|].
    exists et, st, eg, sg, ei, si. split; [constructor; auto|].
    intros fuel flags. unfold synthesize.
    change (env_init sp) with (opt_tree (fs_einit F)). change (sys_init sp) with (opt_tree (fs_sinit F)).
    rewrite Hd. cbn [bind]. rewrite Hd'. cbn [bind]. rewrite Hb. cbn [bind].
    rewrite num_env_eq, num_sys_eq.
    replace (match opt_tree (fs_sinit F) with NULL => false | _ => true end)
      with (match fs_sinit F with None => false | Some _ => true end); auto.
    destruct (fs_sinit F) as [f|]; auto. simpl. destruct f; reflexivity.
  Qed.

  Section Bdds.
  Variables (et st : dt) (eg sg : list dt) (ei si : dt).
  Hypothesis HD : bdds et st eg sg ei si.
  Let G := bgame ne ns et st eg sg.
  Lemma etr_agree : forall s e, bitvec n s -> bitvec ne e -> g_etr G s e = g_etr GF s e.
  Proof. intros s e Hs He. apply (bd_ete _ _ _ _ _ _ HD); auto using bitvec_zeros. Qed.
  Lemma le_agree : forall s e, bitvec n s -> (legal_env G s e <-> legal_env GF s e).
  Proof.
    intros s e Hs. unfold legal_env. change (g_envs GF) with (fs_envs F). rewrite en_bits.
    simpl g_envs. rewrite all_vecs_spec. split; intros (H1 & H2); split; auto.
    - rewrite <- etr_agree; auto.
    - rewrite etr_agree; auto.
  Qed.
  Lemma W_agree : forall s, bitvec n s -> (Wset G vec_eqb s = true <-> sys_wins GF s).
  Proof.
    intros s Hs. assert (Hin : In s (all_vecs n)) by (apply all_vecs_spec; auto).
    rewrite <- (game_agree F Hbool et st eg sg (bd_ete _ _ _ _ _ _ HD) (bd_ste _ _ _ _ _ _ HD)
        (bd_ege _ _ _ _ _ _ HD) (bd_sge _ _ _ _ _ _ HD) s Hin).
    apply W_exact; auto.
    - apply vec_eqb_eq.
    - simpl. rewrite map_length. apply (bd_leg _ _ _ _ _ _ HD).
    - unfold ngoals. simpl. rewrite map_length. rewrite (bd_lsg _ _ _ _ _ _ HD). apply k_pos.
  Qed.
  Lemma sgoal_agree : forall i s, i < k -> bitvec n s -> goal ne ns sg i s = sgoal i s.
  Proof.
    intros i s Hi Hs. unfold goal, sgoal.
    apply (Forall2_nth' _ _ _ _ _ i FTrue (bZero (2 * (ne + ns))) (bd_sge _ _ _ _ _ _ HD) Hi s Hs).
  Qed.
  Lemma egoals_inf : forall p : nat -> vec, (forall t, bitvec n (p t)) ->
    (forall g, In g (g_egoals GF) -> infinitely_often g p) ->
    forall r, r < length eg -> forall t, exists t', t <= t' /\ egoal ne ns eg r (p t') = true.
  Proof.
    intros p Hp H r Hr. pose proof (bd_ege _ _ _ _ _ _ HD) as Hf.
    pose proof (Forall2_len _ _ _ _ _ Hf) as Hl.
    assert (Hinf : infinitely_often (holds F (nth r (egoals1 F) FTrue)) p).
    { unfold egoals1 in *. destruct (fs_egoals F) as [|f l] eqn:E.
      - intros t. exists t. split; auto. destruct r as [|r]; [|simpl in Hl; lia]. reflexivity.
      - apply H. cbn [g_egoals game_of]. rewrite E. apply in_map. apply nth_In. rewrite Hl. auto. }
    intros t. destruct (Hinf t) as (t' & Ht & Hx). exists t'. split; auto. unfold egoal.
    rewrite <- Hx. apply (Forall2_nth' _ _ _ _ _ r FTrue (bZero (2 * (ne + ns))) Hf); auto.
    rewrite Hl. auto.
  Qed.

  (** *** the returned automaton *)
  Section Out.
  Variables (W : dt) (L : list levels_t) (K : nat -> nat) (Y : nat -> nat -> vec -> bool)
    (X : nat -> nat -> nat -> vec -> bool) (ss : list vec) (A : aut).
  Hypothesis HG : glue ne ns et st eg sg W L K Y X.
  Hypothesis HI : sinv ne ns et st eg sg W L K Y X ss A [].
  Notation step := (step_ok L (gw ne ns sg W) (sbump ne ns sg W L) (sfin ne ns sg W K Y)
    (spick ne ns et st eg sg W K Y X)).

  Lemma sg_pos : 0 < length sg.
  Proof. rewrite (bd_lsg _ _ _ _ _ _ HD). apply k_pos. Qed.
  Let Ek : length sg = k := bd_lsg _ _ _ _ _ _ HD.
  Let P1 := sg_pos.
  Let P2 : 0 < length eg := bd_leg _ _ _ _ _ _ HD.
  Lemma o_wf : forall x, In x A -> bitvec n (astate x) /\ exists i, i < k /\ amode x = Z.of_nat i.
  Proof.
    intros x Hx. rewrite <- Ek. exact (c_wf ne ns et st eg sg W L K Y X ss A HG HI x Hx).
  Qed.
  Lemma o_states : forall x, In x A -> In (astate x) (fs_states F).
  Proof. intros x Hx. apply st_bits. apply o_wf. auto. Qed.
  Lemma o_W : forall x, In x A -> evS n W (astate x) = true.
  Proof. exact (c_W ne ns et st eg sg P1 P2 W L K Y X ss A HG HI). Qed.
  Lemma o_wins : forall x, In x A -> sys_wins GF (astate x).
  Proof.
    intros x Hx. destruct (o_wf x Hx) as (Hb & _). apply W_agree; auto.
    unfold G. rewrite <- (gl_win _ _ _ _ _ _ _ _ _ _ _ HG); [|apply all_vecs_spec; auto].
    apply o_W. auto.
  Qed.
  Lemma o_ids : NoDup (ids A).
  Proof. apply (c_ids _ _ _ _ _ _ _ _ _ _ _ _ _ HI). Qed.
  Lemma o_edge : forall x y, In x A -> In y A -> In (aid y) (atrans x) ->
    exists i i', i < k /\ i' < k /\ amode x = Z.of_nat i /\ amode y = Z.of_nat i' /\
      step (astate x) i (firstn ne (astate y)) (astate y) i' /\
      (0 < ne -> legal_env G (astate x) (firstn ne (astate y))).
  Proof.
    intros x y Hx Hy Ht.
    destruct (c_edge ne ns et st eg sg P1 P2 W L K Y X ss A HG HI (aid x) (aid y))
      as (x' & y' & i & i' & Hx' & Ex & Hy' & Ey & H); [exists x; auto|].
    assert (x' = x) by (apply (node_unique A); auto using o_ids).
    assert (y' = y) by (apply (node_unique A); auto using o_ids). subst x' y'.
    rewrite Ek in H. exists i, i'. exact H.
  Qed.

  (** safety *)
  Lemma o_safe : forall x y, In x A -> In y A -> In (aid y) (atrans x) ->
    legal_sys GF (astate x) (g_env GF (astate y)) (astate y) /\
    (fs_evars F <> [] -> legal_env GF (astate x) (g_env GF (astate y))).
  Proof.
    intros x y Hx Hy Ht. destruct (o_edge x y Hx Hy Ht) as (i & i' & Hi & Hi' & E1 & E2 & Hst & Hle).
    destruct Hst as (j & _ & Hp & _). destruct (spick_base _ _ _ _ _ _ _ _ _ _ _ _ _ _ _ Hp) as (Hb & _ & Hs & _).
    destruct (o_wf x Hx) as (Hbx & _).
    split.
    - split; [apply o_states; auto|]. split; auto. rewrite <- (bd_ste _ _ _ _ _ _ HD); auto.
    - intros Hne. apply le_agree; auto. apply Hle. apply ne_pos. auto.
  Qed.
  Lemma o_answer : forall x e, In x A -> legal_env GF (astate x) e ->
    exists y, In y A /\ In (aid y) (atrans x) /\ g_env GF (astate y) = e.
  Proof.
    intros x e Hx He. destruct (o_wf x Hx) as (Hbx & _).
    destruct (c_node ne ns et st eg sg P1 P2 W L K Y X ss A HG HI x Hx)
      as (i & j & mv & Hi & Hm & _ & _ & (Hnd & Hbv & Hmv) & Hall).
    assert (Hin : In e mv).
    { destruct (Nat.ltb_spec 0 ne) as [Hne|Hne].
      - apply Hmv. apply le_agree; auto.
      - subst mv. left. destruct He as (He & _). apply en_bits in He. destruct He as (Hl & _).
        destruct e; auto. simpl in Hl. lia. }
    destruct (Forall2_in_l _ _ _ _ _ _ Hall Hin) as (t & Ht & (y & i' & Hy & Hid & Hmy & (j1 & _ & Hp & _))).
    destruct (spick_base _ _ _ _ _ _ _ _ _ _ _ _ _ _ _ Hp) as (_ & Hfe & _).
    exists y. subst t. auto.
  Qed.
  (** liveness *)
  Lemma o_live : forall p : nat -> anode,
    (forall t, In (p t) A /\ In (aid (p (S t))) (atrans (p t))) ->
    (fs_evars F = [] -> forall t, g_etr GF (astate (p t)) [] = true) ->
    gr1 GF (fun t => astate (p t)).
  Proof.
    intros p Hp Hdet Heg.
    assert (Hb : forall t, bitvec n (astate (p t))) by (intros t; apply o_wf; apply Hp).
    set (md := fun t => Z.to_nat (amode (p t))).
    assert (Hmd : forall t, md t < k /\ amode (p t) = Z.of_nat (md t)).
    { intros t. unfold md. destruct (o_wf (p t) (proj1 (Hp t))) as (_ & i & Hi & ->).
      rewrite Nat2Z.id. auto. }
    assert (Hlive : forall q, q < k -> forall t, exists t', t <= t' /\ goal ne ns sg q (astate (p t')) = true).
    { rewrite <- Ek. apply (live ne ns et st eg sg P1 P2 W L K Y X HG (fun t => astate (p t)) md).
      - intros t. split; [apply all_vecs_spec; apply Hb|]. split; [apply o_W; apply Hp|].
        rewrite Ek. apply Hmd.
      - intros t. destruct (o_edge (p t) (p (S t))) as (i & i' & _ & _ & _ & _ & _ & Hle); try apply Hp.
        destruct (Nat.eq_dec ne 0) as [E|E]; [|apply Hle; lia].
        assert (Hz : firstn ne (astate (p (S t))) = []) by (rewrite E; auto). rewrite Hz.
        apply le_agree; auto. split.
        + apply en_bits. rewrite E. split; auto.
        + apply Hdet. apply ne_zero. auto.
      - intros t. destruct (o_edge (p t) (p (S t))) as (i & i' & _ & _ & E1 & E2 & Hst & _); try apply Hp.
        destruct (Hmd t) as (_ & M1). destruct (Hmd (S t)) as (_ & M2).
        replace (md t) with i by lia. replace (md (S t)) with i' by lia. auto.
      - apply egoals_inf; auto. }
    intros g Hg. apply in_map_iff in Hg. destruct Hg as (f & <- & Hf).
    apply In_nth with (d := FTrue) in Hf. destruct Hf as (q & Hq & <-).
    intros t. destruct (Hlive q Hq t) as (t' & Ht & Hx). exists t'. split; auto.
    rewrite <- Hx. symmetry. apply sgoal_agree; auto.
  Qed.
  (** structure *)
  Lemma o_key : forall x y, In x A -> In y A -> astate x = astate y -> amode x = amode y -> x = y.
  Proof. exact (c_key _ _ _ _ _ _ _ _ _ _ _ _ _ HI). Qed.
  Lemma o_closed : forall x t, In x A -> In t (atrans x) -> exists y, In y A /\ aid y = t.
  Proof.
    intros x t Hx Ht. pose proof (c_closed ne ns et st eg sg P1 P2 W L K Y X ss A HG HI x t Hx Ht) as H.
    apply in_map_iff in H. destruct H as (y & E & Hy). eauto.
  Qed.
  Lemma o_det : forall x a b y z, In x A -> In y A -> In z A ->
    nth_error (atrans x) a = Some (aid y) -> nth_error (atrans x) b = Some (aid z) ->
    g_env GF (astate y) = g_env GF (astate z) -> a = b.
  Proof.
    intros x a b y z Hx Hy Hz Ha Hb E.
    destruct (c_node ne ns et st eg sg P1 P2 W L K Y X ss A HG HI x Hx)
      as (i & j & mv & _ & _ & _ & _ & (Hnd & _ & _) & Hall).
    assert (Hmv : forall c w, In w A -> nth_error (atrans x) c = Some (aid w) ->
              c < length mv /\ nth c mv [] = firstn ne (astate w)).
    { intros c w Hw Hc. pose proof (Forall2_len _ _ _ _ _ Hall) as Hl.
      assert (c < length (atrans x)) by (apply nth_error_Some; congruence).
      assert (Hc' : c < length mv) by lia. split; auto.
      pose proof (Forall2_nth' _ _ _ _ _ c [] 0 Hall Hc') as (v & i' & Hv & Hid & _ & (j1 & _ & Hp & _)).
      rewrite (nth_error_nth _ _ 0 Hc) in Hid.
      assert (v = w) by (apply (node_unique A); auto using o_ids). subst v.
      destruct (spick_base _ _ _ _ _ _ _ _ _ _ _ _ _ _ _ Hp) as (_ & Hfe & _). auto. }
    destruct (Hmv a y Hy Ha) as (H1 & H2). destruct (Hmv b z Hz Hb) as (H3 & H4).
    apply (NoDup_nth mv []); auto. rewrite H2, H4. exact E.
  Qed.
  (** modes and reach annotation *)
  Lemma o_mode : forall x y, In x A -> In y A -> In (aid y) (atrans x) ->
    exists i c, i < k /\ amode x = Z.of_nat i /\ amode y = Z.of_nat ((i + c) mod k) /\
      (forall d, d < c -> sgoal ((i + d) mod k) (astate y) = true) /\
      (0 < c <-> sgoal i (astate y) = true).
  Proof.
    intros x y Hx Hy Ht. destruct (o_edge x y Hx Hy Ht) as (i & i' & Hi & Hi' & E1 & E2 & Hst & _).
    destruct (step_mode ne ns et st eg sg P1 P2 W L K Y X HG _ i _ _ i' ltac:(rewrite Ek; auto) Hst)
      as (c & Hc & Hg & Hz).
    rewrite Ek in Hc, Hg. pose proof k_pos as Hk. rewrite iter_nx in Hc by auto.
    destruct (o_wf y Hy) as (Hby & _). pose proof (o_W y Hy) as HW.
    assert (Hgw : forall q, q < k -> gw ne ns sg W q (astate y) = sgoal q (astate y)).
    { intros q Hq. unfold gw. fold n. rewrite HW, andb_true_r. apply sgoal_agree; auto. }
    exists i, c. split; auto. split; auto. split; [congruence|]. split.
    - intros d Hd. specialize (Hg d Hd). rewrite iter_nx in Hg by auto. rewrite Hgw in Hg; auto.
      apply Nat.mod_upper_bound. lia.
    - rewrite Hz, Hgw by auto. tauto.
  Qed.
  Lemma o_rgrad : forall x y, In x A -> In y A -> In (aid y) (atrans x) ->
    (0 <= argrad x)%Z /\
    (amode x = amode y -> (0 < argrad x)%Z -> (argrad y <= argrad x)%Z).
  Proof.
    intros x y Hx Hy Ht. destruct (o_edge x y Hx Hy Ht) as (i & i' & Hi & Hi' & E1 & E2 & Hst & _).
    destruct (c_node ne ns et st eg sg P1 P2 W L K Y X ss A HG HI x Hx)
      as (i1 & j1 & mv1 & _ & _ & F1 & _).
    destruct (c_node ne ns et st eg sg P1 P2 W L K Y X ss A HG HI y Hy)
      as (i2 & j2 & mv2 & _ & _ & F2 & _).
    split; [lia|]. intros E Hj.
    assert (i' = i) by lia. subst i'.
    assert (j2 <= j1); [|lia].
    apply (rgrad_step ne ns et st eg sg P1 P2 W L K Y X ss A HG HI x y i i j1 j2); auto; try lia.
  Qed.
  (** reach annotation 0 iff all goals hold *)
  Lemma o_rgrad0 : forall x, In x A -> (argrad x = 0%Z -> forall i, i < k -> sgoal i (astate x) = true).
  Proof.
    intros x Hx E. destruct (o_wf x Hx) as (Hb & _).
    destruct (c_node ne ns et st eg sg P1 P2 W L K Y X ss A HG HI x Hx)
      as (i1 & j1 & mv1 & _ & _ & F1 & (_ & F2) & _).
    assert (j1 = 0) by lia. intros i Hi. rewrite <- sgoal_agree by auto.
    assert (Hg : gw ne ns sg W i (astate x) = true) by (apply F2; auto; rewrite Ek; auto).
    apply andb_true_iff in Hg. apply Hg.
  Qed.
  (** initial nodes *)
  Lemma o_init : forall x, In x A -> ainit x = true -> In (astate x) ss.
  Proof. exact (c_init _ _ _ _ _ _ _ _ _ _ _ _ _ HI). Qed.
  Lemma o_cover : forall s, In s ss -> bitvec n s -> exists x c, In x A /\ astate x = s /\
    amode x = Z.of_nat (c mod k) /\ forall d, d < c -> sgoal (d mod k) s = true.
  Proof.
    intros s Hs Hb.
    destruct (c_cover ne ns et st eg sg P1 W L K Y X ss A HG HI s Hs) as (x & c & H1 & H2 & H3 & H4).
    rewrite Ek in *. exists x, c. split; auto. split; auto. split; auto.
    intros d Hd. rewrite <- sgoal_agree; auto. apply Nat.mod_upper_bound. pose proof k_pos. lia.
  Qed.
  End Out.
  End Bdds.

  (** *** the statements on synthesize *)
  Notation sgiven := (match fs_sinit F with None => false | Some _ => true end).
  Lemma out_cases : forall fuel flags A, synthesize sp orc alloc fuel flags = Ok A ->
    A = [] \/ exists et st eg sg ei si W L K Y X ss, bdds et st eg sg ei si /\
      glue ne ns et st eg sg W L K Y X /\ stack_ok ne ns ei si W flags sgiven ss /\
      sinv ne ns et st eg sg W L K Y X ss A [] /\ grown ne ns et st eg sg W K Y X ss A.
  Proof.
    intros fuel flags A H. destruct bdds_ex as (et & st & eg & sg & ei & si & HD & HE).
    rewrite HE in H.
    destruct (synth_cert ne ns orc alloc Horc Halloc et st eg sg (bd_et _ _ _ _ _ _ HD)
      (bd_eg _ _ _ _ _ _ HD) (bd_sg _ _ _ _ _ _ HD) (sg_pos _ _ _ _ _ _ HD) (bd_leg _ _ _ _ _ _ HD)
      fuel flags sgiven ei si A (bd_ei _ _ _ _ _ _ HD) (bd_si _ _ _ _ _ _ HD) H)
      as [->|(W & L & K & Y & X & ss & H1 & H2 & H3)]; auto.
    right. exists et, st, eg, sg, ei, si, W, L, K, Y, X, ss. auto.
  Qed.
  Ltac cases H := destruct (out_cases _ _ _ H)
    as [->|(et & st & eg & sg & ei & si & W & L & K & Y & X & ss & HD & HG & HSt & HI & HGr)];
    [try (intros; contradiction)|].

  Section Result.
  Variables (fuel : nat) (flags : init_flags_t) (A : aut).
  Hypothesis HA : synthesize sp orc alloc fuel flags = Ok A.

  Lemma r_safe : forall x y, In x A -> In y A -> In (aid y) (atrans x) ->
    g_str GF (astate x) (astate y) = true /\
    (fs_evars F <> [] -> g_etr GF (astate x) (g_env GF (astate y)) = true).
  Proof.
    cases HA. intros x y Hx Hy Ht.
    destruct (o_safe et st eg sg ei si HD W L K Y X ss A HG HI x y Hx Hy Ht) as ((_ & _ & H1) & H2).
    split; auto. intros Hne. apply (H2 Hne).
  Qed.
  Lemma r_answer : forall x e, In x A -> legal_env GF (astate x) e ->
    exists y, In y A /\ In (aid y) (atrans x) /\ g_env GF (astate y) = e.
  Proof. cases HA. exact (o_answer et st eg sg ei si HD W L K Y X ss A HG HI). Qed.
  Lemma r_live : forall p : nat -> anode,
    (forall t, In (p t) A /\ In (aid (p (S t))) (atrans (p t))) ->
    (fs_evars F = [] -> forall t, g_etr GF (astate (p t)) [] = true) ->
    gr1 GF (fun t => astate (p t)).
  Proof.
    cases HA.
    - intros p Hp. destruct (proj1 (Hp 0)).
    - exact (o_live et st eg sg ei si HD W L K Y X ss A HG HI).
  Qed.
  Lemma r_wins : forall x, In x A -> sys_wins GF (astate x).
  Proof. cases HA. exact (o_wins et st eg sg ei si HD W L K Y X ss A HG HI). Qed.
  Lemma r_ids : NoDup (ids A).
  Proof. cases HA; [constructor|]. exact (o_ids et st eg sg W L K Y X ss A HI). Qed.
  Lemma r_key : forall x y, In x A -> In y A -> astate x = astate y -> amode x = amode y -> x = y.
  Proof. cases HA. exact (o_key et st eg sg W L K Y X ss A HI). Qed.
  Lemma r_wf : forall x, In x A -> In (astate x) (fs_states F) /\
    (0 <= amode x < Z.of_nat (length (fs_sgoals F)))%Z.
  Proof.
    cases HA. intros x Hx.
    destruct (o_wf et st eg sg ei si HD W L K Y X ss A HG HI x Hx) as (H1 & i & H2 & H3).
    split; [apply st_bits; auto|]. fold k. lia.
  Qed.
  Lemma r_closed : forall x t, In x A -> In t (atrans x) -> exists y, In y A /\ aid y = t.
  Proof. cases HA. exact (o_closed et st eg sg ei si HD W L K Y X ss A HG HI). Qed.
  Lemma r_det : forall x a b y z, In x A -> In y A -> In z A ->
    nth_error (atrans x) a = Some (aid y) -> nth_error (atrans x) b = Some (aid z) ->
    g_env GF (astate y) = g_env GF (astate z) -> a = b.
  Proof. cases HA. exact (o_det et st eg sg ei si HD W L K Y X ss A HG HI). Qed.
  Lemma r_mode : forall x y, In x A -> In y A -> In (aid y) (atrans x) ->
    exists i c, i < k /\ amode x = Z.of_nat i /\ amode y = Z.of_nat ((i + c) mod k) /\
      (forall d, d < c -> sgoal ((i + d) mod k) (astate y) = true) /\
      (0 < c <-> sgoal i (astate y) = true).
  Proof. cases HA. exact (o_mode et st eg sg ei si HD W L K Y X ss A HG HI). Qed.
  Lemma r_rgrad : forall x y, In x A -> In y A -> In (aid y) (atrans x) ->
    (0 <= argrad x)%Z /\
    (amode x = amode y -> (0 < argrad x)%Z -> (argrad y <= argrad x)%Z).
  Proof. cases HA. exact (o_rgrad et st eg sg ei si HD W L K Y X ss A HG HI). Qed.
  Lemma r_rgrad0 : forall x, In x A -> argrad x = 0%Z -> forall i, i < k -> sgoal i (astate x) = true.
  Proof. cases HA. exact (o_rgrad0 et st eg sg ei si HD W L K Y X ss A HG HI). Qed.

  (** nodes for the initial states *)
  Definition has_node (s : vec) : Prop := exists x c, In x A /\ astate x = s /\
    amode x = Z.of_nat (c mod k) /\ forall d, d < c -> sgoal (d mod k) s = true.
  Lemma r_all_init : flags = ALL_INIT -> A <> [] ->
    (forall s, initial F s -> has_node s) /\
    (forall x, In x A -> ainit x = true -> initial F (astate x)).
  Proof.
    intros Hf Hn. cases HA; try (exfalso; apply Hn; reflexivity). rewrite Hf in HSt. simpl in HSt.
    assert (Hin : forall s, In s ss <-> initial F s).
    { intros s. rewrite HSt. unfold initial. rewrite st_bits. fold n. split; intros (H1 & H2 & H3); split; auto.
      - rewrite <- (bd_eie _ _ _ _ _ _ HD), <- (bd_sie _ _ _ _ _ _ HD); auto.
      - rewrite <- (bd_eie _ _ _ _ _ _ HD), <- (bd_sie _ _ _ _ _ _ HD) in *; auto. }
    split.
    - intros s Hs. apply (o_cover et st eg sg ei si HD W L K Y X ss A HG HI); [apply Hin; auto|].
      apply st_bits. apply Hs.
    - intros x Hx Hi. apply Hin. apply (o_init et st eg sg W L K Y X ss A HI); auto.
  Qed.
  Lemma r_one_side : flags = ONE_SIDE_INIT -> A <> [] ->
    match fs_sinit F with
    | Some f => (exists s, has_node s /\ holds F f s = true) /\
        (forall x, In x A -> ainit x = true -> holds F f (astate x) = true)
    | None => (forall s, In s (fs_states F) -> holds_opt F (fs_einit F) s = true -> has_node s) /\
        (forall x, In x A -> ainit x = true -> holds_opt F (fs_einit F) (astate x) = true)
    end.
  Proof.
    intros Hf Hn. cases HA; try (exfalso; apply Hn; reflexivity). rewrite Hf in HSt. simpl in HSt.
    pose proof (bd_sie _ _ _ _ _ _ HD) as Hsi.
    destruct (fs_sinit F) as [f|].
    - destruct HSt as (s & -> & Hb & H1 & H2). fold n in Hb, H1. rewrite Hsi in H1 by auto. split.
      + exists s. split; auto. apply (o_cover et st eg sg ei si HD W L K Y X [s] A HG HI); [left; auto|auto].
      + intros x Hx Hi. pose proof (o_init et st eg sg W L K Y X _ A HI x Hx Hi) as [E|[]].
        rewrite <- E. auto.
    - split.
      + intros s Hs H. apply st_bits in Hs.
        apply (o_cover et st eg sg ei si HD W L K Y X ss A HG HI); auto. apply HSt. split; auto.
        fold n. rewrite (bd_eie _ _ _ _ _ _ HD); auto.
      + intros x Hx Hi. pose proof (o_init et st eg sg W L K Y X _ A HI x Hx Hi) as Hs.
        apply HSt in Hs. destruct Hs as (Hb & Hs). fold n in Hb, Hs. rewrite (bd_eie _ _ _ _ _ _ HD) in Hs; auto.
  Qed.
  End Result.

  Definition separated : Prop := NoDup (names (fs_vars F)) /\
    opt_form (fun f => incl (fvars f) (names (fs_evars F))) (fs_einit F) /\
    opt_form (fun f => incl (fvars f) (names (fs_svars F))) (fs_sinit F).
  Lemma split_state : forall s : vec, bitvec n s -> bitvec ne (firstn ne s) /\ bitvec ns (skipn ne s) /\
    firstn ne s ++ skipn ne s = s.
  Proof.
    intros s Hs. split; [apply (bitvec_firstn ne ns); auto|].
    split; [apply (bitvec_skipn ne ns); auto|apply firstn_skipn].
  Qed.
  Lemma r_aes : separated -> forall fuel A,
    synthesize sp orc alloc fuel ALL_ENV_EXIST_SYS_INIT = Ok A -> A <> [] ->
    (forall e, In e (fs_envs F) -> holds_env F (fs_einit F) e = true ->
       exists s, has_node A s /\ g_env GF s = e /\ holds_opt F (fs_sinit F) s = true) /\
    (forall x, In x A -> ainit x = true -> holds_env F (fs_einit F) (g_env GF (astate x)) = true /\
       holds_opt F (fs_sinit F) (astate x) = true).
  Proof.
    intros (Hnd & Hse & Hss) fuel A HA Hn. cases HA; try (exfalso; apply Hn; reflexivity). simpl in HSt.
    destruct HSt as (H1 & H2).
    assert (Hsin : forall s, In s ss -> bitvec n s /\ holds_env F (fs_einit F) (g_env GF s) = true /\
              holds_opt F (fs_sinit F) s = true).
    { intros s Hs. destruct (H2 s Hs) as (Hb & _ & (w & Hw & He) & e' & He' & Hi). fold n in Hb, He, Hi.
      destruct (split_state s Hb) as (B1 & B2 & B3).
      rewrite (bd_eie _ _ _ _ _ _ HD) in He by (apply bitvec_app; auto).
      rewrite (bd_sie _ _ _ _ _ _ HD) in Hi by (apply bitvec_app; auto).
      rewrite (einit_env F Hws Hse) in He by auto.
      split; auto. split; auto. rewrite <- B3.
      rewrite (sinit_sys F Hws Hnd Hss (firstn ne s) e'); auto. }
    split.
    - intros e He Hh. apply en_bits in He.
      destruct (H1 e He) as (w & Hw & Hin).
      { exists (zeros ns). split; [apply bitvec_zeros|]. fold n.
        rewrite (bd_eie _ _ _ _ _ _ HD) by (apply bitvec_app; auto using bitvec_zeros).
        rewrite (einit_env F Hws Hse); auto using bitvec_zeros. }
      destruct (Hsin _ Hin) as (Hb & _ & Hi). exists (e ++ w). split.
      + apply (o_cover et st eg sg ei si HD W L K Y X ss A HG HI); auto.
      + split; auto. simpl. apply firstn_len. apply He.
    - intros x Hx Hi. apply Hsin. apply (o_init et st eg sg W L K Y X ss A HI); auto.
  Qed.

  (** *** every node is reached *)
  Definition start (flags : init_flags_t) (s : vec) : Prop :=
    match flags with
    | ALL_INIT => initial F s
    | ALL_ENV_EXIST_SYS_INIT => In s (fs_states F) /\
        holds_env F (fs_einit F) (g_env GF s) = true /\ holds_opt F (fs_sinit F) s = true
    | ONE_SIDE_INIT => In s (fs_states F) /\
        match fs_sinit F with
        | Some f => holds F f s = true
        | None => holds_opt F (fs_einit F) s = true
        end
    | UNDEFINED_INIT => False
    end.
  Inductive reached (P : vec -> Prop) : vec -> Prop :=
  | reached0 : forall s, P s -> reached P s
  | reached1 : forall s s', reached P s ->
      legal_sys GF s (g_env GF s') s' -> (fs_evars F <> [] -> legal_env GF s (g_env GF s')) ->
      reached P s'.
  Lemma grown_reached : forall et st eg sg ei si, bdds et st eg sg ei si ->
    forall W K Y X ss A (P : vec -> Prop), grown ne ns et st eg sg W K Y X ss A ->
    (forall s, In s ss -> P s) -> forall x, In x A -> reached P (astate x).
  Proof.
    intros et st eg sg ei si HD W K Y X ss A P HGr H0 x Hx.
    apply HGr; auto.
    - intros s Hs. apply reached0. auto.
    - intros s i j e s' mv Hr Hb (_ & Hbv & Hmv) He Hp.
      destruct (spick_base _ _ _ _ _ _ _ _ _ _ _ _ _ _ _ Hp) as (Hb' & Hfe & Hst & _).
      apply (reached1 P s s' Hr).
      + split; [apply st_bits; auto|]. split; auto. rewrite <- (bd_ste _ _ _ _ _ _ HD); auto.
      + intros Hne. apply ne_pos in Hne.
        replace (0 <? ne) with true in Hmv by (symmetry; apply Nat.ltb_lt; auto).
        change (g_env GF s') with (firstn ne s'). rewrite Hfe. apply (le_agree _ _ _ _ _ _ HD); auto.
        apply Hmv; auto.
  Qed.
  Lemma r_reach : forall fuel flags A, (flags = ALL_ENV_EXIST_SYS_INIT -> separated) ->
    synthesize sp orc alloc fuel flags = Ok A -> forall x, In x A -> reached (start flags) (astate x).
  Proof.
    intros fuel flags A Hsep HA. cases HA.
    apply (grown_reached et st eg sg ei si HD W K Y X ss A); auto.
    intros s Hs. destruct flags; simpl in HSt.
    - destruct HSt.
    - destruct (Hsep eq_refl) as (Hnd & Hse & Hss).
      destruct HSt as (_ & H2).
      destruct (H2 s Hs) as (Hb & _ & (w & Hw & He) & e' & He' & Hi). fold n in Hb, He, Hi.
      destruct (split_state s Hb) as (B1 & B2 & B3).
      rewrite (bd_eie _ _ _ _ _ _ HD) in He by (apply bitvec_app; auto).
      rewrite (bd_sie _ _ _ _ _ _ HD) in Hi by (apply bitvec_app; auto).
      rewrite (einit_env F Hws Hse) in He by auto.
      split; [apply st_bits; auto|]. split; auto. rewrite <- B3.
      rewrite (sinit_sys F Hws Hnd Hss (firstn ne s) e'); auto.
    - apply HSt in Hs. destruct Hs as (Hb & H1 & H2). fold n in Hb, H1, H2.
      split; [apply st_bits; auto|]. split.
      + rewrite <- (bd_eie _ _ _ _ _ _ HD); auto.
      + rewrite <- (bd_sie _ _ _ _ _ _ HD); auto.
    - pose proof (bd_sie _ _ _ _ _ _ HD) as Hsi. cbn [start]. destruct (fs_sinit F) as [f|].
      + destruct HSt as (s1 & -> & Hb & H1 & H2). destruct Hs as [<-|[]]. fold n in Hb, H1.
        rewrite Hsi in H1 by auto. split; [apply st_bits; auto|]. auto.
      + apply HSt in Hs. destruct Hs as (Hb & Hs). fold n in Hb, Hs.
        rewrite (bd_eie _ _ _ _ _ _ HD) in Hs; auto. split; [apply st_bits; auto|]. auto.
  Qed.

  (** *** termination and success *)
  Section Total.
  Hypothesis Henv : fs_evars F <> [] \/ forall s, In s (fs_states F) -> g_etr GF s [] = true.
  Lemma r_total : forall flags,
    (forall et st eg sg ei si, bdds et st eg sg ei si ->
       ready ne ns et st eg sg flags sgiven ei si) ->
    exists N, forall fuel, N <= fuel -> exists A,
      synthesize sp orc alloc fuel flags = Ok A /\ A <> [].
  Proof.
    intros flags Hr. destruct bdds_ex as (et & st & eg & sg & ei & si & HD & HE).
    destruct (synth_total ne ns orc alloc Horc Halloc et st eg sg (bd_et _ _ _ _ _ _ HD)
      (bd_eg _ _ _ _ _ _ HD) (bd_sg _ _ _ _ _ _ HD) (sg_pos _ _ _ _ _ _ HD) (bd_leg _ _ _ _ _ _ HD))
      with (flags := flags) (sg := sgiven) (einit := ei) (sinit := si) as (N & HN).
    - destruct Henv as [H|H]; [left; apply ne_pos; auto|]. destruct (Nat.eq_dec ne 0) as [E|E]; [|left; lia].
      right. intros s Hs. rewrite (etr_agree _ _ _ _ _ _ HD s []); auto.
      + apply H. apply st_bits. auto.
      + rewrite E. split; auto.
    - apply (bd_ei _ _ _ _ _ _ HD).
    - apply (bd_si _ _ _ _ _ _ HD).
    - apply (Hr _ _ _ _ _ _ HD).
    - exists N. intros fuel Hf. rewrite HE. apply HN. auto.
  Qed.
  Lemma t_all_init : forall f W, check_realizable sp f ALL_INIT = Ok (Some W) ->
    exists N, forall fuel, N <= fuel -> exists A,
      synthesize sp orc alloc fuel ALL_INIT = Ok A /\ A <> [].
  Proof.
    intros f W H. apply (all_init_verdict F Hws Hbool Hgoals) in H.
    destruct (proj1 H) as ((s & Hs1 & Hs2 & Hs3) & Hall); [discriminate|].
    apply r_total. intros et st eg sg ei si HD. simpl. fold n. split.
    - exists s. apply st_bits in Hs1. split; auto.
      rewrite (bd_eie _ _ _ _ _ _ HD), (bd_sie _ _ _ _ _ _ HD); auto.
    - intros s1 Hb H1 H2. rewrite (bd_eie _ _ _ _ _ _ HD) in H1 by auto.
      rewrite (bd_sie _ _ _ _ _ _ HD) in H2 by auto.
      apply (W_agree _ _ _ _ _ _ HD s1 Hb). apply Hall. split; auto. apply st_bits. auto.
  Qed.
  Lemma t_one_side : forall f W, check_realizable sp f ONE_SIDE_INIT = Ok (Some W) ->
    (exists s, In s (fs_states F) /\ holds_opt F (fs_einit F) s = true) ->
    exists N, forall fuel, N <= fuel -> exists A,
      synthesize sp orc alloc fuel ONE_SIDE_INIT = Ok A /\ A <> [].
  Proof.
    intros f W H (s0 & Hs0 & Hh0). apply (one_side_verdict F Hws Hbool Hgoals) in H.
    assert (Hv := proj1 H). clear H. specialize (Hv ltac:(discriminate)).
    apply r_total. intros et st eg sg ei si HD. pose proof (bd_sie _ _ _ _ _ _ HD) as Hsi. simpl. fold n.
    destruct (fs_sinit F) as [g|].
    - destruct Hv as (s & Hs & H1 & H2). apply st_bits in Hs. exists s. split; auto.
      split; [apply (W_agree _ _ _ _ _ _ HD s Hs); auto|]. rewrite Hsi; auto.
    - split.
      + exists s0. apply st_bits in Hs0. split; auto. rewrite (bd_eie _ _ _ _ _ _ HD); auto.
      + intros s Hs H1. rewrite (bd_eie _ _ _ _ _ _ HD) in H1 by auto.
        apply (W_agree _ _ _ _ _ _ HD s Hs). apply Hv; auto. apply st_bits. auto.
  Qed.
  Lemma t_aes : separated -> forall f W, check_realizable sp f ALL_ENV_EXIST_SYS_INIT = Ok (Some W) ->
    (exists s, In s (fs_states F) /\ holds_opt F (fs_sinit F) s = true) ->
    (exists e, In e (fs_envs F) /\ holds_env F (fs_einit F) e = true) ->
    exists N, forall fuel, N <= fuel -> exists A,
      synthesize sp orc alloc fuel ALL_ENV_EXIST_SYS_INIT = Ok A /\ A <> [].
  Proof.
    intros (Hnd & Hse & Hss) f W H Hsat (e0 & He0 & Hh0).
    apply (aes_separated F Hws Hbool Hgoals Hnd Hse Hss Hsat) in H.
    assert (Hv := proj1 H). clear H. specialize (Hv ltac:(discriminate)).
    apply r_total. intros et st eg sg ei si HD. simpl. fold n. apply en_bits in He0. split.
    - exists (e0 ++ zeros ns). assert (Hb : bitvec n (e0 ++ zeros ns)) by (apply bitvec_app; auto using bitvec_zeros).
      split; auto. rewrite (bd_eie _ _ _ _ _ _ HD) by auto.
      rewrite (einit_env F Hws Hse); auto using bitvec_zeros.
    - intros e w He Hw Hi. rewrite (bd_eie _ _ _ _ _ _ HD) in Hi by (apply bitvec_app; auto).
      rewrite (einit_env F Hws Hse) in Hi by auto.
      destruct (Hv e) as (s & Hs & Hge & Hsi & Hwin); auto; [apply en_bits; auto|].
      apply st_bits in Hs. destruct (split_state s Hs) as (B1 & B2 & B3).
      change (firstn ne s = e) in Hge.
      exists (skipn ne s), e. split; auto. split; auto. rewrite <- Hge, B3.
      split; [apply (W_agree _ _ _ _ _ _ HD s Hs); auto|]. rewrite (bd_sie _ _ _ _ _ _ HD); auto.
  Qed.
  End Total.
End SynthSpec.
