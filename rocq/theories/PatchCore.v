(** All goals, one after the other. *)
From Coq Require Import List ZArith Lia Bool Arith.
From Verif Require Import Base Game Bdd BGame Support SupportProofs EnumProofs Ops OpsProofs Strs Ptree Form Solve FSpec
  SolveProofs RealProofs Automaton AutProofs AutProofs2
  Synth SynthSets SynthSpec Reach ReachSpec ReachProofs ReadState Nonbool AutIO Hotswap HotSpec HotProofs HotCore InteractSpec
  AddMerge AddSem Patch PatchMerge PatchView PatchSpec PatchSem.
Import ListNotations.
Open Scope nat_scope.

Section Core.
  Variable F : fspec.
  Hypothesis Hws : well_scoped F.
  Hypothesis Hbool : all_boolean F.
  Let ne := length (fs_evars F).
  Let ns := length (fs_svars F).
  Let n := ne + ns.
  Let m := 2 * (ne + ns).
  Let k := length (fs_sgoals F).
  Let noenv := match fs_evars F with [] => true | _ => false end.
  Variables (orc : oracle) (alloc : nat -> aut -> nat).
  Hypothesis Htools : tools_ok F orc alloc.
  Variables (r : rules) (N : list vec) (aff : list (Z * nat)) (A0 : aut).
  Hypothesis HN : Forall (bitvec n) N.
  Variables (et st NB : dt) (eg : list dt).
  Hypothesis Hnp : no_primed_sys ne ns et.
  Hypothesis Hgeg : Forall (Good ne ns) eg.
  Hypothesis HgN : Good ne ns NB.
  Hypothesis HNe : forall s, bitvec n s -> evS n NB s = inN N s.
  Hypothesis Hete : forall s e w, bitvec n s -> inN N s = true -> bitvec ne e -> bitvec ns w -> ev et (s ++ e ++ w) = may_env r s e.
  Hypothesis Hste : forall s s', bitvec n s -> inN N s = true -> bitvec n s' -> ev st (s ++ s') = may_sys r s s'.
  Hypothesis Hege : Forall2 (fun f d => forall s, bitvec n s -> evS n d s = holds F f s) (egoals1 F) eg.
  Let G' := within (inN N) (game_with F r).
  Lemma HNlen : Forall (fun v => length v = n) N.
  Proof. revert HN. apply Forall_impl. intros v H. apply H. Qed.
  Lemma st_len : forall s, In s (fs_states F) -> length s = n.
  Proof. intros s Hs. apply (SynthSpec.st_bits F Hbool) in Hs. apply Hs. Qed.
  Lemma pst : g_states G' = g_states (within (evS n NB) (bgame ne ns et st eg [])).
  Proof.
    cbn [g_states G' within game_with]. rewrite (states_eq F Hbool). cbn [g_states bgame]. apply filter_ext_in. intros s Hs.
    symmetry. apply HNe. apply all_vecs_spec. auto.
  Qed.
  Lemma pst_in : forall s, In s (g_states (within (evS n NB) (bgame ne ns et st eg []))) <-> bitvec n s /\ inN N s = true.
  Proof.
    intros s. rewrite <- pst. cbn [g_states G' within game_with]. rewrite filter_In. rewrite (states_eq F Hbool), all_vecs_spec. tauto.
  Qed.
  Lemma local_sound : forall A fuel en ex S, Forall (bitvec n) en -> Forall (bitvec n) ex -> (forall s, In s ex -> inN N s = true) ->
    synthesize_reachgame ne ns orc (fun t S => alloc t (S ++ A)) fuel en ex et st eg NB = Ok S -> S <> [] ->
    reach_strategy G' (among ex) (among en) noenv S /\
    (forall s, In s S -> ainit s = false) /\ (forall a, In a (ids A) -> ~ In a (ids S)).
  Proof.
    intros A fuel en ex S Hen Hex HexN H HS.
    set (al := fun t S => alloc t (S ++ A)) in *.
    assert (al_fresh : forall t S, ~ In (al t S) (ids S)).
    { intros t S' K. apply (proj2 Htools t (S' ++ A)). unfold ids in *. rewrite map_app. apply in_or_app. auto. }
    assert (al_other : forall t S, ~ In (al t S) (ids A)).
    { intros t S' K. apply (proj2 Htools t (S' ++ A)). unfold ids in *. rewrite map_app. apply in_or_app. auto. }
    assert (HEN : forall s, In s ex -> evS n NB s = true).
    { intros s Hs. rewrite HNe; auto. rewrite Forall_forall in Hex. auto. }
    destruct (list_sound ne ns orc al (proj1 Htools) al_fresh en ex NB et st eg Hnp HgN Hgeg Hen Hex HEN fuel S H HS)
      as (Hrs & _).
    split; [|split].
    - assert (Eb : (ne =? 0) = noenv) by (unfold ne, noenv; destruct (fs_evars F); auto). rewrite Eb in Hrs.
      refine (reach_strategy_ext _ _ _ _ _ _ _ _ _ _ _ _ _ _ _ _ _ Hrs); auto.
      + apply pst.
      + cbn. apply (envs_eq F Hbool).
      + intros s e Hs He. apply pst_in in Hs. cbn in He. apply all_vecs_spec in He. cbn. symmetry. apply Hete; try tauto. apply bitvec_zeros.
      + intros s s' Hs Hs'. apply pst_in in Hs, Hs'. cbn. symmetry. apply Hste; tauto.
      + intros p Hp. apply (gio F Hbool et st eg [] Hege p). intros t.
        apply (gst_bits F Hbool et st eg []). specialize (Hp t). apply pst_in in Hp. apply Hp.
      + intros s Hs. apply pst_in in Hs. cbn. apply all_vecs_spec. apply (bitvec_firstn ne ns). apply Hs.
    - unfold synthesize_reachgame in H. destruct (states_good ne ns en Hen) as (H1 & _). destruct (states_good ne ns ex Hex) as (H3 & _).
      apply (top_noinit ne ns orc al (proj1 Htools) al_fresh _ _ NB et st eg [] Hnp H1 H3 HgN Hgeg
        (lsub ne ns ex NB Hex HEN) fuel S H).
    - intros a Ha Hs. apply in_map_iff in Hs. destruct Hs as (s & <- & Hs).
      apply (fresh_reach ne ns orc al (fun a => ~ In a (ids A)) fuel en ex et st eg NB S al_other H s Hs). auto.
  Qed.
  Lemma one_mode : forall d A U fuel B, inv F r N aff A0 d A -> (0 <= d)%Z ->
    (forall x, In x U <-> In x A /\ amode x = d /\ In (amode x, aid x) aff) -> hit aff d ->
    localfixpoint N d ne ns orc alloc fuel et st eg NB A U = Ok (Some B) -> inv F r N aff A0 (d + 1) B.
  Proof.
    intros d A U fuel B Hinv Hd HU Hhit H.
    destruct (lf_parts _ _ _ _ _ _ _ _ _ _ _ _ _ _ H) as (En & Ex0 & L & Hscan & Hsyn & HLn & Hfin).
    pose proof (p_scan F r N aff A0 st_len d A Hinv En Ex0 Hscan) as (P1 & P2 & P3 & P4).
    assert (HEn : incl En A) by (intros e He; apply P3 in He; apply He).
    set (Ex := drop_exits (S (length Ex0)) (least_rgrad En U) [] Ex0) in *.
    assert (HEx : forall x, In x Ex <-> In x A /\ inside N d x = true /\ (argrad x < least_rgrad En U)%Z).
    { intros x. unfold Ex. rewrite drop_exits_ok by lia. rewrite P1, filter_In. cbn. tauto. }
    assert (Hb : forall l, incl l A -> Forall (bitvec n) (map astate l)).
    { intros l Hl. apply Forall_forall. intros s Hs. apply in_map_iff in Hs. destruct Hs as (x & <- & Hx).
      apply (SynthSpec.st_bits F Hbool). apply (iv_states _ _ _ _ _ _ _ Hinv). auto. }
    assert (HExA : incl Ex A) by (intros x Hx; apply HEx in Hx; tauto).
    destruct (local_sound A fuel (map astate En) (map astate Ex) L (Hb _ HEn) (Hb _ HExA)) as (HL & Hini & Hdis); auto.
    { intros s Hs. apply in_map_iff in Hs. destruct Hs as (x & <- & Hx). apply HEx in Hx. destruct Hx as (_ & Hx & _).
      apply inside_state in Hx. tauto. }
    destruct (finish_ok n N d A L) with (En := En) (Ex := Ex) (min := least_rgrad En U) (B := B) as (mE & mm & M & i & rr & Hvw); auto.
    - intros x Hx. apply st_len. apply (iv_states _ _ _ _ _ _ _ Hinv). auto.
    - intros x Hx. apply st_len. pose proof (rs_states _ _ _ _ _ HL x Hx) as K. apply filter_In in K. apply K.
    - apply (p_nd F r N aff A0 d A U Hinv En Ex0 L HL Hdis).
    - apply (iv_closed _ _ _ _ _ _ _ Hinv).
    - intros x t Hx Ht. destruct (rs_closed _ _ _ _ _ HL x t Hx Ht) as (y & Hy & <-). apply in_ids. auto.
    - intros x Hx. pose proof (proj1 (iv_order _ _ _ _ _ _ _ Hinv) x Hx). lia.
    - apply (rs_mode _ _ _ _ _ HL).
    - intros x Hx. apply HEx in Hx. tauto.
    - apply (p_inv F r N aff A0 HNlen st_len d A U Hinv HU Hhit En Ex0 L B Hscan HL Hini Hdis mE mm M i rr Hvw).
  Qed.
  Lemma nodes_at_ok : forall A l U, nodes_at A l = Ok U -> NoDup (ids A) -> forall x, In x U <-> In x A /\ In (aid x) l.
  Proof.
    intros A. induction l as [|a l IH]; intros U H Hnd x; cbn in H.
    - injection H as <-. cbn. tauto.
    - destruct (deref A a) as [y|] eqn:E; [|discriminate]. destruct (nodes_at A l) as [U'| |]; cbn [bind] in H; try discriminate.
      injection H as <-. apply deref_In in E. destruct E as (Hy & Ey). cbn. rewrite (IH U' eq_refl Hnd x). split.
      + intros [<-|(K1 & K2)]; auto.
      + intros (K1 & [K2|K2]); auto. left. apply (node_unique A); auto. congruence.
  Qed.
  Lemma affected_in_In : forall d a, In a (affected_in aff d) <-> In (d, a) aff.
  Proof.
    intros d a. unfold affected_in. rewrite in_map_iff. split.
    - intros ((h & b) & E & H). apply filter_In in H. destruct H as (H & E'). cbn in *. apply Z.eqb_eq in E'. subst. auto.
    - intros H. exists (d, a). split; auto. apply filter_In. split; auto. cbn. apply Z.eqb_refl.
  Qed.
  Lemma modes_ok : forall c d A fuel B, inv F r N aff A0 d A -> (0 <= d)%Z ->
    all_modes N c d ne ns orc alloc fuel et st eg NB A aff = Ok (Some B) -> inv F r N aff A0 (d + Z.of_nat c) B.
  Proof.
    induction c as [|c IH]; intros d A fuel B Hinv Hd H; cbn [all_modes] in H.
    - injection H as <-. replace (d + Z.of_nat 0)%Z with d by lia. auto.
    - replace (d + Z.of_nat (S c))%Z with (d + 1 + Z.of_nat c)%Z by lia.
      destruct (affected_in aff d) as [|a l] eqn:Ea.
      + apply (IH (d + 1)%Z A fuel B); auto; [|lia]. apply inv_skip; auto. intros (a & Ha). apply affected_in_In in Ha. rewrite Ea in Ha. destruct Ha.
      + destruct (nodes_at A (a :: l)) as [U| |] eqn:EU; cbn [bind] in H; try discriminate.
        destruct (localfixpoint _ _ _ _ _ _ _ _ _ _ _ _ _) as [[A'|]| |] eqn:EL; cbn [bind] in H; try discriminate.
        apply (IH (d + 1)%Z A' fuel B); auto; [|lia]. apply (one_mode d A U fuel); auto.
        * intros x. rewrite (nodes_at_ok A _ U EU (iv_ids _ _ _ _ _ _ _ Hinv) x). rewrite <- Ea, affected_in_In. split.
          -- intros (Hx & Ha). destruct (iv_aff _ _ _ _ _ _ _ Hinv d (aid x) Ha ltac:(lia)) as (y & Hy & Ey & Em & _).
             assert (y = x) by (apply (node_unique A); auto; apply (iv_ids _ _ _ _ _ _ _ Hinv)). subst y. rewrite Em. auto.
          -- intros (Hx & Em & Ha). rewrite Em in Ha. auto.
        * exists a. apply affected_in_In. rewrite Ea. left. auto.
  Qed.
End Core.
