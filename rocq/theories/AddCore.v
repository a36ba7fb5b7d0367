(** add_metric_sysgoal on the loaded strategy. *)
From Coq Require Import List ZArith Lia Bool Arith.
From Verif Require Import Base Game Bdd BGame Support SupportProofs EnumProofs Ops OpsProofs Strs Ptree Form Solve FSpec
  SolveProofs RealProofs Automaton AutProofs AutProofs2
  Synth SynthSets SynthSpec Reach ReachSpec ReachProofs Nonbool AutIO AutIOSpec AutIOProofs Hotswap HotSpec HotProofs HotForm HotSem HotCore
  Metric AddGoal AddSpec AddMerge AddView AddSem AddEnd AddOrder.
Import ListNotations.
Open Scope nat_scope.

Lemma fresh_BDD : forall ne ns orc alloc (P : nat -> Prop) fuel en ex et st egs N A, (forall t A, P (alloc t A)) ->
  synthesize_reachgame_BDD ne ns orc alloc fuel en ex et st egs N = Ok A -> forall x, In x A -> P (aid x).
Proof.
  intros ne ns orc alloc P fuel en ex et st egs N A HP H. unfold synthesize_reachgame_BDD in H.
  destruct (reach_levels _ _ _ _ _ _ _ _ _) as [[L|]| |]; cbn [bind] in H; try discriminate; [|injection H as <-; intros x []].
  destruct (completions_of _ _ _ _ _) as [l| |]; cbn [bind] in H; try discriminate.
  destruct (rinsert alloc (rev l) [] 1) as (A0, t) eqn:Er.
  destruct (rmain _ _ _ _ _ _ _ _ _ _) as [[A1|]| |] eqn:Em; cbn [bind] in H; try discriminate; injection H as <-; [|intros x []].
  eapply fresh_main; eauto. cbn. replace A0 with (fst (rinsert alloc (rev l) [] 1)) by (rewrite Er; auto).
  apply fresh_rinsert; auto. intros x [].
Qed.
Lemma states_at_dom : forall A l ss, states_at A l = Ok ss -> forall a, In a l -> In a (ids A).
Proof.
  intros A. induction l as [|b l IH]; intros ss H a Ha; [destruct Ha|]. cbn [states_at] in H.
  destruct (deref A b) as [x|] eqn:Ex; [|discriminate]. destruct (states_at A l) as [ss'| |]; try discriminate.
  destruct Ha as [<-|Ha]; [|eapply IH; eauto]. apply deref_In in Ex. destruct Ex as (Hx & <-). apply in_ids. auto.
Qed.
Lemma sub_nodup : forall (A : aut) f, NoDup (ids A) -> NoDup (map aid (filter f A)).
Proof. intros A f H. change (NoDup (ids (filter f A))). apply nodup_filter_ids. auto. Qed.

Section Core.
  Variable F : fspec.
  Hypothesis Hbool : all_boolean F.
  Let ne := length (fs_evars F).
  Let ns := length (fs_svars F).
  Let n := ne + ns.
  Let m := 2 * (ne + ns).
  Let k := length (fs_sgoals F).
  Let noenv := match fs_evars F with [] => true | _ => false end.
  Variables (orc : oracle) (alloc : nat -> aut -> nat).
  Hypothesis Htools : tools_ok F orc alloc.
  Variables (et st : dt) (eg : list dt).
  Hypothesis Hnp : no_primed_sys ne ns et.
  Hypothesis Hgeg : Forall (Good ne ns) eg.
  Hypothesis Hete : forall s e w, bitvec n s -> bitvec ne e -> bitvec ns w -> ev et (s ++ e ++ w) = g_etr (game_of F) s e.
  Hypothesis Hste : forall s s', bitvec n s -> bitvec n s' -> ev st (s ++ s') = g_str (game_of F) s s'.
  Hypothesis Hege : Forall2 (fun f d => forall s, bitvec n s -> evS n d s = holds F f s) (egoals1 F) eg.
  (** the component strategies *)
  Lemma component : forall (X : aut) fuel En Ex S (en ex : vec -> bool), Good ne ns En -> Good ne ns Ex ->
    (forall s, bitvec n s -> evS n En s = en s) -> (forall s, bitvec n s -> evS n Ex s = ex s) ->
    synthesize_reachgame_BDD ne ns orc (fun t S => alloc t (S ++ X)) fuel En Ex et st eg (bOne m) = Ok S -> S <> [] ->
    reach_strategy (game_of F) ex en noenv S /\
    (forall s, In s S -> ainit s = false) /\ (forall a, In a (ids X) -> ~ In a (ids S)).
  Proof.
    intros X fuel En Ex S en ex HgEn HgEx Hen Hex H HS. destruct (good_One ne ns) as (HgO & HeO).
    set (al := fun t S => alloc t (S ++ X)) in *.
    assert (al_fresh : forall t S, ~ In (al t S) (ids S)).
    { intros t S' K. apply (proj2 Htools t (S' ++ X)). unfold ids in *. rewrite map_app. apply in_or_app. auto. }
    assert (al_other : forall t S, ~ In (al t S) (ids X)).
    { intros t S' K. apply (proj2 Htools t (S' ++ X)). unfold ids in *. rewrite map_app. apply in_or_app. auto. }
    destruct (top_sound ne ns orc al (proj1 Htools) al_fresh En Ex (bOne m) et st eg [] Hnp HgEn HgEx HgO Hgeg
      (fun s Hs _ => HeO s Hs) fuel S H HS) as (Hrs & _).
    split; [|split].
    - assert (Eb : (ne =? 0) = noenv) by (unfold ne, noenv; destruct (fs_evars F); auto). rewrite Eb in Hrs.
      refine (reach_strategy_ext _ _ _ _ _ _ _ _ _ _ _ _ _ _ _ _ _ Hrs); auto.
      + eapply gst; eauto.
      + apply gen; auto.
      + eapply get; eauto.
      + eapply gsr; eauto.
      + intros p Hp. eapply (gio F Hbool et st eg []); eauto.
      + intros s Hs. symmetry. apply Hex. eapply gst_bits; eauto.
      + intros s Hs. symmetry. apply Hen. eapply gst_bits; eauto.
      + intros s Hs. eapply gge; eauto.
    - apply (top_noinit ne ns orc al (proj1 Htools) al_fresh En Ex (bOne m) et st eg [] Hnp HgEn HgEx HgO Hgeg
        (fun s Hs _ => HeO s Hs) fuel S H).
    - intros a Ha Hs. apply in_map_iff in Hs. destruct Hs as (s & <- & Hs).
      apply (fresh_BDD ne ns orc al (fun a => ~ In a (ids X)) fuel En Ex et st eg (bOne m) S al_other H s Hs). auto.
  Qed.

  Variables (g : form) (gd : dt).
  Hypothesis Hgd : Good ne ns gd.
  Hypothesis Hgde : forall s, bitvec n s -> evS n gd s = holds F g s.
  Variable i0 : nat.
  Hypothesis Hi0 : i0 < k.
  Hypothesis Hk2 : 2 <= k.
  Let i1 := after F i0.
  Variable A : aut.
  Hypothesis Hco : correct F A.
  Let kz := Z.of_nat k.
  Let iz := Z.of_nat i0.
  Lemma istar1_eq : istar1 kz iz = Z.of_nat i1.
  Proof.
    unfold istar1, kz, iz, i1. rewrite i1_val by auto. fold k.
    destruct (Nat.eqb_spec (S i0) k); destruct (Z.eqb_spec (Z.of_nat i0) (Z.of_nat k - 1)); lia.
  Qed.
  Let Gi0 := passing iz A.
  Let Gi1 := passing (Z.of_nat i1) A.
  (** what a strategy that is returned is made of *)
  Record parts (g0 nr g1 : list vec) (C1 C2 A1 HH B : aut) (M1 N2 N3 : mpairs) : Prop := {
    pa_nd1 : NoDup (ids (A ++ map (set_mode (kz + 1)) C1));
    pa_nd2 : NoDup (ids (A1 ++ C2));
    pa_m1 : merged (A ++ map (set_mode (kz + 1)) C1) M1 A1;
    pa_m2 : merged (A1 ++ C2) (N3 ++ N2) HH;
    pa_f1 : forall a, In a (map fst M1) <-> In a Gi0;
    pa_s1 : forall a, In a (map snd M1) -> In a (ids C1);
    pa_nr : forall a, In a (map aid (filter no_trans C1)) -> In a (ids A1);
    pa_f2 : forall a, In a (map fst N2) <-> In a (map aid (filter no_trans C1));
    pa_s2 : forall a, In a (map snd N2) -> In a (ids C2);
    pa_n3 : forall a b, In (a, b) N3 -> In a (ids C2) /\ ~ In a (map snd N2) /\ In b Gi1 /\
      exists x, In x (A1 ++ C2) /\ aid x = a /\ atrans x = [];
    pa_n3' : forall x, In x C2 -> ~ In (aid x) (map snd N2) -> atrans x = [] -> In (aid x) (map fst N3);
    pa_mode : forall x, In x C2 -> amode x = (-1)%Z;
    pa_i1 : forall x, In x C1 -> ainit x = false;
    pa_i2 : forall x, In x C2 -> ainit x = false;
    pa_c1 : reach_strategy (game_of F) (holds F g) (among g0) noenv C1;
    pa_c2 : reach_strategy (game_of F) (among g1) (among nr) noenv C2;
    pa_g0 : forall s, In s g0 -> exists x, In x A /\ astate x = s;
    pa_r : forall s, In s nr -> exists x, In x (A ++ C1) /\ astate x = s;
    pa_g1 : forall s, In s g1 -> exists x, In x A /\ In (aid x) Gi1 /\ astate x = s;
    pa_end : exists fuel U B0, forward_prune fuel HH U = Ok B0 /\ B = update_labels kz iz B0
  }.
  Lemma passing_ids : forall mm a, In a (passing mm A) -> In a (ids A).
  Proof. intros mm a Ha. apply in_map_iff in Ha. destruct Ha as (x & <- & Hx). apply filter_In in Hx. apply in_ids. tauto. Qed.
  Lemma core_split : forall fuel raw B, add_core kz iz ne ns orc alloc et st eg gd fuel raw A = Ok B -> B <> [] ->
    exists g0 nr g1 C1 C2 A1 HH M1 N2 N3, parts g0 nr g1 C1 C2 A1 HH B M1 N2 N3.
  Proof.
    intros fuel raw B H HB. unfold add_core in H. rewrite istar1_eq in H.
    fold Gi0 Gi1 in H.
    assert (Hgive : give_up raw = Ok B -> False) by (unfold give_up; destruct raw; [intros K; injection K as <-; congruence|discriminate]).
    destruct (states_at A Gi0) as [g0| |] eqn:Eg0; cbn [bind] in H; try discriminate.
    change (2 * (ne + ns)) with m in H.
    destruct (synthesize_reachgame_BDD ne ns orc _ fuel (states_BDD ne ns g0) gd et st eg (bOne m)) as [C1| |] eqn:E1; cbn [bind] in H; try discriminate.
    destruct C1 as [|c0 C1']; [destruct (Hgive H)|]. set (C1 := c0 :: C1') in *.
    pose proof (co_ids _ _ Hco) as HndA.
    assert (Hbits : forall x, In x A -> bitvec n (astate x)) by (intros x Hx; apply (SynthSpec.st_bits F Hbool); apply (co_states _ _ Hco); auto).
    pose proof (states_at_ok A HndA _ _ Eg0) as Hg0.
    assert (Hbg0 : Forall (bitvec n) g0).
    { apply Forall_forall. intros s Hs. apply Hg0 in Hs. destruct Hs as (x & Hx & _ & <-). auto. }
    destruct (states_good ne ns g0 Hbg0) as (Hgg0 & Heg0).
    destruct (component A fuel _ gd C1 (among g0) (holds F g) Hgg0 Hgd Heg0 Hgde E1) as (HC1 & Hin1 & Hdis1); [discriminate|].
    set (C1m := map (set_mode (kz + 1)) C1) in *.
    assert (Hid1 : ids C1m = ids C1) by (apply ids_map; auto).
    destruct (connect_new kz raw Gi0 Gi0 A C1m []) as [o| |] eqn:Ecn; cbn [bind] in H; try discriminate.
    destruct o as [((A1', C1'') & succ)|]; [|destruct (Hgive H)].
    set (H01 := A ++ C1m) in *.
    assert (Hnd1 : NoDup (ids H01)).
    { apply nodup_app_i; auto; [rewrite Hid1; apply HC1|]. intros a Ha. rewrite Hid1. auto. }
    assert (Hlen1 : forall x, In x H01 -> length (astate x) = n).
    { intros x Hx. apply in_app_or in Hx. destruct Hx as [Hx|Hx]; [apply (Hbits x Hx)|]. unfold C1m in Hx. apply in_map_iff in Hx.
      destruct Hx as (c & <- & Hc). cbn. pose proof (rs_states _ _ _ _ _ HC1 c Hc) as K. apply (SynthSpec.st_bits F Hbool) in K. apply K. }
    assert (HGn : forall mm, NoDup (passing mm A)) by (intros mm; apply sub_nodup; auto).
    assert (Hmo1 : moded (kz + 1) C1m) by (intros x Hx; apply in_map_iff in Hx; destruct Hx as (c & <- & _); reflexivity).
    destruct (connect_new_ok n H01 Hlen1 kz raw Gi0 Gi0 [] A C1m [] A1' C1'' succ Ecn (merged_nil _ Hnd1) Hmo1
      (HGn _) (fun a _ K => K) (fun c K => match K with end)) as (M1 & (HM1 & HiA & HiC & N1 & EN1 & HN1f & HN1s) & Hraw).
    rewrite app_nil_r in EN1. subst N1. rewrite Hid1 in HN1s, HiC.
    set (A1 := A1' ++ C1'') in *. set (NR := map aid (filter no_trans C1)) in *.
    destruct (states_at A1 NR) as [nr| |] eqn:Enr; cbn [bind] in H; try discriminate.
    destruct (states_at A1 Gi1) as [g1| |] eqn:Eg1; cbn [bind] in H; try discriminate.
    destruct (synthesize_reachgame ne ns orc _ fuel nr g1 et st eg (bOne m)) as [C2| |] eqn:E2; cbn [bind] in H; try discriminate.
    destruct C2 as [|d0 C2']; [destruct (Hgive H)|]. set (C2 := d0 :: C2') in *.
    pose proof (me_ids _ _ _ HM1) as HndA1.
    assert (HlA1 : forall x, In x A1 -> bitvec n (astate x)).
    { intros x Hx. destruct (me_node _ _ _ HM1 x Hx) as (z0 & _ & Hz0 & _ & _ & -> & _). apply in_app_or in Hz0.
      destruct Hz0 as [Hz0|Hz0]; [auto|]. unfold C1m in Hz0. apply in_map_iff in Hz0.
      destruct Hz0 as (c & <- & Hc). cbn. apply (SynthSpec.st_bits F Hbool). apply (rs_states _ _ _ _ _ HC1 c Hc). }
    pose proof (states_at_ok A1 HndA1 _ _ Enr) as Hnr. pose proof (states_at_ok A1 HndA1 _ _ Eg1) as Hg1.
    assert (Hbnr : Forall (bitvec n) nr).
    { apply Forall_forall. intros s Hs. apply Hnr in Hs. destruct Hs as (x & Hx & _ & <-). auto. }
    assert (Hbg1 : Forall (bitvec n) g1).
    { apply Forall_forall. intros s Hs. apply Hg1 in Hs. destruct Hs as (x & Hx & _ & <-). auto. }
    unfold synthesize_reachgame in E2.
    destruct (states_good ne ns nr Hbnr) as (Hgnr & Henr). destruct (states_good ne ns g1 Hbg1) as (Hgg1 & Heg1).
    destruct (component A1 fuel _ _ C2 (among nr) (among g1) Hgnr Hgg1 Henr Heg1 E2) as (HC2 & Hin2 & Hdis2); [discriminate|].
    set (H02 := A1 ++ C2) in *.
    assert (Hnd2 : NoDup (ids H02)) by (apply nodup_app_i; auto; apply HC2).
    assert (Hlen2 : forall x, In x H02 -> length (astate x) = n).
    { intros x Hx. apply in_app_or in Hx. destruct Hx as [Hx|Hx]; [apply (HlA1 x Hx)|].
      pose proof (rs_states _ _ _ _ _ HC2 x Hx) as K. apply (SynthSpec.st_bits F Hbool) in K. apply K. }
    destruct (connect_reached NR A1 C2) as [o| |] eqn:Ecr; cbn [bind] in H; try discriminate.
    destruct o as [(A2, C2'')|]; [|destruct (Hgive H)].
    assert (HndNR : NoDup NR) by (apply sub_nodup; apply HC1).
    destruct (connect_reached_ok n H02 Hlen2 NR [] A1 C2 A2 C2'' Ecr (merged_nil _ Hnd2) (rs_mode _ _ _ _ _ HC2) HndNR
      (fun a _ K => K) (fun c K => match K with end)) as (N2 & (HM2 & HiA2 & HiC2 & N2' & EN2 & HN2f & HN2s)).
    rewrite app_nil_r in EN2. subst N2'.
    destruct (connect_back (map aid C2'') Gi1 raw A2 C2'') as [o| |] eqn:Ecb; cbn [bind] in H; try discriminate.
    destruct o as [((A3, C3) & raw')|]; [|destruct (Hgive H)].
    assert (HNRd : forall a, In a NR -> In a (ids A1)) by (apply (states_at_dom _ _ _ Enr)).
    assert (HG1d : forall a, In a Gi1 -> In a (ids A1)) by (apply (states_at_dom _ _ _ Eg1)).
    assert (HdC2 : forall a, In a (ids A1) -> In a (ids C2) -> False) by (intros a K1 K2; apply (Hdis2 a); auto).
    destruct (connect_back_ok n H02 Hnd2 Hlen2 (map aid C2'') Gi1 raw N2 A2 C2'' A3 C3 raw' Ecb HM2) as (M2 & N3 & HM & EM2 & HiC3 & HN3 & HN3' & _).
    { apply (nodup_app_r A2 C2''). apply HM2. }
    { intros b Hb. split; auto. intros K. apply HN2f in K. apply (HdC2 b); auto. apply HiC2 in Hb. tauto. }
    { intros a Ha K. apply HN2f in K. apply passing_ids in Ha. apply (Hdis1 a Ha).
      unfold NR in K. apply in_map_iff in K. destruct K as (c & <- & Hc). apply filter_In in Hc. apply in_ids. tauto. }
    { intros a Ha K. apply HiC2 in K. apply (HdC2 a); auto. tauto. }
    subst M2.
    destruct A3 as [|a3 A3']; [discriminate|]. set (A3 := a3 :: A3') in *.
    destruct (forward_prune (S (length (A3 ++ C3))) (A3 ++ C3) (map Some succ)) as [B0| |] eqn:Efp; cbn [bind] in H; try discriminate.
    destruct (existsb _ raw'); [discriminate|]. injection H as <-.
    exists g0, nr, g1, C1, C2, A1, (A3 ++ C3), M1, N2, N3. constructor; auto.
    - intros a b Hi. destruct (HN3 a b Hi) as (K1 & K2 & K3). apply HiC2 in K1. tauto.
    - intros x Hx Hn Et. apply (HN3' (aid x) x); auto; [|apply in_or_app; auto]. apply HiC2. split; auto. apply in_ids. auto.
    - apply HC2.
    - intros s Hs. apply Hg0 in Hs. destruct Hs as (x & Hx & _ & <-). eauto.
    - intros s Hs. apply Hnr in Hs. destruct Hs as (x & Hx & _ & <-).
      destruct (me_node _ _ _ HM1 x Hx) as (z0 & _ & Hz0 & _ & _ & -> & _). apply in_app_or in Hz0.
      destruct Hz0 as [Hz0|Hz0]; [exists z0; split; auto; apply in_or_app; auto|]. unfold C1m in Hz0. apply in_map_iff in Hz0.
      destruct Hz0 as (c & <- & Hc). exists c. split; auto. apply in_or_app; auto.
    - intros s Hs. apply Hg1 in Hs. destruct Hs as (x & Hx & Hi & <-).
      destruct (me_node _ _ _ HM1 x Hx) as (z0 & _ & Hz0 & E0 & _ & Es0 & _). exists z0. rewrite E0, Es0. split; auto.
      apply in_app_or in Hz0. destruct Hz0 as [Hz0|Hz0]; auto. exfalso. apply (Hdis1 (aid x)); [eapply passing_ids; eauto|].
      rewrite <- Hid1, <- E0. apply in_ids. auto.
    - eauto.
  Qed.
  (** no node entered by a transition that passes goal [i0] satisfies the new goal *)
  Lemma core_entry : forall fuel raw B, add_core kz iz ne ns orc alloc et st eg gd fuel raw A = Ok B -> B <> [] ->
    forall y, In y A -> In (aid y) Gi0 -> holds F g (astate y) = false.
  Proof.
    intros fuel raw B H HB y Hy Hg. destruct (core_split fuel raw B H HB) as (g0 & nr & g1 & C1 & C2 & A1 & HH & M1 & N2 & N3 & P).
    destruct (view_entry A C1 C2 A1 HH (kz + 1) M1 N2 N3 Gi0 Gi1 (pa_nd1 _ _ _ _ _ _ _ _ _ _ _ P)
       (pa_nd2 _ _ _ _ _ _ _ _ _ _ _ P) (pa_m1 _ _ _ _ _ _ _ _ _ _ _ P) (pa_m2 _ _ _ _ _ _ _ _ _ _ _ P)
       (passing_ids _) (pa_f1 _ _ _ _ _ _ _ _ _ _ _ P) (pa_s1 _ _ _ _ _ _ _ _ _ _ _ P) (pa_nr _ _ _ _ _ _ _ _ _ _ _ P)
       (pa_f2 _ _ _ _ _ _ _ _ _ _ _ P) (pa_s2 _ _ _ _ _ _ _ _ _ _ _ P) (pa_n3 _ _ _ _ _ _ _ _ _ _ _ P)
       (pa_mode _ _ _ _ _ _ _ _ _ _ _ P) y Hy Hg) as (c & Hc & <- & Ht).
    apply (not_target1 F g (among g0) C1 (pa_c1 _ _ _ _ _ _ _ _ _ _ _ P) c Hc Ht).
  Qed.

  Hypothesis Hord : in_order F A.
  Hypothesis Hpro : proceeds F A.
  Hypothesis Hap : forall x, In x A -> sgoal F i0 (astate x) = true -> sgoal F i1 (astate x) = true -> False.
  Hypothesis Hna : forall x, In x A -> holds F g (astate x) = true -> sgoal F i1 (astate x) = true -> False.
  Lemma passing_after : forall j x, j < k -> In x A -> In (aid x) (passing (Z.of_nat j) A) -> comes_after F j A x.
  Proof.
    intros j x Hj Hx Hi. apply passing_In in Hi. destruct Hi as (u & y & Hu & Hy & E & Ht & Hp).
    assert (y = x) by (apply (node_unique A); auto; apply Hco). subst y. exists u. split; auto. split; auto.
    destruct (step_goals F i0 Hi0 Hk2 A Hord u x Hu Hx Ht) as (i & e & Hi & He & Ei & Ee & _). fold k in Hi, He.
    rewrite Ei, Ee in Hp. apply (passes_gap k) in Hp; auto.
    exists i, (gap k i e), (gap k i j). fold k. rewrite !gap_spec by lia. repeat (split; auto).
    all: try (apply gap_lt; lia).
    all: lia.
  Qed.
  Lemma core_ok : forall fuel raw B, add_core kz iz ne ns orc alloc et st eg gd fuel raw A = Ok B -> B <> [] ->
    correct (with_goal (S i0) g F) B /\ starts F i1 A B /\
    forall P : vec -> Prop, (forall x, In x A -> P (astate x)) -> closed_play F P ->
      (forall y, In y B -> P (astate y)) /\
      ((forall s, P s -> exists e, legal_env (game_of F) s e) ->
       in_order_but (with_goal (S i0) g F) (moved i0 i1) (S i0) B).
  Proof.
    intros fuel raw B H HB. destruct (core_split fuel raw B H HB) as (g0 & nr & g1 & C1 & C2 & A1 & HH & M1 & N2 & N3 & P).
    destruct P as [Hnd1 Hnd2 HM1 HM2 HM1f HM1s HNR HN2f HN2s HN3 HN3' HmC2 HiC1 HiC2 HC1 HC2 Hg0 Hnr Hg1 (fu & U & B0 & Efp & ->)].
    assert (HcA : forall x t, In x A -> In t (atrans x) -> exists y, In y A /\ aid y = t) by apply Hco.
    assert (HcC1 := rs_closed _ _ _ _ _ HC1). assert (HcC2 := rs_closed _ _ _ _ _ HC2).
    assert (HG01 : forall a, In a Gi0 -> In a Gi1 -> False).
    { intros a Ha Hb. pose proof (passing_ids _ _ Ha) as Hi. apply ids_in in Hi. destruct Hi as (y & Hy & <-).
      assert (Hl : i1 < k) by (apply i1_lt; auto).
      apply (Hap y); [auto| |].
      - apply (passing_goal F i0 Hi0 Hk2 A Hco Hord i0); auto.
      - apply (passing_goal F i0 Hi0 Hk2 A Hco Hord i1); auto. }
    assert (HG0 : forall a, In a Gi0 -> In a (ids A)) by apply passing_ids.
    assert (HG1 : forall a, In a Gi1 -> In a (ids A)) by apply passing_ids.
    set (rol := rolf A C1 C2 M1 N2 N3).
    assert (Hok : forall z, In z HH -> role_ok A C1 C2 (kz + 1) N3 Gi0 z (rol z)) by (apply (rolf_ok A C1 C2 A1 HH (kz + 1) M1 N2 N3 Gi0 Gi1); auto).
    assert (Hed : forall z t, In z HH -> In t (atrans z) -> exists w, In w HH /\ aid w = t /\ leads A C1 C2 Gi0 Gi1 (rol z) (rol w))
      by (apply (view_edge A C1 C2 A1 HH (kz + 1) M1 N2 N3 Gi0 Gi1); auto).
    assert (Han : forall z u, In z HH -> next_of A C1 C2 (rol z) u -> exists w, In w HH /\ In (aid w) (atrans z) /\ astate w = astate u)
      by (apply (view_answer A C1 C2 A1 HH (kz + 1) M1 N2 N3 Gi0 Gi1); auto).
    assert (Hen : forall z c, In z HH -> rol z = R2 c -> atrans c = [] -> exists c1, In c1 C1 /\ atrans c1 = [] /\ astate c1 = astate c)
      by (apply (view_end A C1 C2 A1 HH (kz + 1) M1 N2 N3 Gi0 Gi1); auto).
    pose proof (me_ids _ _ _ HM2) as HndH.
    assert (Hcl : closed HH).
    { intros z t Hz Ht. destruct (Hed z t Hz Ht) as (w & Hw & <- & _). apply in_ids. auto. }
    pose proof (prune_shrunk _ _ _ _ Efp HndH Hcl) as Hsh.
    assert (Hlab : update_labels kz iz B0 = map (fun x => set_mode (final_mode kz iz (istar1 kz iz) (amode x)) x) B0)
      by (apply labels_ok; unfold kz, iz; lia).
    split.
    - rewrite Hlab. apply map_correct; [intros x; cbn; auto|].
      apply (end_correct F g (S i0) HH); auto.
      + apply (H_states F g i0 A Hco g1 (among g0) (among nr) C1 C2 HH HC1 HC2 N3 rol Hok).
      + apply (H_safe F g i0 A Hco g1 (among g0) (among nr) C1 C2 HH HC1 HC2 N3 rol HndH Hok Hed).
      + apply (H_answer F g i0 Hi0 Hk2 A Hco Hord Hna g1 (among g0) (among nr) Hg1 C1 C2 HH HC1 HC2 N3 rol Hok Han Hen).
      + intros p Hp Hne Heg f [->|Hf] Hnot.
        * apply (meets_new F Hbool g i0 Hi0 Hk2 A Hco Hord Hpro g1 (among g0) (among nr) C1 C2 HH HC1 HC2 N3 rol HndH Hok Hed p Hp Hne Heg Hnot).
        * apply (In_nth _ _ FTrue) in Hf. destruct Hf as (j & Hj & <-). apply (meets_old F g i0 Hi0 Hk2 A Hco Hord Hpro Hap g1 (among g0) (among nr) C1 C2 HH HC1 HC2 N3 rol HndH Hok Hed p Hp Hne Heg j Hj Hnot).
    - rewrite Hlab. split; [split|].
      + intros y Hy Ey. apply in_map_iff in Hy. destruct Hy as (z & <- & Hz). cbn in *.
        destruct (view_init A C1 C2 A1 HH (kz + 1) M1 N2 N3 HM1 HM2 HiC1 HiC2 z (sh_in _ _ Hsh z Hz) Ey) as (x & Hx & Es & Ei). eauto.
      + intros x Hx Ex Hn. destruct (view_keep A C1 C2 A1 HH (kz + 1) M1 N2 N3 Gi0 Gi1 Hnd1 Hnd2 HM1 HM2 HM1f HM1s HN2f HN2s HN3 x Hx) as (z & Hz & Es & Ei & _).
        * intros Hi. apply Hn. apply passing_after; auto. apply i1_lt; auto.
        * eexists. split; [apply in_map; apply (sh_init _ _ Hsh z Hz); congruence|]. cbn. split; congruence.
      + intros P HPA HPc.
        assert (P1 : forall c, In c C1 -> P (astate c)).
        { apply (reach_closed F _ _ C1 P HC1); auto. intros s _ Hs. apply among_In, Hg0 in Hs. destruct Hs as (x & Hx & <-). auto. }
        assert (P2 : forall c, In c C2 -> P (astate c)).
        { apply (reach_closed F _ _ C2 P HC2); auto. intros s _ Hs. apply among_In, Hnr in Hs. destruct Hs as (x & Hx & <-).
          apply in_app_or in Hx. destruct Hx; auto. }
        split.
        * intros y Hy. apply in_map_iff in Hy. destruct Hy as (z & <- & Hz). cbn [astate set_mode].
          pose proof (Hok z (sh_in _ _ Hsh z Hz)) as K. destruct (rol z); destruct K as (K1 & _ & -> & _); auto.
        * intros Hmove. apply (order_ok F g i0 Hi0 Hk2 A Hco Hord Hap (among g0) C1 C2 HH HC1 (fun c Hc => Hmove _ (P1 c Hc)) N3 rol HndH Hok Hed). apply Hsh.
  Qed.
End Core.
