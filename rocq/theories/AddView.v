(** The automaton that the loops of add_metric_sysgoal put together: every node plays the
    part of a node of the old strategy or of one of the two components. *)
From Coq Require Import List ZArith Lia Bool Arith.
From Verif Require Import Base Bdd Support SupportProofs Ops Strs Ptree Solve Automaton AutProofs AutProofs2 Synth Reach Nonbool AutIO Hotswap HotProofs
  AddGoal AddMerge.
Import ListNotations.
Open Scope nat_scope.

Lemma merged_target : forall H0 M H u, merged H0 M H -> NoDup (ids H0) -> In u H0 ->
  exists w, In w H /\ aid w = fwd M (aid u) /\ astate w = astate u /\
    (bwd M (aid w) = aid u \/ In (aid u) (map fst M) /\ ~ In (aid u) (map snd M) /\ aid w = aid u).
Proof.
  intros H0 M H u HM Hnd Hu. destruct (fwd_cases M (aid u)) as [Hi|(Hi & E)].
  - assert (Hf : In (fwd M (aid u)) (map fst M)).
    { change (fwd M (aid u)) with (fst (fwd M (aid u), aid u)). apply in_map. auto. }
    assert (Hh : In (fwd M (aid u)) (ids H)) by (apply (me_dom _ _ _ HM); apply (me_apart _ _ _ HM); auto).
    apply ids_in in Hh. destruct Hh as (w & Hw & Ew). exists w. split; auto. split; auto.
    destruct (me_node _ _ _ HM w Hw) as (z0 & x & Hz0 & E0 & _ & Es0 & _).
    destruct (me_pair _ _ _ HM _ _ Hi) as (z1 & y & Hz1 & Hy & E1 & Ey & Es).
    assert (z1 = z0) by (apply (node_unique H0); auto; congruence). subst z1.
    assert (y = u) by (apply (node_unique H0); auto). subst y. split; [congruence|].
    left. rewrite Ew. apply bwd_in; auto. apply HM.
  - assert (Hh : In (aid u) (ids H)) by (apply (me_dom _ _ _ HM); split; auto; apply in_ids; auto).
    apply ids_in in Hh. destruct Hh as (w & Hw & Ew). exists w. split; auto. split; [congruence|].
    destruct (me_node _ _ _ HM w Hw) as (z0 & x & Hz0 & E0 & _ & Es0 & _).
    assert (z0 = u) by (apply (node_unique H0); auto; congruence). subst z0. split; [congruence|].
    rewrite Ew. destruct (bwd_cases M (aid u)) as [K|(_ & K)]; auto. right. split; auto.
    change (aid u) with (fst (aid u, bwd M (aid u))). apply in_map. auto.
Qed.

Inductive role := RA (x : anode) | R1 (c : anode) | R2 (c : anode).

Section View.
  Variables (A C1 C2 A1 H : aut) (m1 : Z) (M1 N2 N3 : mpairs) (Gi0 Gi1 : list nat).
  Let H01 := A ++ map (set_mode m1) C1.
  Let H02 := A1 ++ C2.
  Let M2 := N3 ++ N2.
  Let NR := map aid (filter no_trans C1).
  Hypothesis Hnd1 : NoDup (ids H01).
  Hypothesis Hnd2 : NoDup (ids H02).
  Hypothesis HM1 : merged H01 M1 A1.
  Hypothesis HM2 : merged H02 M2 H.
  Hypothesis HcA : forall x t, In x A -> In t (atrans x) -> exists y, In y A /\ aid y = t.
  Hypothesis HcC1 : forall x t, In x C1 -> In t (atrans x) -> exists y, In y C1 /\ aid y = t.
  Hypothesis HcC2 : forall x t, In x C2 -> In t (atrans x) -> exists y, In y C2 /\ aid y = t.
  Hypothesis HG0 : forall a, In a Gi0 -> In a (ids A).
  Hypothesis HG1 : forall a, In a Gi1 -> In a (ids A).
  Hypothesis HG01 : forall a, In a Gi0 -> In a Gi1 -> False.
  Hypothesis HM1f : forall a, In a (map fst M1) <-> In a Gi0.
  Hypothesis HM1s : forall a, In a (map snd M1) -> In a (ids C1).
  Hypothesis HNR : forall a, In a NR -> In a (ids A1).
  Hypothesis HN2f : forall a, In a (map fst N2) <-> In a NR.
  Hypothesis HN2s : forall a, In a (map snd N2) -> In a (ids C2).
  Hypothesis HN3 : forall a b, In (a, b) N3 -> In a (ids C2) /\ ~ In a (map snd N2) /\ In b Gi1 /\
    exists x, In x H02 /\ aid x = a /\ atrans x = [].
  Hypothesis HN3' : forall x, In x C2 -> ~ In (aid x) (map snd N2) -> atrans x = [] -> In (aid x) (map fst N3).
  Hypothesis HmC2 : forall x, In x C2 -> amode x = (-1)%Z.
  Hypothesis HiC1 : forall x, In x C1 -> ainit x = false.
  Hypothesis HiC2 : forall x, In x C2 -> ainit x = false.

  Lemma v_ids1 : ids (map (set_mode m1) C1) = ids C1.
  Proof. apply ids_map. auto. Qed.
  Lemma v_x1 : forall a, In a (ids A) -> In a (ids C1) -> False.
  Proof. intros a H1 H2. apply (nodup_app_x A (map (set_mode m1) C1) a); auto. rewrite v_ids1. auto. Qed.
  Lemma v_x2 : forall a, In a (ids A1) -> In a (ids C2) -> False.
  Proof. intros a H1 H2. apply (nodup_app_x A1 C2 a); auto. Qed.
  Lemma v_ndA : NoDup (ids A).
  Proof. apply (nodup_app_l A (map (set_mode m1) C1)). auto. Qed.
  Lemma v_ndC1 : NoDup (ids C1).
  Proof. rewrite <- v_ids1. apply (nodup_app_r A (map (set_mode m1) C1)). auto. Qed.
  Lemma v_ndA1 : NoDup (ids A1).
  Proof. apply HM1. Qed.
  Lemma v_ndC2 : NoDup (ids C2).
  Proof. apply (nodup_app_r A1 C2). auto. Qed.
  Lemma v_NR : forall a, In a NR <-> exists c, In c C1 /\ aid c = a /\ atrans c = [].
  Proof.
    intros a. unfold NR. rewrite in_map_iff. split.
    - intros (c & E & Hc). apply filter_In in Hc. destruct Hc as (Hc & K). apply no_trans_nil in K. eauto.
    - intros (c & Hc & E & K). exists c. split; auto. apply filter_In. split; auto. apply no_trans_nil. auto.
  Qed.
  Lemma v_NR_C1 : forall a, In a NR -> In a (ids C1).
  Proof. intros a Ha. apply v_NR in Ha. destruct Ha as (c & Hc & <- & _). apply in_ids. auto. Qed.
  (** the nodes of the first stage *)
  Lemma v_A_in : forall a, In a (ids A) -> In a (ids A1).
  Proof.
    intros a Ha. apply (me_dom _ _ _ HM1). split.
    - unfold H01, ids. rewrite map_app. apply in_or_app. auto.
    - intros K. apply HM1s in K. apply (v_x1 a); auto.
  Qed.
  Lemma v_H01 : forall x, In x H01 -> In x A \/ exists c, In c C1 /\ x = set_mode m1 c.
  Proof. intros x Hx. apply in_app_or in Hx. destruct Hx as [Hx|Hx]; auto. apply in_map_iff in Hx. destruct Hx as (c & <- & Hc). eauto. Qed.
  Lemma v_M2f : forall a, In a (map fst M2) <-> In a (map fst N3) \/ In a NR.
  Proof. intros a. unfold M2. rewrite map_app, in_app_iff, HN2f. tauto. Qed.
  Lemma v_N3f : forall a, In a (map fst N3) -> In a (ids C2) /\ ~ In a (map snd N2).
  Proof. intros a Ha. apply in_map_iff in Ha. destruct Ha as ((a', b) & E & Hi). cbn in E. subst a'. apply HN3 in Hi. tauto. Qed.
  Lemma v_M2s : forall a, In a (map snd M2) <-> In a (map snd N3) \/ In a (map snd N2).
  Proof. intros a. unfold M2. rewrite map_app, in_app_iff. tauto. Qed.
  Lemma v_N3s : forall a, In a (map snd N3) -> In a Gi1.
  Proof. intros a Ha. apply in_map_iff in Ha. destruct Ha as ((a', b) & E & Hi). cbn in E. subst a. apply HN3 in Hi. tauto. Qed.

  Definition r1of (b : nat) : role :=
    match deref C1 (bwd M1 b) with
    | Some c => R1 c
    | None => match deref A (bwd M1 b) with Some x => RA x | None => RA (Node b false [] 0 0 []) end
    end.
  Definition rolf (z : anode) : role :=
    match deref C2 (bwd M2 (aid z)) with Some c => R2 c | None => r1of (bwd M2 (aid z)) end.

  Definition role_ok (z : anode) (r : role) : Prop :=
    match r with
    | RA x => In x A /\ ~ In (aid x) Gi0 /\ astate z = astate x /\ amode z = amode x
    | R1 c => In c C1 /\ atrans c <> [] /\ astate z = astate c /\ amode z = m1
    | R2 c => In c C2 /\ ~ In (aid c) (map fst N3) /\ astate z = astate c /\ amode z = (-1)%Z
    end.
  Lemma r1of_ok : forall x2, In x2 A1 -> ~ In (aid x2) NR -> role_ok x2 (r1of (aid x2)).
  Proof.
    intros x2 H2 Hn. destruct (me_node _ _ _ HM1 x2 H2) as (z0 & x & _ & _ & _ & _ & Hx & Ex & Es & Em & _).
    unfold r1of. rewrite <- Ex. destruct (v_H01 x Hx) as [HxA|(c & Hc & ->)].
    - replace (deref C1 (aid x)) with (@None anode).
      2:{ symmetry. apply deref_None. intros K. apply (v_x1 (aid x)); auto. apply in_ids. auto. }
      rewrite deref_unique by auto using v_ndA. cbn. split; auto. split; [|auto]. intros Hg.
      destruct (bwd_cases M1 (aid x2)) as [K|(K1 & K2)].
      + rewrite <- Ex in K. apply (v_x1 (aid x)); [apply in_ids; auto|]. apply HM1s. change (aid x) with (snd (aid x2, aid x)).
        apply in_map. auto.
      + apply K1. apply HM1f. rewrite <- K2, <- Ex. auto.
    - cbn [aid set_mode] in *. rewrite deref_unique by auto using v_ndC1. cbn. split; auto. split; [|auto]. intros Et.
      assert (Hnr : In (aid c) NR) by (apply v_NR; eauto).
      destruct (bwd_cases M1 (aid x2)) as [K|(K1 & K2)].
      + rewrite <- Ex in K. apply HNR in Hnr. apply (me_dom _ _ _ HM1) in Hnr. apply Hnr. change (aid c) with (snd (aid x2, aid c)).
        apply in_map. auto.
      + apply Hn. rewrite <- K2, <- Ex. auto.
  Qed.
  Lemma x2_not_NR : forall z x2, In z H -> In x2 A1 -> aid x2 = bwd M2 (aid z) -> ~ In (aid x2) NR.
  Proof.
    intros z x2 Hz H2 E Hn. destruct (bwd_cases M2 (aid z)) as [K|(K1 & K2)].
    - rewrite <- E in K. unfold M2 in K. apply in_app_or in K. destruct K as [K|K].
      + apply HN3 in K. apply (v_x1 (aid x2)); [apply HG1; tauto|apply v_NR_C1; auto].
      + apply (v_x2 (aid x2)); [apply in_ids; auto|]. apply HN2s. change (aid x2) with (snd (aid z, aid x2)). apply in_map. auto.
    - apply K1. apply v_M2f. right. rewrite <- K2, <- E. auto.
  Qed.
  Lemma rolf_ok : forall z, In z H -> role_ok z (rolf z).
  Proof.
    intros z Hz. destruct (me_node _ _ _ HM2 z Hz) as (z0 & x2 & _ & _ & _ & _ & Hx & Ex & Es & Em & _).
    unfold rolf. rewrite <- Ex. apply in_app_or in Hx. destruct Hx as [Hx|Hx].
    - replace (deref C2 (aid x2)) with (@None anode).
      2:{ symmetry. apply deref_None. intros K. apply (v_x2 (aid x2)); auto. apply in_ids. auto. }
      pose proof (r1of_ok x2 Hx (x2_not_NR z x2 Hz Hx Ex)) as K. destruct (r1of (aid x2)) eqn:Er; cbn in *.
      + destruct K as (K1 & K2 & K3 & K4). repeat split; auto; congruence.
      + destruct K as (K1 & K2 & K3 & K4). repeat split; auto; congruence.
      + exfalso. unfold r1of in Er. destruct (deref C1 _); [discriminate|]. destruct (deref A _); discriminate.
    - rewrite deref_unique by auto using v_ndC2. cbn. split; auto. split; [|split; [congruence|rewrite Em; auto]]. intros K.
      destruct (v_N3f _ K) as (K1 & K2). destruct (bwd_cases M2 (aid z)) as [L|(L1 & L2)].
      + rewrite <- Ex in L. unfold M2 in L. apply in_app_or in L. destruct L as [L|L].
        * apply HN3 in L. apply (v_x2 (aid x2)); auto. apply v_A_in. apply HG1. tauto.
        * apply K2. change (aid x2) with (snd (aid z, aid x2)). apply in_map. auto.
      + apply L1. apply v_M2f. left. rewrite <- L2, <- Ex. auto.
  Qed.

  (** ** Transitions *)
  Definition leads (r r' : role) : Prop :=
    match r, r' with
    | RA x, RA u => In (aid u) (atrans x)
    | RA x, R1 c => exists g, In g A /\ In (aid g) Gi0 /\ In (aid g) (atrans x) /\ astate g = astate c
    | R1 c, R1 c' => In (aid c') (atrans c)
    | R1 c, R2 d => exists c', In c' C1 /\ In (aid c') (atrans c) /\ atrans c' = [] /\ astate c' = astate d
    | R2 c, R2 c' => In (aid c') (atrans c)
    | R2 c, RA g => In (aid g) Gi1 /\ exists c', In c' C2 /\ In (aid c') (atrans c) /\ astate c' = astate g
    | _, _ => False
    end.
  (** what becomes of the transitions of the three automata *)
  Lemma r1of_A : forall x, In x A -> ~ In (aid x) Gi0 -> r1of (aid x) = RA x.
  Proof.
    intros x Hx Hn. unfold r1of. rewrite bwd_out by (rewrite HM1f; auto).
    replace (deref C1 (aid x)) with (@None anode).
    2:{ symmetry. apply deref_None. intros K. apply (v_x1 (aid x)); auto. apply in_ids. auto. }
    rewrite deref_unique by auto using v_ndA. reflexivity.
  Qed.
  Lemma to_A : forall u, In u A -> exists w, In w H /\ aid w = fwd M2 (fwd M1 (aid u)) /\ astate w = astate u /\
    (~ In (aid u) Gi0 /\ rolf w = RA u \/ In (aid u) Gi0 /\ exists c, rolf w = R1 c /\ astate c = astate u).
  Proof.
    intros u Hu. assert (Hu1 : In u H01) by (apply in_or_app; auto).
    assert (E1 : fwd M1 (aid u) = aid u).
    { apply fwd_out. intros K. apply HM1s in K. apply (v_x1 (aid u)); auto. apply in_ids. auto. }
    destruct (merged_target _ _ _ u HM1 Hnd1 Hu1) as (v & Hv & Ev & Esv & Hrv). rewrite E1 in *.
    assert (Hv2 : In v H02) by (apply in_or_app; auto).
    destruct (merged_target _ _ _ v HM2 Hnd2 Hv2) as (w & Hw & Ew & Esw & Hrw). rewrite Ev in Ew.
    exists w. split; auto. split; auto. split; [congruence|].
    assert (Hb : bwd M2 (aid w) = aid u).
    { destruct Hrw as [K|(K & _)]; [congruence|]. exfalso. apply v_M2f in K. rewrite Ev in K. destruct K as [K|K].
      - apply v_N3f in K. apply (v_x2 (aid u)); [rewrite <- Ev; apply in_ids; auto|tauto].
      - apply (v_x1 (aid u)); [apply in_ids; auto|apply v_NR_C1; auto]. }
    assert (Hd : deref C2 (aid u) = None).
    { apply deref_None. intros K. apply (v_x2 (aid u)); auto. rewrite <- Ev. apply in_ids. auto. }
    destruct (in_dec Nat.eq_dec (aid u) Gi0) as [Hg|Hg].
    - right. split; auto. pose proof (rolf_ok w Hw) as Hok. unfold rolf in *. rewrite Hb, Hd in *. unfold r1of in *.
      destruct (bwd_cases M1 (aid u)) as [K|(K1 & _)]; [|exfalso; apply K1; apply HM1f; auto].
      assert (Hc : In (bwd M1 (aid u)) (ids C1)).
      { apply HM1s. change (bwd M1 (aid u)) with (snd (aid u, bwd M1 (aid u))). apply in_map. auto. }
      destruct (deref_Some _ _ Hc) as (c & Ec). rewrite Ec in *. exists c. split; auto. cbn in Hok. destruct Hok as (_ & _ & Es & _). congruence.
    - left. split; auto. unfold rolf. rewrite Hb, Hd. apply r1of_A; auto.
  Qed.
  Lemma to_C1 : forall c, In c C1 -> exists w, In w H /\ aid w = fwd M2 (fwd M1 (aid c)) /\ astate w = astate c /\
    (atrans c <> [] /\ rolf w = R1 c \/ atrans c = [] /\ exists d, rolf w = R2 d /\ astate d = astate c).
  Proof.
    intros c Hc. assert (Hc1 : In (set_mode m1 c) H01) by (apply in_or_app; right; apply in_map; auto).
    destruct (merged_target _ _ _ _ HM1 Hnd1 Hc1) as (v & Hv & Ev & Esv & Hrv). cbn [aid astate set_mode] in *.
    assert (Hb1 : bwd M1 (aid v) = aid c).
    { destruct Hrv as [K|(K & _)]; auto. exfalso. apply HM1f in K. apply (v_x1 (aid c)); [auto|apply in_ids; auto]. }
    assert (Hv2 : In v H02) by (apply in_or_app; auto).
    destruct (merged_target _ _ _ v HM2 Hnd2 Hv2) as (w & Hw & Ew & Esw & Hrw). rewrite Ev in Ew.
    exists w. split; auto. split; auto. split; [congruence|].
    assert (Hvc : In (aid v, aid c) M1 \/ aid v = aid c).
    { destruct (bwd_cases M1 (aid v)) as [K|(_ & K)]; [rewrite Hb1 in K; auto|right; congruence]. }
    assert (Hvs : fwd M2 (aid v) = aid v).
    { apply fwd_out. intros K. apply v_M2s in K. destruct K as [K|K].
      - apply v_N3s in K. destruct Hvc as [L|L].
        + apply (HG01 (aid v)); auto. apply HM1f. change (aid v) with (fst (aid v, aid c)). apply in_map. auto.
        + apply (v_x1 (aid v)); [auto|rewrite L; apply in_ids; auto].
      - apply (v_x2 (aid v)); [apply in_ids; auto|auto]. }
    rewrite <- Ev, Hvs in Ew.
    destruct (atrans c) as [|t l] eqn:Et.
    - right. split; auto. assert (Hnr : In (aid c) NR) by (apply v_NR; eauto).
      assert (Evc : aid v = aid c).
      { destruct Hvc as [L|L]; auto. exfalso. apply HNR in Hnr. apply (me_dom _ _ _ HM1) in Hnr. apply Hnr.
        change (aid c) with (snd (aid v, aid c)). apply in_map. auto. }
      destruct (bwd_cases M2 (aid w)) as [K|(K & _)].
      2:{ exfalso. apply K. apply v_M2f. right. congruence. }
      unfold M2 at 2 in K. apply in_app_or in K. destruct K as [K|K].
      { exfalso. apply HN3 in K. apply (v_x2 (aid w)); [rewrite Ew; apply in_ids; auto|tauto]. }
      assert (Hd : In (bwd M2 (aid w)) (ids C2)).
      { apply HN2s. change (bwd M2 (aid w)) with (snd (aid w, bwd M2 (aid w))). apply in_map. auto. }
      destruct (deref_Some _ _ Hd) as (d & Ed). pose proof (rolf_ok w Hw) as Hok. unfold rolf in *. rewrite Ed in *. exists d. split; auto.
      cbn in Hok. destruct Hok as (_ & _ & Es & _). congruence.
    - left. split; [discriminate|]. assert (Hb : bwd M2 (aid w) = aid v).
      { rewrite Ew. apply bwd_out. intros K. apply v_M2f in K. destruct K as [K|K].
        - apply v_N3f in K. apply (v_x2 (aid v)); [apply in_ids; auto|tauto].
        - destruct Hvc as [L|L].
          + apply (v_x1 (aid v)); [|apply v_NR_C1; auto]. apply HG0. apply HM1f. change (aid v) with (fst (aid v, aid c)). apply in_map. auto.
          + rewrite L in K. apply v_NR in K. destruct K as (c' & Hc' & E & Et'). assert (c' = c) by (apply (node_unique C1); auto using v_ndC1).
            subst c'. congruence. }
      unfold rolf. rewrite Hb. replace (deref C2 (aid v)) with (@None anode).
      2:{ symmetry. apply deref_None. intros K. apply (v_x2 (aid v)); auto. apply in_ids. auto. }
      unfold r1of. rewrite Hb1, deref_unique by auto using v_ndC1. reflexivity.
  Qed.
  Lemma to_C2 : forall c, In c C2 -> exists w, In w H /\ aid w = fwd M2 (aid c) /\ astate w = astate c /\
    (rolf w = R2 c \/ exists g, rolf w = RA g /\ In (aid g) Gi1 /\ astate g = astate c).
  Proof.
    intros c Hc. assert (Hc2 : In c H02) by (apply in_or_app; auto).
    destruct (merged_target _ _ _ c HM2 Hnd2 Hc2) as (w & Hw & Ew & Esw & Hrw).
    exists w. split; auto. split; auto. split; auto. destruct Hrw as [K|(K1 & K2 & K3)].
    - left. unfold rolf. rewrite K, deref_unique by auto using v_ndC2. reflexivity.
    - right. destruct (bwd_cases M2 (aid w)) as [K|(K & _)]; [|rewrite K3 in K; tauto].
      unfold M2 at 2 in K. apply in_app_or in K. destruct K as [K|K].
      2:{ exfalso. assert (L : In (aid w) (map fst N2)) by (change (aid w) with (fst (aid w, bwd M2 (aid w))); apply in_map; auto).
          apply HN2f in L. apply (v_x2 (aid w)); [apply HNR; auto|rewrite K3; apply in_ids; auto]. }
      destruct (HN3 _ _ K) as (_ & _ & Hg & _). pose proof (HG1 _ Hg) as HgA. apply ids_in in HgA. destruct HgA as (g & HgA & Eg).
      pose proof (rolf_ok w Hw) as Hok.
      assert (Er : rolf w = RA g).
      { unfold rolf. replace (deref C2 (bwd M2 (aid w))) with (@None anode).
        2:{ symmetry. apply deref_None. intros L. apply (v_x2 (bwd M2 (aid w))); auto. apply v_A_in. apply HG1. auto. }
        rewrite <- Eg. apply r1of_A; auto. intros L. apply (HG01 (aid g)); auto. rewrite Eg. auto. }
      rewrite Er in Hok. cbn in Hok. exists g. split; auto. split; [rewrite Eg; auto|]. destruct Hok as (_ & _ & Es & _). congruence.
  Qed.
  (** the transitions of a node *)
  Lemma view_trans : forall z, In z H -> atrans z =
    match rolf z with
    | RA x => map (fun t => fwd M2 (fwd M1 t)) (atrans x)
    | R1 c => map (fun t => fwd M2 (fwd M1 t)) (atrans c)
    | R2 c => map (fwd M2) (atrans c)
    end.
  Proof.
    intros z Hz. destruct (me_node _ _ _ HM2 z Hz) as (z0 & x2 & _ & _ & _ & _ & Hx & Ex & _ & _ & Et).
    unfold rolf. rewrite <- Ex. apply in_app_or in Hx. destruct Hx as [Hx|Hx].
    - replace (deref C2 (aid x2)) with (@None anode).
      2:{ symmetry. apply deref_None. intros K. apply (v_x2 (aid x2)); auto. apply in_ids. auto. }
      destruct (me_node _ _ _ HM1 x2 Hx) as (z1 & x & _ & _ & _ & _ & Hx1 & Ex1 & _ & _ & Et1).
      unfold r1of. rewrite <- Ex1. rewrite Et, Et1, map_map. destruct (v_H01 x Hx1) as [HxA|(c & Hc & ->)].
      + replace (deref C1 (aid x)) with (@None anode).
        2:{ symmetry. apply deref_None. intros K. apply (v_x1 (aid x)); auto. apply in_ids. auto. }
        rewrite deref_unique by auto using v_ndA. reflexivity.
      + cbn [aid set_mode atrans]. rewrite deref_unique by auto using v_ndC1. reflexivity.
    - rewrite deref_unique by auto using v_ndC2. auto.
  Qed.
  Lemma view_edge : forall z t, In z H -> In t (atrans z) -> exists w, In w H /\ aid w = t /\ leads (rolf z) (rolf w).
  Proof.
    intros z t Hz Ht. rewrite (view_trans z Hz) in Ht. pose proof (rolf_ok z Hz) as Hok. destruct (rolf z) as [x|c|c]; cbn in Hok.
    - apply in_map_iff in Ht. destruct Ht as (t0 & <- & Ht0). destruct (HcA x t0 (proj1 Hok) Ht0) as (u & Hu & <-).
      destruct (to_A u Hu) as (w & Hw & Ew & Es & [(Hg & Er)|(Hg & c & Er & Ec)]); exists w; split; auto; split; auto; rewrite Er; cbn; auto.
      exists u. auto.
    - apply in_map_iff in Ht. destruct Ht as (t0 & <- & Ht0). destruct (HcC1 c t0 (proj1 Hok) Ht0) as (u & Hu & <-).
      destruct (to_C1 u Hu) as (w & Hw & Ew & Es & [(Hg & Er)|(Hg & d & Er & Ec)]); exists w; split; auto; split; auto; rewrite Er; cbn; auto.
      exists u. auto.
    - apply in_map_iff in Ht. destruct Ht as (t0 & <- & Ht0). destruct (HcC2 c t0 (proj1 Hok) Ht0) as (u & Hu & <-).
      destruct (to_C2 u Hu) as (w & Hw & Ew & Es & [Er|(g & Er & Hg & Ec)]); exists w; split; auto; split; auto; rewrite Er; cbn; auto.
      split; auto. exists u. auto.
  Qed.
  (** a successor of the node whose part is played *)
  Definition next_of (r : role) (u : anode) : Prop :=
    match r with
    | RA x => In u A /\ In (aid u) (atrans x)
    | R1 c => In u C1 /\ In (aid u) (atrans c)
    | R2 c => In u C2 /\ In (aid u) (atrans c)
    end.
  Lemma view_answer : forall z u, In z H -> next_of (rolf z) u -> exists w, In w H /\ In (aid w) (atrans z) /\ astate w = astate u.
  Proof.
    intros z u Hz Hn. rewrite (view_trans z Hz). destruct (rolf z) as [x|c|c]; cbn in Hn; destruct Hn as (Hu & Ht).
    - destruct (to_A u Hu) as (w & Hw & Ew & Es & _). exists w. split; auto. split; auto. rewrite Ew. apply in_map_iff. eauto.
    - destruct (to_C1 u Hu) as (w & Hw & Ew & Es & _). exists w. split; auto. split; auto. rewrite Ew. apply in_map_iff. eauto.
    - destruct (to_C2 u Hu) as (w & Hw & Ew & Es & _). exists w. split; auto. split; auto. rewrite Ew. apply in_map. auto.
  Qed.
  (** where a node with a component role but without a way on comes from *)
  Lemma view_end : forall z c, In z H -> rolf z = R2 c -> atrans c = [] ->
    exists c1, In c1 C1 /\ atrans c1 = [] /\ astate c1 = astate c.
  Proof.
    intros z c Hz Er Et. pose proof (rolf_ok z Hz) as Hok. rewrite Er in Hok. destruct Hok as (Hc & Hn & Es & _).
    destruct (in_dec Nat.eq_dec (aid c) (map snd N2)) as [Hi|Hi]; [|exfalso; apply Hn; apply HN3'; auto].
    apply in_map_iff in Hi. destruct Hi as ((a, b) & Eb & Hi). cbn in Eb. subst b.
    assert (Ha : In a NR) by (apply HN2f; change a with (fst (a, aid c)); apply in_map; auto).
    assert (Hi2 : In (a, aid c) M2) by (apply in_or_app; auto).
    destruct (me_pair _ _ _ HM2 _ _ Hi2) as (x & y & Hx & Hy & Ex & Ey & Exy).
    assert (y = c) by (apply (node_unique H02); auto; apply in_or_app; auto). subst y.
    apply in_app_or in Hx. destruct Hx as [Hx|Hx].
    2:{ exfalso. apply (v_x2 a); [apply HNR; auto|]. rewrite <- Ex. apply in_ids. auto. }
    apply v_NR in Ha. destruct Ha as (c1 & Hc1 & Ec1 & Et1). exists c1. split; auto. split; auto.
    destruct (me_node _ _ _ HM1 x Hx) as (z1 & _ & Hz1 & E1 & _ & Es1 & _).
    destruct (v_H01 z1 Hz1) as [K|(c' & Hc' & ->)].
    - exfalso. apply (v_x1 a); [rewrite <- Ex, <- E1; apply in_ids; auto|rewrite <- Ec1; apply in_ids; auto].
    - cbn in *. assert (c' = c1) by (apply (node_unique C1); auto using v_ndC1; congruence). subst c'. congruence.
  Qed.
  (** initial nodes *)
  Lemma view_init : forall z, In z H -> ainit z = true -> exists x, In x A /\ astate x = astate z /\ ainit x = true.
  Proof.
    intros z Hz Ei. destruct (me_node _ _ _ HM2 z Hz) as (z0 & _ & Hz0 & E0 & Ei0 & Es0 & _).
    apply in_app_or in Hz0. destruct Hz0 as [Hz0|Hz0]; [|rewrite Ei0, HiC2 in Ei by auto; discriminate].
    destruct (me_node _ _ _ HM1 z0 Hz0) as (z1 & _ & Hz1 & E1 & Ei1 & Es1 & _).
    destruct (v_H01 z1 Hz1) as [K|(c & Hc & ->)].
    - exists z1. split; auto. split; congruence.
    - cbn in Ei1. rewrite Ei0, Ei1, HiC1 in Ei by auto. discriminate.
  Qed.
  Lemma view_keep : forall x, In x A -> ~ In (aid x) Gi1 -> exists z, In z H /\ astate z = astate x /\ ainit z = ainit x /\
    (~ In (aid x) Gi0 -> rolf z = RA x).
  Proof.
    intros x Hx Hn. assert (Hx1 : In (aid x) (ids A1)) by (apply v_A_in; apply in_ids; auto).
    assert (Hh : In (aid x) (ids H)).
    { apply (me_dom _ _ _ HM2). split; [unfold H02, ids; rewrite map_app; apply in_or_app; auto|]. intros K. apply v_M2s in K.
      destruct K as [K|K]; [apply v_N3s in K; auto|]. apply HN2s in K. apply (v_x2 (aid x)); auto. }
    apply ids_in in Hh. destruct Hh as (z & Hz & Ez). exists z. split; auto.
    destruct (me_node _ _ _ HM2 z Hz) as (z0 & _ & Hz0 & E0 & Ei0 & Es0 & _).
    apply in_app_or in Hz0. destruct Hz0 as [Hz0|Hz0].
    2:{ exfalso. apply (v_x2 (aid x)); auto. rewrite <- Ez, <- E0. apply in_ids. auto. }
    destruct (me_node _ _ _ HM1 z0 Hz0) as (z1 & _ & Hz1 & E1 & Ei1 & Es1 & _).
    assert (z1 = x) by (apply (node_unique H01); auto; [apply in_or_app; auto|congruence]). subst z1.
    split; [congruence|]. split; [congruence|]. intros Hg. unfold rolf. rewrite Ez.
    rewrite bwd_out.
    - replace (deref C2 (aid x)) with (@None anode); [apply r1of_A; auto|].
      symmetry. apply deref_None. intros K. apply (v_x2 (aid x)); auto.
    - intros K. apply v_M2f in K. destruct K as [K|K].
      + apply v_N3f in K. apply (v_x2 (aid x)); tauto.
      + apply (v_x1 (aid x)); [apply in_ids; auto|apply v_NR_C1; auto].
  Qed.
  (** a node of Gi[0] is not where the first component ends *)
  Lemma view_entry : forall g, In g A -> In (aid g) Gi0 -> exists c, In c C1 /\ astate c = astate g /\ atrans c <> [].
  Proof.
    intros g Hg Hi. destruct (to_A g Hg) as (w & Hw & _ & _ & [(K & _)|(_ & c & Er & Ec)]); [tauto|].
    pose proof (rolf_ok w Hw) as Hok. rewrite Er in Hok. cbn in Hok. exists c. tauto.
  Qed.
End View.
