(** The strategy rm_sysgoal puts together is a strategy for the remaining goals. *)
From Coq Require Import List ZArith Lia Bool Arith.
From Verif Require Import Base Game Bdd Support SupportProofs Ops Strs Ptree Form Solve FSpec Automaton AutProofs Synth SynthSpec
  Reach ReachSpec ReachProofs Nonbool AutIO Lasso Hotswap HotSpec HotProofs HotForm.
Import ListNotations.
Open Scope nat_scope.

(** ** Going round the goals *)
Section Cycle.
  Variables (k : nat).
  Hypothesis Hk : 0 < k.
  (** from [i] to [j] forward *)
  Definition gap (i j : nat) : nat := (j + (k - i)) mod k.
  Lemma gap_lt : forall i j, gap i j < k.
  Proof. intros. apply Nat.mod_upper_bound. lia. Qed.
  Lemma gap_spec : forall i j, i < k -> j < k -> (i + gap i j) mod k = j.
  Proof.
    intros i j Hi Hj. unfold gap. rewrite Nat.add_mod_idemp_r by lia.
    replace (i + (j + (k - i))) with (j + 1 * k) by lia. rewrite Nat.mod_add by lia. apply Nat.mod_small. auto.
  Qed.
  Lemma gap_le : forall i c, i < k -> gap i ((i + c) mod k) <= c.
  Proof.
    intros i c Hi. destruct (le_lt_dec k c) as [H|H]; [pose proof (gap_lt i ((i + c) mod k)); lia|].
    unfold gap. rewrite Nat.add_mod_idemp_l by lia. replace (i + c + (k - i)) with (c + 1 * k) by lia.
    rewrite Nat.mod_add by lia. rewrite Nat.mod_small by lia. lia.
  Qed.
  (** what [c] steps from [i] do to the distance of [g] if they do not pass it *)
  Lemma gap_down : forall i c g, i < k -> g < k -> (forall l, l < c -> (i + l) mod k <> g) ->
    gap i g = c + gap ((i + c) mod k) g.
  Proof.
    intros i c g Hi Hg Hn. pose proof (gap_lt i g) as Hlt. pose proof (gap_spec i g Hi Hg) as Hs.
    assert (Hc : c <= gap i g).
    { destruct (le_lt_dec c (gap i g)); auto. exfalso. apply (Hn (gap i g)); auto. }
    assert (Hi' : (i + c) mod k < k) by (apply Nat.mod_upper_bound; lia).
    pose proof (gap_spec _ g Hi' Hg) as Hs'. rewrite Nat.add_mod_idemp_l in Hs' by lia.
    pose proof (gap_lt ((i + c) mod k) g) as Hlt'.
    assert (E : gap ((i + c) mod k) g = gap i g - c); [|lia].
    set (a := gap ((i + c) mod k) g) in *. set (b := gap i g) in *.
    assert (E2 : (i + c + a) mod k = (i + c + (b - c)) mod k) by (rewrite Hs'; rewrite <- Hs; f_equal; lia).
    clear - E2 Hlt Hlt' Hk. apply (f_equal (fun x => (x + (k - (i + c) mod k)) mod k)) in E2.
    rewrite !Nat.add_mod_idemp_l in E2 by lia.
    pose proof (Nat.div_mod (i + c) k ltac:(lia)) as Hd. set (q := (i + c) / k) in *. set (r := (i + c) mod k) in *.
    assert (Hr : r < k) by (apply Nat.mod_upper_bound; lia).
    replace (i + c + a + (k - r)) with (a + (q + 1) * k) in E2 by nia.
    replace (i + c + (b - c) + (k - r)) with ((b - c) + (q + 1) * k) in E2 by nia.
    rewrite !Nat.mod_add in E2 by lia. rewrite !Nat.mod_small in E2 by lia. auto.
  Qed.
End Cycle.

Section Sem.
  Variable F : fspec.
  Let k := length (fs_sgoals F).
  Let kz := Z.of_nat k.
  Variable d : nat.
  Hypothesis Hd : d < k.
  Hypothesis Hk3 : 3 <= k.
  Let dz := Z.of_nat d.
  Let d1 := after F d.
  Notation dm := (del_mode dz kz).

  Lemma next_eq : next_i dz kz = Z.of_nat d1.
  Proof. unfold next_i, d1, after, dz, kz. fold k. rewrite Nat2Z.inj_mod. f_equal. lia. Qed.
  Lemma d1_lt : d1 < k.
  Proof. unfold d1, after. fold k. apply Nat.mod_upper_bound. lia. Qed.
  Lemma d1_ne : d1 <> d.
  Proof.
    unfold d1, after. fold k. destruct (Nat.eq_dec (S d) k) as [E|E].
    - rewrite E, Nat.mod_same by lia. lia.
    - rewrite Nat.mod_small by lia. lia.
  Qed.
  Lemma dm_true : forall m, dm m = true <-> m = Z.of_nat d \/ m = Z.of_nat d1.
  Proof. intros m. unfold del_mode. rewrite next_eq, orb_true_iff, !Z.eqb_eq. reflexivity. Qed.
  Lemma dm_false : forall m, dm m = false <-> m <> Z.of_nat d /\ m <> Z.of_nat d1.
  Proof. intros m. rewrite <- not_true_iff_false, dm_true. tauto. Qed.

  Variable A : aut.
  Hypothesis Hco : correct F A.
  Hypothesis Hord : in_order F A.
  Hypothesis Hns : not_skipped F d A.
  Lemma HndA : NoDup (ids A). Proof. apply Hco. Qed.

  Variables (En Ex : list nat) (en ex : list vec).
  Hypothesis HEn : forall a, In a En <-> is_entry A dz a A.
  Hypothesis HEx : forall a, In a Ex <-> is_exit A dz kz a A.
  Hypothesis Hex : forall s, In s ex <-> exists x, In x A /\ In (aid x) Ex /\ astate x = s.
  Variable S0 : aut.
  Let noenv := match fs_evars F with [] => true | _ => false end.
  Hypothesis HS : reach_strategy (game_of F) (among ex) (among en) noenv S0.
  Hypothesis Hini : forall s, In s S0 -> ainit s = false.
  Hypothesis Hdis : forall a, In a (ids A) -> ~ In a (ids S0).
  Variables (i1 : anode -> bool) (m1 : smap) (M : pairs) (D : list nat).
  Hypothesis Hm1f : map fst m1 = En.
  Hypothesis Hm1 : forall a v, In (a, v) m1 -> exists x s, In x A /\ aid x = a /\ In s S0 /\ v = Some (aid s) /\
         astate s = astate x.
  Hypothesis Hi1 : forall s, In s S0 -> i1 s = true -> ainit s = true \/
         exists x, In x A /\ In (aid x) En /\ astate x = astate s /\ ainit x = true.
  Let S1 := marked S0 i1.
  Hypothesis HM : merges A S1 Ex M.
  Hypothesis HMall : forall s, In s S1 -> atrans s = [] -> In (aid s) (map snd M).
  Hypothesis HD : forall a, In a D <-> exists x, In x (filter (unmerged M) A) /\ aid x = a /\ dm (amode x) = true.
  Let mf := (m1 ++ lift M) ++ nones D.
  Let B := map (ren mf) (filter (fun x => negb (dm (amode x))) (filter (unmerged M) A)) ++
    map (name_mode dz kz) (map (fin A mf M) S1).

  (** ** The nodes of the result *)
  Definition rep (a : nat) : nat := match find (fun p => fst p =? a) M with Some p => snd p | None => a end.
  Definition img (x : anode) : anode :=
    Node (rep (aid x)) (ainit x) (astate x) (amode x) (argrad x) (sub_tr mf (atrans x)).
  Definition new (s : anode) : anode := Node (aid s) (i1 s) (astate s) (Z.of_nat d1) (argrad s) (atrans s).
  Lemma rep_In : forall a b, In (a, b) M -> rep a = b.
  Proof.
    intros a b Hi. unfold rep. destruct (find (fun p => fst p =? a) M) as [(a', b')|] eqn:E.
    - apply find_some in E. destruct E as (Hp & E). apply Nat.eqb_eq in E. cbn in *. subst a'.
      assert (Hnd := mg_fst _ _ _ _ HM). clear - Hi Hp Hnd. induction M as [|(u, v) M' IH]; [destruct Hi|].
      cbn in Hnd. inversion Hnd as [|? ? Hni Hnd']; subst.
      destruct Hi as [E|Hi]; destruct Hp as [E'|Hp]; try congruence; auto.
      + exfalso. apply Hni. injection E as -> ->. change a with (fst (a, b')). apply in_map. auto.
      + exfalso. apply Hni. injection E' as -> ->. change a with (fst (a, b)). apply in_map. auto.
    - exfalso. pose proof (find_none _ _ E _ Hi) as H. cbn in H. rewrite Nat.eqb_refl in H. discriminate.
  Qed.
  Lemma rep_out : forall a, ~ In a (map fst M) -> rep a = a.
  Proof.
    intros a H. unfold rep. destruct (find (fun p => fst p =? a) M) as [(a', b')|] eqn:E; auto.
    apply find_some in E. destruct E as (Hp & E). apply Nat.eqb_eq in E. cbn in *. subst a'. exfalso. apply H.
    change a with (fst (a, b')). apply in_map. auto.
  Qed.
  Lemma exit_mode : forall x, In x A -> In (aid x) Ex -> dm (amode x) = false.
  Proof.
    intros x Hx He. apply HEx in He. destruct He as (z & y & _ & Hy & E & _ & _ & E').
    assert (y = x) by (apply (node_unique A); auto using HndA). subst y. auto.
  Qed.
  Lemma mode_pos : forall x, In x A -> (0 <= amode x < kz)%Z.
  Proof. apply Hord. Qed.
  Lemma S1_of : forall s, In s S0 -> In (set_init (i1 s) s) S1.
  Proof. intros s Hs. unfold S1, marked. apply in_map_iff. exists s. auto. Qed.
  Lemma S1_back : forall s, In s S1 -> exists s0, In s0 S0 /\ s = set_init (i1 s0) s0.
  Proof. intros s Hs. unfold S1, marked in Hs. apply in_map_iff in Hs. destruct Hs as (s0 & <- & H0). eauto. Qed.

  (** a merged node is the image of its Exit node *)
  Lemma fin_merged : forall a s, In s S0 -> In (a, aid s) M -> exists x, In x A /\ aid x = a /\
    dm (amode x) = false /\ astate x = astate s /\ name_mode dz kz (fin A mf M (set_init (i1 s) s)) = img x.
  Proof.
    intros a s Hs Hi. destruct (mg_pair _ _ _ _ HM _ _ Hi) as (x & s' & Hx & Ea & He & Hs' & Es & _ & Est).
    destruct (S1_back s' Hs') as (s0 & Hs0 & ->). cbn in Es, Est.
    assert (s0 = s) by (apply (node_unique S0); auto; apply HS). subst s0.
    assert (Hdm : dm (amode x) = false) by (apply exit_mode; auto; congruence).
    exists x. split; auto. split; auto. split; auto. split; auto.
    unfold fin. rewrite (partner_In M _ a); [|apply HM|auto]. rewrite <- Ea, (deref_unique A x HndA Hx).
    unfold name_mode. cbn. pose proof (mode_pos x Hx). destruct (Z.eqb_spec (amode x) (-1)); [lia|].
    unfold img. rewrite (rep_In (aid x) (aid s)) by (rewrite Ea; auto). rewrite Est. reflexivity.
  Qed.
  Lemma fin_new : forall s, In s S0 -> ~ In (aid s) (map snd M) ->
    name_mode dz kz (fin A mf M (set_init (i1 s) s)) = new s.
  Proof.
    intros s Hs Hi. unfold fin. rewrite partner_None by auto. unfold name_mode. cbn. rewrite (rs_mode _ _ _ _ _ HS s Hs). cbn.
    unfold new, set_mode. cbn. rewrite next_eq. reflexivity.
  Qed.
  Lemma snd_fst : forall b, In b (map snd M) -> exists a, In (a, b) M.
  Proof. intros b H. apply in_map_iff in H. destruct H as ((a, b') & E & H). cbn in E. subst. eauto. Qed.

  Lemma B_of : forall y, In y B ->
    (exists x, In x A /\ dm (amode x) = false /\ y = img x) \/
    (exists s, In s S0 /\ ~ In (aid s) (map snd M) /\ y = new s).
  Proof.
    intros y Hy. unfold B in Hy. apply in_app_or in Hy. destruct Hy as [Hy|Hy].
    - left. apply in_map_iff in Hy. destruct Hy as (x & <- & Hx). apply filter_In in Hx. destruct Hx as (Hx & E).
      apply filter_In in Hx. destruct Hx as (Hx & Eu). apply negb_true_iff in E. exists x. split; auto. split; auto.
      unfold img. rewrite rep_out; [reflexivity|]. apply memb_false. unfold unmerged in Eu. apply negb_true_iff in Eu. auto.
    - apply in_map_iff in Hy. destruct Hy as (f & <- & Hf). apply in_map_iff in Hf. destruct Hf as (s1 & <- & Hs1).
      destruct (S1_back s1 Hs1) as (s & Hs & ->). destruct (in_dec Nat.eq_dec (aid s) (map snd M)) as [Hi|Hi].
      + left. destruct (snd_fst _ Hi) as (a & Ha). destruct (fin_merged a s Hs Ha) as (x & Hx & _ & E & _ & E'). eauto.
      + right. exists s. split; auto. split; auto. apply fin_new; auto.
  Qed.
  Lemma in_sub : forall s, In s S0 -> In (name_mode dz kz (fin A mf M (set_init (i1 s) s))) B.
  Proof. intros s Hs. unfold B. apply in_or_app. right. apply in_map. apply in_map. apply S1_of. auto. Qed.
  Lemma img_B : forall x, In x A -> dm (amode x) = false -> In (img x) B.
  Proof.
    intros x Hx E. destruct (in_dec Nat.eq_dec (aid x) (map fst M)) as [Hi|Hi].
    - apply in_map_iff in Hi. destruct Hi as ((a, b) & Ea & Hi). cbn in Ea. subst a.
      destruct (mg_pair _ _ _ _ HM _ _ Hi) as (x' & s' & Hx' & Ea & He & Hs' & Es & _).
      destruct (S1_back s' Hs') as (s & Hs & ->). cbn in Es. subst b.
      destruct (fin_merged _ s Hs Hi) as (x2 & Hx2 & Ex2 & _ & _ & E2).
      assert (x2 = x) by (apply (node_unique A); auto using HndA). subst x2. rewrite <- E2. apply in_sub. auto.
    - unfold B. apply in_or_app. left. apply in_map_iff. exists x. split.
      + unfold img. rewrite rep_out by auto. reflexivity.
      + apply filter_In. split; [|rewrite E; auto]. apply filter_In. split; auto. unfold unmerged.
        apply negb_true_iff, memb_false. auto.
  Qed.
  Lemma new_B : forall s, In s S0 -> ~ In (aid s) (map snd M) -> In (new s) B.
  Proof. intros s Hs Hi. rewrite <- fin_new by auto. apply in_sub. auto. Qed.
  (** every node of the substrategy is there, as itself or as the Exit node *)
  Lemma sub_B : forall s, In s S0 -> exists y, In y B /\ aid y = aid s /\ astate y = astate s /\
    ((~ In (aid s) (map snd M) /\ y = new s) \/
     exists x, In x A /\ dm (amode x) = false /\ In (aid x) Ex /\ astate x = astate s /\ y = img x).
  Proof.
    intros s Hs. destruct (in_dec Nat.eq_dec (aid s) (map snd M)) as [Hi|Hi].
    - destruct (snd_fst _ Hi) as (a & Ha). destruct (fin_merged a s Hs Ha) as (x & Hx & Ea & E & Est & E').
      destruct (mg_pair _ _ _ _ HM _ _ Ha) as (_ & _ & _ & _ & He & _).
      exists (img x). split; [apply img_B; auto|]. cbn. split; [apply rep_In; congruence|]. split; auto. right.
      exists x. repeat split; auto. congruence.
    - exists (new s). split; [apply new_B; auto|]. cbn. auto.
  Qed.
  Lemma B_ids : NoDup (ids B).
  Proof.
    unfold B, ids. rewrite map_app, !map_map. apply NoDup_app.
    - rewrite (map_ext _ aid) by auto. apply nodup_filter_ids. apply nodup_filter_ids. apply HndA.
    - assert (Em : forall s, aid (name_mode dz kz (fin A mf M s)) = aid s).
      2:{ rewrite (map_ext _ aid Em). unfold S1, marked. rewrite map_map. exact (rs_ids _ _ _ _ _ HS). }
      intros s. unfold name_mode. destruct (amode _ =? -1)%Z; cbn; rewrite ?fin_aid; auto.
    - intros a H1 H2. apply in_map_iff in H1. destruct H1 as (x & Ex1 & Hx).
      apply filter_In in Hx. destruct Hx as (Hx & _). apply filter_In in Hx. destruct Hx as (Hx & _).
      apply in_map_iff in H2. destruct H2 as (s1 & Es & Hs1). destruct (S1_back s1 Hs1) as (s & Hs & ->).
      apply (Hdis a).
      + rewrite <- Ex1. exact (in_map aid A x Hx).
      + rewrite <- Es. unfold name_mode. destruct (amode _ =? -1)%Z; cbn; rewrite ?fin_aid; exact (in_map aid S0 s Hs).
  Qed.
  Lemma img_inj : forall x x', In x A -> In x' A -> dm (amode x) = false -> dm (amode x') = false ->
    rep (aid x) = rep (aid x') -> x = x'.
  Proof.
    intros x x' Hx Hx' E E' Er. apply (node_unique A); auto using HndA.
    destruct (in_dec Nat.eq_dec (aid x) (map fst M)) as [Hi|Hi]; destruct (in_dec Nat.eq_dec (aid x') (map fst M)) as [Hi'|Hi'].
    - apply in_map_iff in Hi. destruct Hi as ((a, b) & Ea & Hi). cbn in Ea. subst a.
      apply in_map_iff in Hi'. destruct Hi' as ((a', b') & Ea' & Hi'). cbn in Ea'. subst a'.
      rewrite (rep_In _ _ Hi), (rep_In _ _ Hi') in Er. subst b'.
      assert (Hnd := mg_snd _ _ _ _ HM). clear - Hi Hi' Hnd. induction M as [|(u, v) M' IH]; [destruct Hi|].
      cbn in Hnd. inversion Hnd as [|? ? Hni Hnd']; subst.
      destruct Hi as [K|Hi]; destruct Hi' as [K'|Hi']; try congruence; auto.
      + exfalso. apply Hni. injection K as -> ->. change b with (snd (aid x', b)). apply in_map. auto.
      + exfalso. apply Hni. injection K' as -> ->. change b with (snd (aid x, b)). apply in_map. auto.
    - exfalso. rewrite (rep_out _ Hi') in Er. apply in_map_iff in Hi. destruct Hi as ((a, b) & Ea & Hi). cbn in Ea. subst a.
      rewrite (rep_In _ _ Hi) in Er. destruct (mg_pair _ _ _ _ HM _ _ Hi) as (_ & s1 & _ & _ & _ & Hs1 & Es & _).
      destruct (S1_back s1 Hs1) as (s & Hs & ->). cbn in Es. apply (Hdis (aid x')); [apply in_map; auto|].
      rewrite <- Er, <- Es. apply in_map. auto.
    - exfalso. rewrite (rep_out _ Hi) in Er. apply in_map_iff in Hi'. destruct Hi' as ((a, b) & Ea & Hi'). cbn in Ea. subst a.
      rewrite (rep_In _ _ Hi') in Er. destruct (mg_pair _ _ _ _ HM _ _ Hi') as (_ & s1 & _ & _ & _ & Hs1 & Es & _).
      destruct (S1_back s1 Hs1) as (s & Hs & ->). cbn in Es. apply (Hdis (aid x)); [apply in_map; auto|].
      rewrite Er, <- Es. apply in_map. auto.
    - rewrite (rep_out _ Hi), (rep_out _ Hi') in Er. auto.
  Qed.

  (** ** Transitions *)
  Lemma entry_mode : forall u, In u A -> In (aid u) En -> amode u = dz.
  Proof.
    intros u Hu He. apply HEn in He. destruct He as (z & y & _ & Hy & E & _ & _ & E').
    assert (y = u) by (apply (node_unique A); auto using HndA). subst y. auto.
  Qed.
  Lemma assoc_keep : forall u, In u A -> dm (amode u) = false ->
    match assoc (aid u) mf with None => rep (aid u) = aid u | Some None => False | Some (Some b) => rep (aid u) = b end.
  Proof.
    intros u Hu E. unfold mf. rewrite !assoc_app. rewrite assoc_None.
    2:{ rewrite Hm1f. intros He. apply (entry_mode u Hu) in He. apply dm_false in E. destruct E as (E & _). apply E. exact He. }
    destruct (assoc (aid u) (lift M)) as [v|] eqn:Ea.
    - apply assoc_Some in Ea. unfold lift in Ea. apply in_map_iff in Ea. destruct Ea as ((a, b) & K & Hi). cbn in K.
      injection K as -> <-. apply rep_In. auto.
    - rewrite assoc_None.
      + apply rep_out. rewrite <- lift_fst. intros Hi. apply assoc_In in Hi. destruct Hi as (v & Hv). congruence.
      + unfold nones. rewrite map_map. cbn. rewrite map_id. intros Hi. apply HD in Hi. destruct Hi as (x & Hx & Ex' & Ed).
        apply filter_In in Hx. destruct Hx as (Hx & _). assert (x = u) by (apply (node_unique A); auto using HndA).
        congruence.
  Qed.
  Lemma assoc_entry : forall u, In u A -> In (aid u) En ->
    exists s, In s S0 /\ astate s = astate u /\ assoc (aid u) mf = Some (Some (aid s)).
  Proof.
    intros u Hu He. unfold mf. rewrite !assoc_app. rewrite <- Hm1f in He. destruct (assoc_In _ _ He) as (v & Hv). rewrite Hv.
    apply assoc_Some in Hv. destruct (Hm1 _ _ Hv) as (x & s & Hx & Ex' & Hs & -> & Est). exists s.
    assert (x = u) by (apply (node_unique A); auto using HndA). subst x. auto.
  Qed.
  Lemma leads : forall x u, In x A -> dm (amode x) = false -> In u A -> In (aid u) (atrans x) ->
    dm (amode u) = false \/ amode u = dz /\ In (aid u) En.
  Proof.
    intros x u Hx E Hu Ht. destruct (dm (amode u)) eqn:Eu; auto. right. apply dm_false in E. apply dm_true in Eu.
    destruct Eu as [Eu|Eu].
    - split; auto. apply HEn. exists x, u. repeat split; auto. apply E.
    - exfalso. destruct (Hns x u Hx Hu Ht Eu) as [K|K]; apply E in K; auto.
  Qed.
  Lemma node_at : forall x t, In x A -> In t (atrans x) -> exists u, In u A /\ aid u = t.
  Proof. intros x t. apply (co_closed _ _ Hco). Qed.
  (** where a transition of an image leads *)
  Lemma img_trans : forall x t, In x A -> dm (amode x) = false -> In t (sub_tr mf (atrans x)) ->
    exists u, In u A /\ In (aid u) (atrans x) /\
      (dm (amode u) = false /\ t = rep (aid u) \/
       amode u = dz /\ exists s, In s S0 /\ astate s = astate u /\ t = aid s).
  Proof.
    intros x t Hx E Ht. apply sub_In in Ht. destruct Ht as (t0 & Ht0 & Ha). destruct (node_at x t0 Hx Ht0) as (u & Hu & <-).
    exists u. split; auto. split; auto. destruct (leads x u Hx E Hu Ht0) as [K|(K & Ke)].
    - left. split; auto. pose proof (assoc_keep u Hu K) as Hk. destruct (assoc (aid u) mf) as [[b|]|]; [|destruct Hk|]; congruence.
    - right. split; auto. destruct (assoc_entry u Hu Ke) as (s & Hs & Est & Eq). rewrite Eq in Ha. eauto.
  Qed.
  Lemma img_trans' : forall x u, In x A -> dm (amode x) = false -> In u A -> In (aid u) (atrans x) ->
    exists y, In y B /\ In (aid y) (sub_tr mf (atrans x)) /\ astate y = astate u.
  Proof.
    intros x u Hx E Hu Ht. destruct (leads x u Hx E Hu Ht) as [K|(K & Ke)].
    - exists (img u). split; [apply img_B; auto|]. split; auto. apply sub_In. exists (aid u). split; auto.
      pose proof (assoc_keep u Hu K) as Hk. destruct (assoc (aid u) mf) as [[b|]|]; auto.
    - destruct (assoc_entry u Hu Ke) as (s & Hs & Est & Eq). destruct (sub_B s Hs) as (y & Hy & Ey & Esy & _).
      exists y. split; auto. split; [|congruence]. apply sub_In. exists (aid u). rewrite Eq. auto.
  Qed.

  (** ** The result is closed, legal and answers every move *)
  Lemma B_closed : forall y t, In y B -> In t (atrans y) -> exists z, In z B /\ aid z = t.
  Proof.
    intros y t Hy Ht. destruct (B_of y Hy) as [(x & Hx & E & ->)|(s & Hs & Hi & ->)]; cbn in Ht.
    - destruct (img_trans x t Hx E Ht) as (u & Hu & Hut & [(K & ->)|(K & s & Hs & Est & ->)]).
      + exists (img u). split; [apply img_B; auto|auto].
      + destruct (sub_B s Hs) as (z & Hz & Ez & _). eauto.
    - destruct (rs_closed _ _ _ _ _ HS s t Hs Ht) as (s' & Hs' & <-). destruct (sub_B s' Hs') as (z & Hz & Ez & _). eauto.
  Qed.
  Lemma B_states : forall y, In y B -> In (astate y) (fs_states F).
  Proof.
    intros y Hy. destruct (B_of y Hy) as [(x & Hx & E & ->)|(s & Hs & Hi & ->)]; cbn.
    - apply (co_states _ _ Hco); auto.
    - apply (rs_states _ _ _ _ _ HS); auto.
  Qed.
  Lemma B_unique : forall y z, In y B -> In z B -> aid y = aid z -> y = z.
  Proof. intros y z. apply node_unique. apply B_ids. Qed.
  (** the kinds of transitions *)
  Lemma B_edge : forall y z, In y B -> In z B -> In (aid z) (atrans y) ->
    (exists x u, In x A /\ In u A /\ In (aid u) (atrans x) /\ dm (amode x) = false /\ dm (amode u) = false /\ y = img x /\ z = img u) \/
    (exists x u, In x A /\ In u A /\ In (aid u) (atrans x) /\ dm (amode x) = false /\ amode u = dz /\ y = img x /\
       astate z = astate u /\ (amode z = Z.of_nat d1 \/
         exists v, In v A /\ dm (amode v) = false /\ In (aid v) Ex /\ z = img v)) \/
    (exists s s', In s S0 /\ In s' S0 /\ In (aid s') (atrans s) /\ y = new s /\ z = new s') \/
    (exists s s' v, In s S0 /\ In s' S0 /\ In (aid s') (atrans s) /\ y = new s /\ astate z = astate s' /\
       In v A /\ dm (amode v) = false /\ In (aid v) Ex /\ z = img v).
  Proof.
    intros y z Hy Hz Ht. destruct (B_of y Hy) as [(x & Hx & E & ->)|(s & Hs & Hi & ->)]; cbn in Ht.
    - destruct (img_trans x _ Hx E Ht) as (u & Hu & Hut & [(K & Eq)|(K & s & Hs & Est & Eq)]).
      + left. exists x, u. repeat split; auto. apply B_unique; auto. apply img_B; auto.
      + right. left. destruct (sub_B s Hs) as (z' & Hz' & Ez' & Esz & Hk).
        assert (z' = z) by (apply B_unique; auto; congruence). subst z'.
        exists x, u. split; auto. split; auto. split; auto. split; auto. split; auto. split; auto. split; [congruence|].
        destruct Hk as [(_ & ->)|(v & Hv & Hv1 & Hv2 & Hv3 & ->)]; [left; auto|right; exists v; auto].
    - right. right. destruct (rs_closed _ _ _ _ _ HS s _ Hs Ht) as (s' & Hs' & Es').
      destruct (sub_B s' Hs') as (z' & Hz' & Ez' & Esz & Hk).
      assert (z' = z) by (apply B_unique; auto; congruence). subst z'. rewrite <- Es' in Ht.
      destruct Hk as [(_ & ->)|(v & Hv & Hv1 & Hv2 & Hv3 & ->)].
      + left. exists s, s'. repeat split; auto.
      + right. exists s, s', v. repeat split; auto.
  Qed.
  Lemma noenv_false : fs_evars F <> [] -> noenv = false.
  Proof. unfold noenv. destruct (fs_evars F); congruence. Qed.
  Lemma B_safe : forall y z, In y B -> In z B -> In (aid z) (atrans y) ->
    g_str (game_of F) (astate y) (astate z) = true /\
    (fs_evars F <> [] -> g_etr (game_of F) (astate y) (g_env (game_of F) (astate z)) = true).
  Proof.
    intros y z Hy Hz Ht. destruct (B_edge y z Hy Hz Ht) as
      [(x & u & Hx & Hu & Hut & _ & _ & -> & ->)|[(x & u & Hx & Hu & Hut & _ & _ & -> & -> & _)
      |[(s & s' & Hs & Hs' & Hst & -> & ->)|(s & s' & v & Hs & Hs' & Hst & -> & -> & _)]]].
    - apply (co_safe _ _ Hco x u); auto.
    - apply (co_safe _ _ Hco x u); auto.
    - destruct (rs_safe _ _ _ _ _ HS s s' Hs Hs' Hst) as (_ & H1 & H2). split; auto. intros He. apply (H2 (noenv_false He)).
    - destruct (rs_safe _ _ _ _ _ HS s s' Hs Hs' Hst) as (_ & H1 & H2). split; auto. intros He. apply (H2 (noenv_false He)).
  Qed.
  Lemma live_node : forall s, In s S0 -> ~ In (aid s) (map snd M) -> among ex (astate s) = false.
  Proof.
    intros s Hs Hi. destruct (atrans s) as [|t l] eqn:Et.
    - exfalso. apply Hi. apply (HMall (set_init (i1 s) s)); [apply S1_of; auto|auto].
    - assert (Ht : In t (atrans s)) by (rewrite Et; left; auto).
      destruct (rs_closed _ _ _ _ _ HS s t Hs Ht) as (s' & Hs' & <-). apply (rs_safe _ _ _ _ _ HS s s' Hs Hs' Ht).
  Qed.
  Lemma B_answer : forall y e, In y B -> legal_env (game_of F) (astate y) e ->
    exists z, In z B /\ In (aid z) (atrans y) /\ g_env (game_of F) (astate z) = e.
  Proof.
    intros y e Hy He. destruct (B_of y Hy) as [(x & Hx & E & ->)|(s & Hs & Hi & ->)]; cbn [astate atrans img new] in *.
    - destruct (co_answer _ _ Hco x e Hx He) as (u & Hu & Hut & Eu).
      destruct (img_trans' x u Hx E Hu Hut) as (z & Hz & Hzt & Ez). exists z. rewrite Ez. auto.
    - destruct (rs_answer _ _ _ _ _ HS s e Hs (live_node s Hs Hi) He) as (s' & Hs' & Ht & Ee & _).
      destruct (sub_B s' Hs') as (z & Hz & Ez & Esz & _). exists z. rewrite Ez, Esz. auto.
  Qed.

  (** ** Liveness *)
  Lemma exit_goals : forall v, In v A -> In (aid v) Ex -> exists e, e < k /\ amode v = Z.of_nat e /\
    forall l, l < gap k d1 e -> sgoal F ((d1 + l) mod k) (astate v) = true.
  Proof.
    intros v Hv He. pose proof (exit_mode v Hv He) as Hdm. apply HEx in He. destruct He as (z & y & Hz & Hy & E & Ht & Ez & _).
    assert (y = v) by (apply (node_unique A); auto using HndA). subst y.
    destruct (proj2 Hord z v Hz Hv Ht) as (i & c & Hi & Ei & Ev & Hg). fold k in Hi, Ev, Hg.
    exists ((i + c) mod k). split; [apply Nat.mod_upper_bound; lia|]. split; auto. intros l Hl.
    apply dm_true in Ez. rewrite Ei in Ez. apply dm_false in Hdm. rewrite Ev in Hdm.
    destruct Ez as [Ez|Ez]; apply Nat2Z.inj in Ez; subst i.
    - destruct c as [|c]; [rewrite Nat.add_0_r, Nat.mod_small in Hdm by lia; tauto|].
      assert (Eq : forall l, (d1 + l) mod k = (d + S l) mod k).
      { intros l'. unfold d1, after. fold k. rewrite Nat.add_mod_idemp_l by lia. f_equal. lia. }
      rewrite <- Eq in Hl. pose proof (gap_le k ltac:(lia) d1 c d1_lt) as Hle.
      rewrite Eq. apply Hg. lia.
    - pose proof (gap_le k ltac:(lia) d1 c d1_lt) as Hle. apply Hg. lia.
  Qed.
  Lemma B_advance : forall y z, In y B -> In z B -> In (aid z) (atrans y) ->
    exists i c, i < k /\ amode y = Z.of_nat i /\ amode z = Z.of_nat ((i + c) mod k) /\
      (forall l, l < c -> (i + l) mod k <> d -> sgoal F ((i + l) mod k) (astate z) = true) /\
      (c = 0 ->
       (exists x u, In x A /\ In u A /\ In (aid u) (atrans x) /\ dm (amode x) = false /\ dm (amode u) = false /\ y = img x /\ z = img u) \/
       (exists s s', In s S0 /\ In s' S0 /\ In (aid s') (atrans s) /\ y = new s /\ z = new s')).
  Proof.
    intros y z Hy Hz Ht. pose proof d1_lt as Hd1. destruct (B_edge y z Hy Hz Ht) as
      [(x & u & Hx & Hu & Hut & E & E' & -> & ->)|[(x & u & Hx & Hu & Hut & E & Eu & -> & Est & Hk)
      |[(s & s' & Hs & Hs' & Hst & -> & ->)|(s & s' & v & Hs & Hs' & Hst & -> & Est & Hv & Hv1 & Hv2 & ->)]]].
    - destruct (proj2 Hord x u Hx Hu Hut) as (i & c & Hi & Ei & Ev & Hg). fold k in Hi, Ev, Hg. exists i, c.
      split; auto. split; auto. split; auto. split; auto. intros _. left. exists x, u. repeat split; auto.
    - destruct (proj2 Hord x u Hx Hu Hut) as (i & c & Hi & Ei & Ev & Hg). fold k in Hi, Ev, Hg.
      rewrite Eu in Ev. apply Nat2Z.inj in Ev.
      assert (Es : (i + (c + 1)) mod k = d1).
      { unfold d1, after. fold k. replace (i + (c + 1)) with ((i + c) + 1) by lia.
        rewrite <- Nat.add_mod_idemp_l by lia. rewrite <- Ev. f_equal. lia. }
      assert (Hpass : forall l, l < c + 1 -> (i + l) mod k <> d -> sgoal F ((i + l) mod k) (astate u) = true).
      { intros l Hl Hn. apply Hg. destruct (Nat.eq_dec l c) as [->|]; [congruence|lia]. }
      destruct Hk as [Hk|(v & Hv & Hv1 & Hv2 & ->)].
      + exists i, (c + 1). split; auto. split; auto. rewrite Es. split; auto. rewrite Est. split; auto. lia.
      + destruct (exit_goals v Hv Hv2) as (e & He & Ev' & Hge). exists i, (c + 1 + gap k d1 e).
        split; auto. split; auto. split.
        { cbn. rewrite Ev'. f_equal. rewrite Nat.add_assoc, <- Nat.add_mod_idemp_l, Es by lia.
          symmetry. apply gap_spec; lia. }
        split; [|lia]. intros l Hl Hn. destruct (le_lt_dec (c + 1) l) as [Hle|Hlt].
        * assert (Eq : (i + l) mod k = (d1 + (l - (c + 1))) mod k).
          { rewrite <- Es, Nat.add_mod_idemp_l by lia. f_equal. lia. }
          rewrite Eq. cbn [astate img]. apply Hge. lia.
        * rewrite Est. auto.
    - exists d1, 0. split; auto. split; auto. split; [cbn; f_equal; rewrite Nat.add_0_r, Nat.mod_small; auto|].
      split; [lia|]. intros _. right. exists s, s'. repeat split; auto.
    - destruct (exit_goals v Hv Hv2) as (e & He & Ev' & Hge). exists d1, (gap k d1 e). split; auto. split; auto.
      split; [cbn; rewrite Ev'; f_equal; symmetry; apply gap_spec; lia|].
      split; [intros l Hl _; cbn [astate img]; auto|]. intros E0. exfalso.
      pose proof (gap_spec k ltac:(lia) d1 e Hd1 He) as Hs0. rewrite E0, Nat.add_0_r, Nat.mod_small in Hs0 by auto.
      subst e. apply dm_false in Hv1. apply Hv1. auto.
  Qed.

  Section Live.
    Variable p : nat -> anode.
    Hypothesis Hp : forall t, In (p t) B /\ In (aid (p (S t))) (atrans (p t)).
    Hypothesis Hne : fs_evars F = [] -> forall t, g_etr (game_of F) (astate (p t)) [] = true.
    Hypothesis Heg : forall g, In g (fs_egoals F) -> infinitely_often (holds F g) (fun t => astate (p t)).
    Variable g : nat.
    Hypothesis Hg : g < k.
    Hypothesis Hgd : g <> d.
    Variable t0 : nat.
    Hypothesis Hno : forall t, t0 <= t -> sgoal F g (astate (p t)) = false.

    Lemma suffix : forall t f, infinitely_often f (fun u => astate (p u)) ->
      infinitely_often f (fun u => astate (p (t + u))).
    Proof.
      intros t f H u. destruct (H (t + u)) as (u' & Hu & E). exists (u' - t). split; [lia|].
      replace (t + (u' - t)) with u' by lia. auto.
    Qed.
    Lemma dist_step : forall t, t0 <= t -> exists i c, i < k /\ amode (p t) = Z.of_nat i /\
      amode (p (S t)) = Z.of_nat ((i + c) mod k) /\ gap k i g = c + gap k ((i + c) mod k) g /\
      (c = 0 ->
       (exists x u, In x A /\ In u A /\ In (aid u) (atrans x) /\ dm (amode x) = false /\ dm (amode u) = false /\ p t = img x /\ p (S t) = img u) \/
       (exists s s', In s S0 /\ In s' S0 /\ In (aid s') (atrans s) /\ p t = new s /\ p (S t) = new s')).
    Proof.
      intros t Ht. destruct (B_advance (p t) (p (S t))) as (i & c & Hi & Ei & Ez & Hpass & H0); try apply Hp.
      exists i, c. split; auto. split; auto. split; auto. split; auto. apply gap_down; auto; [lia|].
      intros l Hl E. pose proof (Hpass l Hl) as K. rewrite E in K. rewrite Hno in K by lia. discriminate (K Hgd).
    Qed.
    (** a path that stays among the images or among the new nodes *)
    Lemma stay : forall t, t0 <= t -> (forall u, t <= u -> exists i, i < k /\ amode (p u) = Z.of_nat i /\ amode (p t) = Z.of_nat i) ->
      (forall u, t <= u ->
       (exists x v, In x A /\ In v A /\ In (aid v) (atrans x) /\ dm (amode x) = false /\ dm (amode v) = false /\ p u = img x /\ p (S u) = img v) \/
       (exists s s', In s S0 /\ In s' S0 /\ In (aid s') (atrans s) /\ p u = new s /\ p (S u) = new s')).
    Proof.
      intros t Ht Hc u Hu. destruct (dist_step u) as (i & c & Hi & Ei & Ez & Eg & H0); [lia|]. apply H0.
      destruct (Hc u Hu) as (a & Ha & Ea & Eta). destruct (Hc (S u)) as (b & Hb & Eb & Etb); [lia|].
      rewrite Ei in Ea. rewrite Ez in Eb. rewrite Eta in Etb. apply Nat2Z.inj in Ea, Eb, Etb.
      assert (Eq : (i + c) mod k = i) by (rewrite Eb, <- Etb; auto). rewrite Eq in Eg. lia.
    Qed.
    Definition old (y : anode) : option anode := find (fun x => negb (dm (amode x)) && (rep (aid x) =? aid y)) A.
    Lemma old_img : forall x, In x A -> dm (amode x) = false -> old (img x) = Some x.
    Proof.
      intros x Hx E. unfold old. destruct (find _ A) as [x'|] eqn:Ef.
      - apply find_some in Ef. destruct Ef as (Hx' & Ef). apply andb_true_iff in Ef. destruct Ef as (E1 & E2).
        apply negb_true_iff in E1. apply Nat.eqb_eq in E2. cbn in E2. f_equal. apply img_inj; auto.
      - exfalso. pose proof (find_none _ _ Ef x Hx) as K. cbn in K. rewrite E, Nat.eqb_refl in K. discriminate.
    Qed.
    Lemma goal_of : exists f, In f (fs_sgoals F) /\ forall s, sgoal F g s = holds F f s.
    Proof.
      exists (nth g (fs_sgoals F) FTrue). split; [apply nth_In; auto|]. intros s. unfold sgoal. reflexivity.
    Qed.
    Lemma const_false : forall t, t0 <= t ->
      (forall u, t <= u -> exists i, i < k /\ amode (p u) = Z.of_nat i /\ amode (p t) = Z.of_nat i) -> False.
    Proof.
      intros t Ht Hc. pose proof (stay t Ht Hc) as Hst. destruct (Hst t (le_n _)) as
        [(x & v & Hx & Hv & Hxv & E & E' & Ep & Ep')|(s & s' & Hs & Hs' & Hss & Ep & Ep')].
      - (* among the images *)
        assert (Hall : forall u, t <= u -> exists x v, In x A /\ In v A /\ In (aid v) (atrans x) /\ dm (amode x) = false /\
          dm (amode v) = false /\ p u = img x /\ p (S u) = img v).
        { intros u Hu. destruct (Hst u Hu) as [K|(s & s' & Hs & Hs' & Hss & Eu & _)]; auto. exfalso.
          destruct (Hc u Hu) as (i & _ & E1 & E2). rewrite Eu in E1. rewrite Ep in E2. cbn in E1, E2.
          apply dm_false in E. apply E. congruence. }
        set (q := fun u => match old (p (t + u)) with Some x => x | None => x end).
        assert (Hq : forall u, In (q u) A /\ dm (amode (q u)) = false /\ p (t + u) = img (q u)).
        { intros u. destruct (Hall (t + u)) as (a & b & Ha & _ & _ & Ea & _ & Eu & _); [lia|]. unfold q.
          rewrite Eu, old_img by auto. auto. }
        destruct goal_of as (f & Hf & Hff). cut (infinitely_often (holds F f) (fun u => astate (q u))).
        { intros K. destruct (K 0) as (u & _ & Eu). rewrite <- Hff in Eu. destruct (Hq u) as (_ & _ & E2).
          change (astate (q u)) with (astate (img (q u))) in Eu. rewrite <- E2, Hno in Eu by lia. discriminate. }
        apply (co_live _ _ Hco q) with (g := f); auto.
        + intros u. split; [apply Hq|]. destruct (Hall (t + u)) as (a & b & Ha & Hb & Hab & Ea & Eb & Eu & Eu'); [lia|].
          assert (Q1 : q u = a) by (unfold q; rewrite Eu, old_img by auto; auto).
          assert (Q2 : q (S u) = b).
          { unfold q. replace (t + S u) with (S (t + u)) by lia. rewrite Eu', old_img by auto. auto. }
          rewrite Q1, Q2. auto.
        + intros He u. specialize (Hne He (t + u)). destruct (Hq u) as (_ & _ & E1). rewrite E1 in Hne. auto.
        + intros h Hh. pose proof (suffix t _ (Heg h Hh)) as K. intros u. destruct (K u) as (u' & Hu & E1).
          exists u'. split; auto. destruct (Hq u') as (_ & _ & E2). rewrite E2 in E1. auto.
      - (* among the new nodes *)
        assert (Hall : forall u, t <= u -> exists s s', In s S0 /\ In s' S0 /\ In (aid s') (atrans s) /\ p u = new s /\ p (S u) = new s').
        { intros u Hu. destruct (Hst u Hu) as [(x & v & Hx & Hv & _ & E & _ & Eu & _)|K]; auto. exfalso.
          destruct (Hc u Hu) as (i & _ & E1 & E2). rewrite Eu in E1. rewrite Ep in E2. cbn in E1, E2.
          apply dm_false in E. apply E. congruence. }
        set (q := fun u => match deref S0 (aid (p (t + u))) with Some x => x | None => s end).
        assert (HndS : NoDup (ids S0)) by apply HS.
        assert (Hq0 : forall u z, In z S0 -> p (t + u) = new z -> q u = z).
        { intros u z Hz Ez. unfold q. rewrite Ez. cbn. rewrite deref_unique; auto. }
        assert (Hq : forall u, In (q u) S0 /\ p (t + u) = new (q u) /\ In (aid (q (S u))) (atrans (q u))).
        { intros u. destruct (Hall (t + u)) as (a & b & Ha & Hb & Hab & Eu & Eu'); [lia|].
          rewrite (Hq0 u a Ha Eu). split; auto. split; auto. rewrite (Hq0 (S u) b); auto.
          replace (t + S u) with (S (t + u)) by lia. auto. }
        destruct (rs_live _ _ _ _ _ HS q) as (u & Hu).
        + intros u. split; apply Hq.
        + intros He u. unfold noenv in He. destruct (fs_evars F) eqn:Ee; [|discriminate].
          pose proof (Hne eq_refl (t + u)) as K. destruct (Hq u) as (_ & E1 & _). rewrite E1 in K. cbn [g_env game_of].
          rewrite Ee. exact K.
        + intros h Hh. cbn in Hh. apply in_map_iff in Hh. destruct Hh as (f & <- & Hf).
          pose proof (suffix t _ (Heg f Hf)) as K. intros u. destruct (K u) as (u' & Hu & E1).
          exists u'. split; auto. destruct (Hq u') as (_ & E2 & _). rewrite E2 in E1. auto.
        + destruct (Hq u) as (H1 & _ & H3). destruct (Hq (S u)) as (H4 & _).
          destruct (rs_safe _ _ _ _ _ HS _ _ H1 H4 H3) as (K & _). congruence.
    Qed.
    Lemma live_false : False.
    Proof.
      assert (H : forall N t i, t0 <= t -> i < k -> amode (p t) = Z.of_nat i -> gap k i g <= N -> False).
      { induction N as [N IH] using (well_founded_induction lt_wf). intros t i Ht Hi Ei Hgap.
        assert (Hc : forall u, exists j, j < k /\ amode (p (t + u)) = Z.of_nat j /\ gap k j g = gap k i g /\ j = i).
        { induction u as [|u (j & Hj & Ej & Eg & ->)]; [rewrite Nat.add_0_r; eauto|].
          destruct (dist_step (t + u)) as (j & c & Hj' & Ej' & Ez & Eg' & _); [lia|].
          rewrite Ej in Ej'. apply Nat2Z.inj in Ej'. subst j. replace (t + S u) with (S (t + u)) by lia.
          assert (Hlt : (i + c) mod k < k) by (apply Nat.mod_upper_bound; lia).
          destruct c as [|c].
          - exists i. split; auto. rewrite Nat.add_0_r, Nat.mod_small in Ez by auto. auto.
          - exfalso. apply (IH (gap k ((i + S c) mod k) g) ltac:(lia) (S (t + u)) ((i + S c) mod k)); auto. lia. }
        apply (const_false t Ht). intros u Hu. destruct (Hc (u - t)) as (j & Hj & Ej & _ & ->).
        replace (t + (u - t)) with u in Ej by lia. exists i. auto. }
      destruct (dist_step t0 (le_n _)) as (i & c & Hi & Ei & _). apply (H (gap k i g) t0 i); auto.
    Qed.
  End Live.

  Lemma without_goal : forall f, In f (fs_sgoals (without d F)) -> exists g, g < k /\ g <> d /\ forall s, sgoal F g s = holds F f s.
  Proof.
    intros f Hf. unfold without in Hf. cbn [fs_sgoals] in Hf. apply in_app_or in Hf. destruct Hf as [Hf|Hf]; apply (In_nth _ _ FTrue) in Hf; destruct Hf as (j & Hj & E).
    - rewrite firstn_length in Hj. fold k in Hj. exists j. split; [lia|]. split; [lia|]. intros s. unfold sgoal.
      rewrite <- E. f_equal. rewrite <- (firstn_skipn d (fs_sgoals F)) at 1. rewrite app_nth1; auto.
      rewrite firstn_length. fold k. lia.
    - rewrite skipn_length in Hj. fold k in Hj. exists (S d + j). split; [lia|]. split; [lia|]. intros s. unfold sgoal.
      rewrite <- E. f_equal. rewrite <- (firstn_skipn (S d) (fs_sgoals F)) at 1.
      rewrite app_nth2; rewrite firstn_length; fold k; [|lia]. f_equal. lia.
  Qed.
  Theorem B_correct : correct (without d F) B.
  Proof.
    constructor.
    - apply B_ids.
    - apply B_closed.
    - apply B_states.
    - apply B_safe.
    - apply B_answer.
    - intros p Hp Hne Heg f Hf t0. destruct (without_goal f Hf) as (g & Hg & Hgd & Es).
      destruct (lasso B (fun y z => In (aid z) (atrans y))
        (map (holds F) (fs_egoals F))
        (fun y => holds F f (astate y) = false /\ (fs_evars F = [] -> g_etr (game_of F) (astate y) [] = true)))
        with (q := fun u => p (t0 + u)) (hit := fun u => holds F f (astate (p (t0 + u)))) as (u & Hu).
      + intros q Hq Hqe. apply (live_false q) with (g := g) (t0 := 0); auto.
        * intros t. destruct (Hq t) as (H1 & H2 & _). auto.
        * intros He t. apply (Hq t). auto.
        * intros h Hh. apply Hqe. apply in_map. auto.
        * intros t _. rewrite Es. apply (Hq t).
      + intros u Hu. replace (t0 + S u) with (S (t0 + u)) by lia. destruct (Hp (t0 + u)) as (H1 & H2).
        split; auto. split; auto. split; [apply (Hu u); auto|]. intros He. apply (Hne He).
      + intros h Hh. apply in_map_iff in Hh. destruct Hh as (h' & <- & Hh).
        intros v. destruct (Heg h' Hh (t0 + v)) as (v' & Hv & Ev). exists (v' - t0). split; [lia|].
        replace (t0 + (v' - t0)) with v' by lia. auto.
      + exists (t0 + u). split; auto. lia.
  Qed.
  Theorem B_keeps : keeps F d A B.
  Proof.
    split.
    - intros x Hx (E1 & E2). exists (img x). split; [apply img_B; auto; apply dm_false; auto|]. auto.
    - intros y Hy Ei. destruct (B_of y Hy) as [(x & Hx & E & ->)|(s & Hs & Hi & ->)]; cbn in *.
      + exists x. auto.
      + destruct (Hi1 s Hs Ei) as [K|(x & Hx & _ & E & K)]; [rewrite Hini in K; auto; discriminate|]. exists x. auto.
  Qed.
End Sem.
