(** Patching the nodes that seek one goal keeps what is known of the others. *)
From Coq Require Import List ZArith Lia Bool Arith.
From Verif Require Import Base Game Bdd Support SupportProofs Ops Strs Ptree Form Solve FSpec Automaton AutProofs AutProofs2 Synth SynthSpec
  Reach ReachSpec ReachProofs ReadState Nonbool AutIO Lasso Hotswap HotSpec HotProofs InteractSpec AddMerge AddSem
  Patch PatchMerge PatchView PatchSpec.
Import ListNotations.
Open Scope nat_scope.

Section Sem.
  Variable F : fspec.
  Variable r : rules.
  Variable N : list vec.
  Variable aff : list (Z * nat).
  Variable A0 : aut.
  Let k := length (fs_sgoals F).
  Let n := length (fs_evars F) + length (fs_svars F).
  Let noenv := match fs_evars F with [] => true | _ => false end.
  Let G' := game_with F r.
  Hypothesis HN : Forall (fun v => length v = n) N.
  Hypothesis Hlen : forall s, In s (fs_states F) -> length s = n.

  (** allowed after the changes, or an answer to a move that was allowed before *)
  Definition step_ok (s s' : vec) : Prop :=
    may_sys r s s' = true /\
    (fs_evars F <> [] -> may_env r s (g_env (game_of F) s') = true \/ may_env (loaded F) s (g_env (game_of F) s') = true).
  Definition node_ok (A : aut) (x : anode) : Prop :=
    (forall y, In y A -> In (aid y) (atrans x) -> step_ok (astate x) (astate y)) /\
    (forall e, legal_env G' (astate x) e -> exists y, In y A /\ In (aid y) (atrans x) /\ g_env (game_of F) (astate y) = e).
  (** no fair path seeking the same goal all the time avoids goal [j] *)
  Definition lively (A : aut) : Prop := forall (p : nat -> anode) j, j < k ->
    (forall t, In (p t) A /\ In (aid (p (S t))) (atrans (p t))) ->
    (fs_evars F = [] -> forall t, may_env r (astate (p t)) [] = true) ->
    (forall g, In g (fs_egoals F) -> infinitely_often (holds F g) (fun t => astate (p t))) ->
    (forall t, amode (p t) = amode (p 0)) ->
    (forall t, sgoal F j (astate (p t)) = false) -> False.
  Definition hit (h : Z) : Prop := exists a, In (h, a) aff.
  (** goals [0], ..., [d - 1] are done *)
  Record inv (d : Z) (A : aut) : Prop := {
    iv_ids : NoDup (ids A);
    iv_closed : closed A;
    iv_states : forall x, In x A -> In (astate x) (fs_states F);
    iv_order : in_order F A;
    iv_lively : lively A;
    iv_sound : forall x, In x A -> ~ (In (amode x, aid x) aff /\ (d <= amode x)%Z) -> node_ok A x;
    iv_aff : forall h a, In (h, a) aff -> (d <= h)%Z -> exists x, In x A /\ aid x = a /\ amode x = h /\ inN N (astate x) = true;
    iv_unique : forall x y, In x A -> In y A -> (d <= amode x)%Z -> astate x = astate y -> amode x = amode y -> x = y;
    iv_rgrad : forall x, In x A -> (d <= amode x)%Z -> (0 <= argrad x)%Z;
    iv_down : forall x y, In x A -> In y A -> (d <= amode x)%Z -> In (aid y) (atrans x) -> amode y = amode x ->
      (argrad y <= argrad x)%Z \/
      (forall j, j < k -> sgoal F j (astate x) = true) /\ ~ (inN N (astate x) = true /\ inN N (astate y) = true);
    iv_entered : forall x y, In x A -> In y A -> In (aid y) (atrans x) -> amode y <> amode x -> (d <= amode y)%Z ->
      inN N (astate y) = true -> hit (amode y) ->
      exists z, In z A /\ amode z = amode y /\ inN N (astate z) = false /\ In (aid y) (atrans z);
    iv_init : forall z, In z A -> ainit z = true -> exists x, In x A0 /\ ainit x = true /\ astate x = astate z /\ amode x = amode z;
    iv_start : forall x, In x A0 -> ainit x = true -> (inN N (astate x) = false \/ ~ hit (amode x) \/ (d <= amode x)%Z) ->
      exists z, In z A /\ ainit z = true /\ astate z = astate x /\ amode z = amode x
  }.
  Lemma inv_skip : forall d A, inv d A -> ~ hit d -> inv (d + 1) A.
  Proof.
    intros d A [V1 V2 V3 V4 V5 V6 V7 V8 V9 V10 V11 V12 V13] Hh.
    constructor; auto.
    2:{ intros h a Ha Hl. apply V7; auto. lia. }
    2:{ intros x y Hx Hy Hl. apply V8; auto. lia. }
    2:{ intros x Hx Hl. apply V9; auto. lia. }
    2:{ intros x y Hx Hy Hl. apply V10; auto. lia. }
    2:{ intros x y Hx Hy Ht Hm Hl. apply V11 with x; auto. lia. }
    - intros x Hx Ha. apply V6; auto. intros (K1 & K2). apply Ha. split; auto.
      assert (amode x <> d) by (intros E; apply Hh; exists (aid x); rewrite <- E; auto). lia.
    - intros x Hx Hi Ha. apply V13; auto. destruct Ha as [Ha|[Ha|Ha]]; auto. right. right. lia.
  Qed.

  Lemma noenv_t : noenv = true -> fs_evars F = [].
  Proof. unfold noenv. destruct (fs_evars F); [auto|discriminate]. Qed.
  Lemma noenv_f : fs_evars F <> [] -> noenv = false.
  Proof. unfold noenv. destruct (fs_evars F); [congruence|auto]. Qed.

  Section Step.
    Variables (d : Z) (A : aut) (U : list anode).
    Hypothesis Hinv : inv d A.
    Hypothesis Hd : (0 <= d)%Z.
    Hypothesis HU : forall x, In x U <-> In x A /\ amode x = d /\ In (amode x, aid x) aff.
    Hypothesis Hhit : hit d.
    Variables (En Ex0 L B : aut).
    Hypothesis Hscan : scan_nodes N d A A [] [] = Ok (En, Ex0).
    Let mn := least_rgrad En U.
    Let Ex := drop_exits (S (length Ex0)) mn [] Ex0.
    Hypothesis Hfin : finish N d En Ex mn L A = Ok (Some B).
    Hypothesis HL : reach_strategy (within (inN N) G') (among (map astate Ex)) (among (map astate En)) noenv L.
    Hypothesis Hini : forall c, In c L -> ainit c = false.
    Hypothesis Hdis : forall a, In a (ids A) -> ~ In a (ids L).
    Lemma p_mode0 : forall x, In x A -> (0 <= amode x)%Z.
    Proof. intros x Hx. pose proof (proj1 (iv_order _ _ Hinv) x Hx). lia. Qed.
    Lemma p_lenA : forall x, In x A -> length (astate x) = n.
    Proof. intros x Hx. apply Hlen. apply (iv_states _ _ Hinv). auto. Qed.
    Lemma p_stL : forall c, In c L -> In (astate c) (fs_states F) /\ inN N (astate c) = true.
    Proof. intros c Hc. pose proof (rs_states _ _ _ _ _ HL c Hc) as K. cbn in K. apply filter_In in K. auto. Qed.
    Lemma p_lenL : forall x, In x L -> length (astate x) = n.
    Proof. intros x Hx. apply Hlen. apply p_stL. auto. Qed.
    Lemma p_nd : NoDup (ids (A ++ L)).
    Proof. apply nodup_app_i; auto; [apply (iv_ids _ _ Hinv)|apply (rs_ids _ _ _ _ _ HL)]. Qed.
    Lemma p_cL : closed L.
    Proof. intros x t Hx Ht. destruct (rs_closed _ _ _ _ _ HL x t Hx Ht) as (y & Hy & <-). apply in_ids. auto. Qed.
    (** *** Entry and Exit *)
    Lemma p_scan : Ex0 = filter (inside N d) A /\ NoDup (map astate En) /\ (forall e, In e En -> entered N d A A e) /\
      (forall y, entered N d A A y -> In y En).
    Proof using Hinv Hlen Hscan.
      destruct (scan_nodes_ok n N d A p_lenA A [] [] En Ex0 Hscan) as (H1 & _ & H2 & H3 & H4); auto.
      - intros e [].
      - constructor.
      - apply (iv_ids _ _ Hinv).
      - split; auto. split; auto. assert (K : forall e, In e En -> entered N d A A e).
        { intros e He. destruct (H3 e He) as [[]|]; auto. }
        split; auto. intros y Hy. destruct (H4 y Hy) as (e & He & Es). destruct (K e He) as (HeA & Hei & _).
        destruct Hy as (HyA & Hyi & _). apply inside_state in Hei. apply inside_state in Hyi.
        destruct Hei as (E1 & _). destruct Hyi as (E2 & _).
        assert (e = y) as <-; [|exact He]. apply (iv_unique _ _ Hinv); auto; [rewrite E1; apply Z.le_refl|rewrite E1, E2; reflexivity].
    Qed.
    Lemma p_En : incl En A.
    Proof. intros e He. apply p_scan in He. apply He. Qed.
    Lemma p_Ex : forall x, In x Ex <-> In x A /\ inside N d x = true /\ (argrad x < mn)%Z.
    Proof.
      intros x. unfold Ex. rewrite drop_exits_ok by lia. rewrite (proj1 p_scan), filter_In. cbn. tauto.
    Qed.
    Lemma p_rge : forall x, In x A -> amode x = d -> (0 <= argrad x)%Z.
    Proof. intros x Hx E. apply (iv_rgrad _ _ Hinv); auto. lia. Qed.
    Lemma p_min : forall x, In x En \/ In x U -> (mn <= argrad x)%Z.
    Proof.
      intros x Hx. apply least_ok; auto.
      - intros e He. apply p_rge; [apply p_En; auto|]. apply p_scan in He. destruct He as (_ & He & _). apply inside_state in He. tauto.
      - intros e He. apply HU in He. apply p_rge; tauto.
    Qed.
    Variables (mE m : smap) (M : nat -> bool) (i rr : Z).
    Hypothesis Hvw : view N d A L En Ex mn B mE m M i rr.
    Let HmE := vw_entry _ _ _ _ _ _ _ _ _ _ _ _ _ Hvw.
    Let HX := vw_exit _ _ _ _ _ _ _ _ _ _ _ _ _ Hvw.
    Let ndA := ndA A L p_nd.
    Let ndL := ndL A L p_nd.
    Let ndX := ndX A L p_nd.
    (** transitions of old nodes, redirected *)
    Lemma p_sub : forall y, In y A -> (In y En -> exists c, In c L /\ astate c = astate y /\ assoc (aid y) mE = Some (Some (aid c))) /\
      (~ In y En -> assoc (aid y) mE = None).
    Proof.
      intros y Hy. assert (Hdom : forall a, In a (map fst mE) <-> exists e, In e En /\ aid e = a).
      { intros a. rewrite (em_dom _ _ _ HmE), in_map_iff. split; intros (e & H1 & H2); exists e; auto. }
      split.
      - intros He. destruct (assoc_In (aid y) mE) as (v & Ev); [apply Hdom; eauto|].
        pose proof (assoc_Some _ _ _ Ev) as Hv. destruct (em_val _ _ _ HmE _ _ Hv) as (e & c & He' & Hc & Ee & -> & Es).
        assert (e = y) by (apply (node_unique A); auto; apply p_En; auto). subst e. exists c. auto.
      - intros He. apply assoc_None. intros K. apply Hdom in K. destruct K as (e & He' & Ee). apply He.
        assert (e = y) by (apply (node_unique A); auto; apply p_En; auto). subst e. auto.
    Qed.
    (** *** Marked nodes *)
    Lemma p_mark : forall x, In x A -> M (aid x) = true -> inside N d x = true /\ (argrad x < mn)%Z.
    Proof.
      assert (H : forall a, mr N d A Ex mE a -> forall x, In x A -> aid x = a -> inside N d x = true /\ (argrad x < mn)%Z).
      { intros a Ha. induction Ha as [y Hy|a b Ha IH Hab Hb]; intros x Hx E.
        - pose proof (proj1 (p_Ex y) Hy) as (HyA & H1 & H2). assert (x = y) by (apply (node_unique A); auto). subst y. auto.
        - destruct Hb as (y & Hy & Ey & Hyi). assert (y = x) by (apply (node_unique A); auto; congruence). subst y.
          destruct Hab as (w & Hw & Ew & Hwb). apply in_map_iff in Hw. destruct Hw as (w0 & <- & Hw0). cbn in Ew, Hwb.
          destruct (IH w0 Hw0 Ew) as (Hwi & Hwr). split; auto. apply sub_In in Hwb. destruct Hwb as (t & Ht & K).
          pose proof (iv_closed _ _ Hinv w0 t Hw0 Ht) as Htc. apply ids_in in Htc. destruct Htc as (u & Hu & Eu). subst t.
          destruct (p_sub u Hu) as (S1 & S2). destruct (in_dec anode_dec u En) as [He|He].
          + destruct (S1 He) as (c & Hc & _ & Ea). rewrite Ea in K. exfalso. apply (ndX (aid x)); [apply in_ids; auto|].
            rewrite Ey, K. apply in_ids. auto.
          + rewrite (S2 He) in K. assert (u = x) by (apply (node_unique A); auto; congruence). subst u.
            apply inside_state in Hwi. apply inside_state in Hyi. destruct Hwi as (Wm & WN). destruct Hyi as (Xm & XN).
            destruct (iv_down _ _ Hinv w0 x Hw0 Hx ltac:(lia) Ht ltac:(congruence)) as [K1|(_ & K1)]; [lia|]. exfalso. apply K1. auto. }
      intros x Hx Hm. apply (H (aid x)); auto. apply (xm_from _ _ _ _ _ _ _ _ HX). auto.
    Qed.
    Lemma p_notEn : forall e, In e En -> drop N d M e = true.
    Proof.
      intros e He. pose proof (p_En e He) as HeA. pose proof (proj1 (proj2 (proj2 p_scan)) e He) as (_ & Hei & _). unfold drop. rewrite Hei. cbn.
      destruct (M (aid e)) eqn:E; auto. destruct (p_mark e HeA E) as (_ & K). pose proof (p_min e (or_introl He)). lia.
    Qed.
    Lemma p_end : forall c, In c L -> atrans c = [] -> exists x, In x Ex /\ astate x = astate c /\ M (aid x) = true /\ assoc (aid c) m = Some (Some (aid x)).
    Proof.
      intros c Hc Hn. pose proof (proj2 (vw_ends _ _ _ _ _ _ _ _ _ _ _ _ _ Hvw c Hc) Hn) as Hi. destruct (assoc_In _ _ Hi) as (v & Ev).
      destruct (xm_val _ _ _ _ _ _ _ _ HX _ _ (assoc_Some _ _ _ Ev)) as (c' & x & Hc' & Ec & _ & Hx & -> & Es & Hm).
      assert (c' = c) by (apply (node_unique L); auto). subst c'. exists x. auto.
    Qed.
    Lemma p_notend : forall c, In c L -> atrans c <> [] -> assoc (aid c) m = None.
    Proof. intros c Hc Hn. apply assoc_None. intros K. apply Hn. apply (vw_ends _ _ _ _ _ _ _ _ _ _ _ _ _ Hvw c Hc). auto. Qed.
    Lemma p_entry_live : forall e c, In e En -> In c L -> astate c = astate e -> atrans c <> [].
    Proof.
      intros e c He Hc Es Hn. destruct (p_end c Hc Hn) as (x & Hx & Ex1 & _). apply p_Ex in Hx. destruct Hx as (HxA & Hxi & Hxr).
      pose proof (p_min e (or_introl He)). pose proof (proj1 (proj2 (proj2 p_scan)) e He) as (HeA & Hei & _).
      apply inside_state in Hxi. apply inside_state in Hei. destruct Hxi as (X1 & _). destruct Hei as (E1 & _).
      assert (x = e); [|subst; lia]. apply (iv_unique _ _ Hinv); auto; try congruence. lia.
    Qed.
    (** *** Nodes *)
    Lemma p_node : forall z, In z B <-> (exists x, In x A /\ drop N d M x = false /\ z = oldn N d A mE M i x) \/
      (exists c, In c L /\ atrans c <> [] /\ z = newn d m (rr * i) c).
    Proof.
      intros z. rewrite (vw_form _ _ _ _ _ _ _ _ _ _ _ _ _ Hvw), in_app_iff, !in_map_iff. split.
      - intros [(x & <- & Hx)|(c & <- & Hc)]; [left|right].
        + apply filter_In in Hx. destruct Hx as (Hx & E). apply negb_true_iff in E. eauto.
        + apply filter_In in Hc. destruct Hc as (Hc & E). apply negb_true_iff in E. exists c. split; auto. split; auto.
          intros K. apply no_trans_nil in K. congruence.
      - intros [(x & Hx & E & ->)|(c & Hc & E & ->)]; [left|right].
        + exists x. split; auto. apply filter_In. rewrite E. auto.
        + exists c. split; auto. apply filter_In. split; auto. apply negb_true_iff. destruct (no_trans c) eqn:K; auto.
          apply no_trans_nil in K. congruence.
    Qed.
    Lemma p_old : forall x, In x A -> drop N d M x = false -> In (oldn N d A mE M i x) B.
    Proof. intros x Hx E. apply p_node. left. eauto. Qed.
    Lemma p_new : forall c, In c L -> atrans c <> [] -> In (newn d m (rr * i) c) B.
    Proof. intros c Hc E. apply p_node. right. eauto. Qed.
    Lemma p_nodup : NoDup (ids B).
    Proof.
      rewrite (vw_form _ _ _ _ _ _ _ _ _ _ _ _ _ Hvw). apply nodup_app_i.
      - rewrite (ids_map (oldn N d A mE M i)) by reflexivity. apply nodup_filter_ids. auto.
      - rewrite (ids_map (newn d m (rr * i))) by reflexivity. apply nodup_filter_ids. auto.
      - intros a H1 H2. rewrite (ids_map (oldn N d A mE M i)) in H1 by reflexivity.
        rewrite (ids_map (newn d m (rr * i))) in H2 by reflexivity.
        apply ids_in in H1. destruct H1 as (x & Hx & <-). apply ids_in in H2. destruct H2 as (c & Hc & E). apply filter_In in Hx, Hc.
        apply (ndX (aid x)); [apply in_ids; tauto|]. rewrite <- E. apply in_ids. tauto.
    Qed.
    (** a kept node leads to kept nodes and entries only *)
    Lemma p_kept : forall x y, In x A -> drop N d M x = false -> In y A -> In (aid y) (atrans x) -> ~ In y En -> drop N d M y = false.
    Proof.
      intros x y Hx Hk Hy Ht Hn. destruct (drop N d M y) eqn:E; auto. exfalso. unfold drop in E. apply andb_true_iff in E.
      destruct E as (Hyi & Hm). apply negb_true_iff in Hm. pose proof Hyi as Hyi'. apply inside_state in Hyi'. destruct Hyi' as (Ym & YN).
      destruct (Z.eq_dec (amode x) d) as [Xm|Xm].
      - destruct (inN N (astate x)) eqn:XN.
        + assert (Hxm : M (aid x) = true).
          { unfold drop, inside in Hk. rewrite Xm, Z.eqb_refl, XN in Hk. cbn in Hk. apply negb_false_iff in Hk. auto. }
          assert (K : M (aid y) = true); [|congruence]. apply (xm_next _ _ _ _ _ _ _ _ HX (aid x) (aid y)); auto.
          * exists (ren mE x). split; [apply in_map; auto|]. split; auto. cbn. apply sub_In. exists (aid y). split; auto.
            rewrite (proj2 (p_sub y Hy) Hn). reflexivity.
          * exists y. auto.
        + apply Hn. apply p_scan. split; auto. split; auto. exists x. auto.
      - destruct (iv_entered _ _ Hinv x y Hx Hy Ht) as (z & Hz & Zm & ZN & Zt); [congruence|lia|auto|rewrite Ym; auto|].
        apply Hn. apply p_scan. split; auto. split; auto. exists z. rewrite Zm. auto.
    Qed.
    Lemma p_keepL : forall c, In c L -> keep N d A M (aid c) = true.
    Proof.
      intros c Hc. unfold keep. destruct (deref A (aid c)) as [x|] eqn:E; auto. exfalso. apply deref_In in E. destruct E as (Hx & E).
      apply (ndX (aid x)); [apply in_ids; auto|]. rewrite E. apply in_ids. auto.
    Qed.
    Lemma p_edge_old : forall x t, In x A -> drop N d M x = false -> In t (atrans (oldn N d A mE M i x)) ->
      exists y, In y A /\ In (aid y) (atrans x) /\
        (~ In y En /\ drop N d M y = false /\ t = aid y \/
         In y En /\ exists c, In c L /\ atrans c <> [] /\ astate c = astate y /\ t = aid c).
    Proof.
      intros x t Hx Hk Ht. cbn in Ht. apply filter_In in Ht. destruct Ht as (Ht & _). apply sub_In in Ht. destruct Ht as (u & Hu & E).
      pose proof (iv_closed _ _ Hinv x u Hx Hu) as K. apply ids_in in K. destruct K as (y & Hy & <-). exists y. split; auto. split; auto.
      destruct (p_sub y Hy) as (S1 & S2). destruct (in_dec anode_dec y En) as [He|He].
      - right. split; auto. destruct (S1 He) as (c & Hc & Es & Ea). rewrite Ea in E. exists c. split; auto.
        split; [apply (p_entry_live y c); auto|]. auto.
      - left. rewrite (S2 He) in E. split; auto. split; auto. apply (p_kept x y); auto.
    Qed.
    Lemma p_ans_old : forall x y, In x A -> drop N d M x = false -> In y A -> In (aid y) (atrans x) ->
      exists z, In z B /\ In (aid z) (atrans (oldn N d A mE M i x)) /\ astate z = astate y /\ amode z = amode y /\
        (~ In y En -> z = oldn N d A mE M i y).
    Proof.
      intros x y Hx Hk Hy Ht. destruct (p_sub y Hy) as (S1 & S2). destruct (in_dec anode_dec y En) as [He|He].
      - destruct (S1 He) as (c & Hc & Es & Ea). exists (newn d m (rr * i) c). split.
        { apply p_new; auto. apply (p_entry_live y c); auto. }
        split; [|split; auto; split].
        + cbn. apply filter_In. split; [|apply p_keepL; auto]. apply sub_In. exists (aid y). rewrite Ea. auto.
        + cbn. pose proof (proj1 (proj2 (proj2 p_scan)) y He) as (_ & Hi & _). apply inside_state in Hi. symmetry. tauto.
        + intros K. tauto.
      - pose proof (p_kept x y Hx Hk Hy Ht He) as Hky. exists (oldn N d A mE M i y). split; [apply p_old; auto|]. split; [|auto].
        cbn. apply filter_In. split; [apply sub_In; exists (aid y); rewrite (S2 He); auto|].
        rewrite (keep_node N d A L p_nd M y Hy), Hky. reflexivity.
    Qed.
    Lemma p_edge_new : forall c t, In c L -> In t (atrans (newn d m (rr * i) c)) ->
      exists c', In c' L /\ In (aid c') (atrans c) /\
        (atrans c' <> [] /\ t = aid c' \/
         atrans c' = [] /\ exists x, In x Ex /\ astate x = astate c' /\ M (aid x) = true /\ t = aid x).
    Proof.
      intros c t Hc Ht. cbn in Ht. apply sub_In in Ht. destruct Ht as (u & Hu & E).
      destruct (rs_closed _ _ _ _ _ HL c u Hc Hu) as (c' & Hc' & <-). exists c'. split; auto. split; auto.
      destruct (atrans c') as [|v l] eqn:Ec.
      - right. split; auto. destruct (p_end c' Hc' Ec) as (x & Hx & Es & Hm & Ea). rewrite Ea in E. exists x. auto.
      - left. split; [discriminate|]. rewrite p_notend in E by (auto; rewrite Ec; discriminate). auto.
    Qed.
    Lemma p_markkept : forall x, M (aid x) = true -> drop N d M x = false.
    Proof. intros x H. unfold drop. rewrite H. apply andb_false_r. Qed.
    Lemma p_ans_new : forall c c', In c L -> In c' L -> In (aid c') (atrans c) ->
      exists z, In z B /\ In (aid z) (atrans (newn d m (rr * i) c)) /\ astate z = astate c' /\ amode z = d.
    Proof.
      intros c c' Hc Hc' Ht. destruct (atrans c') as [|v l] eqn:Ec.
      - destruct (p_end c' Hc' Ec) as (x & Hx & Es & Hm & Ea). pose proof (proj1 (p_Ex x) Hx) as (HxA & Hxi & _).
        exists (oldn N d A mE M i x). split; [apply p_old; auto; apply p_markkept; auto|]. split; [|split; auto].
        + cbn. apply sub_In. exists (aid c'). rewrite Ea. auto.
        + cbn. apply inside_state in Hxi. tauto.
      - exists (newn d m (rr * i) c'). split; [apply p_new; auto; rewrite Ec; discriminate|]. split; [|auto].
        cbn. apply sub_In. exists (aid c'). rewrite p_notend by (auto; rewrite Ec; discriminate). auto.
    Qed.
    (** the transitions between nodes of the result *)
    Lemma p_edge : forall z w, In z B -> In w B -> In (aid w) (atrans z) ->
      (exists x y, In x A /\ In y A /\ drop N d M x = false /\ In (aid y) (atrans x) /\ z = oldn N d A mE M i x /\ drop N d M y = false /\ w = oldn N d A mE M i y) \/
      (exists x y c, In x A /\ In y A /\ drop N d M x = false /\ In (aid y) (atrans x) /\ z = oldn N d A mE M i x /\ In y En /\ In c L /\ atrans c <> [] /\ astate c = astate y /\ w = newn d m (rr * i) c) \/
      (exists c c', In c L /\ In c' L /\ atrans c <> [] /\ In (aid c') (atrans c) /\ z = newn d m (rr * i) c /\ atrans c' <> [] /\ w = newn d m (rr * i) c') \/
      (exists c c' x, In c L /\ In c' L /\ atrans c <> [] /\ In (aid c') (atrans c) /\ z = newn d m (rr * i) c /\ atrans c' = [] /\ In x Ex /\ astate x = astate c' /\ M (aid x) = true /\ w = oldn N d A mE M i x).
    Proof.
      intros z w Hz Hw Ht. apply p_node in Hz. destruct Hz as [(x & Hx & Hk & ->)|(c & Hc & Hn & ->)].
      - destruct (p_edge_old x (aid w) Hx Hk Ht) as (y & Hy & Hty & [(He & Hky & Et)|(He & c & Hc & Hcn & Es & Et)]).
        + left. exists x, y. repeat (split; auto). apply (node_unique B); auto; [apply p_nodup|apply p_old; auto].
        + right. left. exists x, y, c. repeat (split; auto). apply (node_unique B); auto; [apply p_nodup|apply p_new; auto].
      - right. right. destruct (p_edge_new c (aid w) Hc Ht) as (c' & Hc' & Htc & [(Hn' & Et)|(Hn' & x & Hx & Es & Hm & Et)]).
        + left. exists c, c'. repeat (split; auto). apply (node_unique B); auto; [apply p_nodup|apply p_new; auto].
        + right. exists c, c', x. repeat (split; auto). apply (node_unique B); auto; [apply p_nodup|].
          apply p_old; [apply p_Ex; auto|]. apply p_markkept; auto.
    Qed.
    (** *** Paths *)
    Definition is_old (z : anode) : bool := match deref A (aid z) with Some _ => true | None => false end.
    Definition core (z : anode) : anode :=
      match deref A (aid z) with Some x => x | None => match deref L (aid z) with Some c => c | None => z end end.
    Lemma core_old : forall x, In x A -> is_old (oldn N d A mE M i x) = true /\ core (oldn N d A mE M i x) = x.
    Proof. intros x Hx. unfold is_old, core. cbn. rewrite deref_unique by auto. auto. Qed.
    Lemma core_new : forall c, In c L -> is_old (newn d m (rr * i) c) = false /\ core (newn d m (rr * i) c) = c.
    Proof.
      intros c Hc. unfold is_old, core. cbn. assert (E : deref A (aid c) = None).
      { apply deref_None. intros K. apply (ndX _ K). apply in_ids. auto. }
      rewrite E, deref_unique by auto. auto.
    Qed.
    Lemma core_state : forall z, In z B -> astate (core z) = astate z.
    Proof.
      intros z Hz. apply p_node in Hz. destruct Hz as [(x & Hx & _ & ->)|(c & Hc & _ & ->)].
      - rewrite (proj2 (core_old x Hx)). reflexivity.
      - rewrite (proj2 (core_new c Hc)). reflexivity.
    Qed.
    Lemma core_A : forall z, In z B -> is_old z = true -> In (core z) A /\ amode (core z) = amode z.
    Proof.
      intros z Hz Ho. apply p_node in Hz. destruct Hz as [(x & Hx & _ & ->)|(c & Hc & _ & ->)].
      - rewrite (proj2 (core_old x Hx)). auto.
      - rewrite (proj1 (core_new c Hc)) in Ho. discriminate.
    Qed.
    Lemma core_L : forall z, In z B -> is_old z = false -> In (core z) L /\ amode z = d.
    Proof.
      intros z Hz Ho. apply p_node in Hz. destruct Hz as [(x & Hx & _ & ->)|(c & Hc & _ & ->)].
      - rewrite (proj1 (core_old x Hx)) in Ho. discriminate.
      - rewrite (proj2 (core_new c Hc)). auto.
    Qed.
    Lemma core_edge : forall z w, In z B -> In w B -> In (aid w) (atrans z) ->
      match is_old z, is_old w with
      | true, true => In (aid (core w)) (atrans (core z))
      | true, false => exists e, In e En /\ In (aid e) (atrans (core z))
      | false, false => In (aid (core w)) (atrans (core z))
      | false, true => In (core w) Ex
      end.
    Proof.
      intros z w Hz Hw Ht. destruct (p_edge z w Hz Hw Ht) as
        [(x & y & Hx & Hy & _ & Hxy & -> & _ & ->)|[(x & y & c & Hx & Hy & _ & Hxy & -> & He & Hc & _ & _ & ->)|
         [(c & c' & Hc & Hc' & _ & Hcc & -> & _ & ->)|(c & c' & x & Hc & Hc' & _ & Hcc & -> & _ & Hx & _ & _ & ->)]]].
      - rewrite (proj1 (core_old x Hx)), (proj1 (core_old y Hy)), (proj2 (core_old x Hx)), (proj2 (core_old y Hy)). auto.
      - rewrite (proj1 (core_old x Hx)), (proj2 (core_old x Hx)), (proj1 (core_new c Hc)). eauto.
      - rewrite (proj1 (core_new c Hc)), (proj1 (core_new c' Hc')), (proj2 (core_new c Hc)), (proj2 (core_new c' Hc')). auto.
      - pose proof (proj1 (proj1 (p_Ex x) Hx)) as HxA.
        rewrite (proj1 (core_new c Hc)), (proj1 (core_old x HxA)), (proj2 (core_old x HxA)). auto.
    Qed.
    Section Path.
      Variables (p : nat -> anode) (j : nat).
      Hypothesis Hj : j < k.
      Hypothesis Hp : forall t, In (p t) B /\ In (aid (p (S t))) (atrans (p t)).
      Hypothesis Hne : fs_evars F = [] -> forall t, may_env r (astate (p t)) [] = true.
      Hypothesis Heg : forall g, In g (fs_egoals F) -> infinitely_often (holds F g) (fun t => astate (p t)).
      Hypothesis Hmo : forall t, amode (p t) = amode (p 0).
      Hypothesis Hno : forall t, sgoal F j (astate (p t)) = false.
      Let q t := core (p t).
      Lemma q_state : forall t, astate (q t) = astate (p t).
      Proof. intros t. apply core_state. apply Hp. Qed.
      Lemma q_edge : forall t, match is_old (p t), is_old (p (S t)) with
        | true, true => In (aid (q (S t))) (atrans (q t))
        | true, false => exists e, In e En /\ In (aid e) (atrans (q t))
        | false, false => In (aid (q (S t))) (atrans (q t))
        | false, true => In (q (S t)) Ex
        end.
      Proof. intros t. apply core_edge; apply Hp. Qed.
      Lemma q_io : forall t g, In g (fs_egoals F) -> infinitely_often (holds F g) (fun u => astate (q (t + u))).
      Proof.
        intros t g Hg u. destruct (Heg g Hg (t + u)) as (v & Hv & E). exists (v - t). split; [lia|].
        replace (t + (v - t)) with v by lia. rewrite q_state. auto.
      Qed.
      Lemma q_old : forall t, (forall u, t <= u -> is_old (p u) = true) -> False.
      Proof.
        intros t Ho. apply (iv_lively _ _ Hinv (fun u => q (t + u)) j); auto.
        - intros u. pose proof (Ho (t + u) ltac:(lia)) as O1. pose proof (Ho (S (t + u)) ltac:(lia)) as O2.
          split; [apply core_A; auto; apply Hp|]. pose proof (q_edge (t + u)) as K. rewrite O1, O2 in K.
          replace (t + S u) with (S (t + u)) by lia. auto.
        - intros He u. rewrite q_state. auto.
        - intros g Hg. apply q_io; auto.
        - intros u. unfold q. rewrite (proj2 (core_A (p (t + u)) (proj1 (Hp _)) (Ho (t + u) ltac:(lia)))).
          rewrite (proj2 (core_A (p (t + 0)) (proj1 (Hp _)) (Ho (t + 0) ltac:(lia)))).
          rewrite (Hmo (t + u)), (Hmo (t + 0)). auto.
        - intros u. rewrite q_state. auto.
      Qed.
      Lemma q_new : forall t, (forall u, t <= u -> is_old (p u) = false) -> False.
      Proof.
        intros t Ho. set (q' := fun u => q (t + u)).
        assert (Hq : forall u, In (q' u) L /\ In (aid (q' (S u))) (atrans (q' u))).
        { intros u. pose proof (Ho (t + u) ltac:(lia)) as O1. pose proof (Ho (S (t + u)) ltac:(lia)) as O2. unfold q'.
          split; [apply core_L; auto; apply Hp|]. pose proof (q_edge (t + u)) as K. rewrite O1, O2 in K.
          replace (t + S u) with (S (t + u)) by lia. auto. }
        destruct (rs_live _ _ _ _ _ HL q') as (u & Hu).
        - auto.
        - intros E u. pose proof (noenv_t E) as Ee.
          unfold q'. rewrite q_state. cbn [g_env g_etr within G' game_with game_of]. rewrite Ee. cbn [length firstn]. apply Hne. auto.
        - intros h Hh. cbn [g_egoals within G' game_with game_of] in Hh. apply in_map_iff in Hh. destruct Hh as (f & <- & Hf). apply q_io; auto.
        - destruct (Hq u) as (H1 & H3). destruct (Hq (S u)) as (H4 & _).
          destruct (rs_safe _ _ _ _ _ HL _ _ H1 H4 H3) as (K & _). congruence.
      Qed.
      Lemma q_low : forall t, amode (p t) = d -> is_old (p t) = true -> (argrad (q t) < mn)%Z ->
        is_old (p (S t)) = true /\ (argrad (q (S t)) < mn)%Z.
      Proof.
        intros t Hm Ho Hr. destruct (core_A (p t) (proj1 (Hp t)) Ho) as (Hq & Em). fold (q t) in Hq, Em.
        assert (Hdn : forall y, In y A -> In (aid y) (atrans (q t)) -> amode y = d -> (argrad y < mn)%Z).
        { intros y Hy Ht Ey. destruct (iv_down _ _ Hinv (q t) y Hq Hy ltac:(lia) Ht ltac:(congruence)) as [K|(K & _)]; [lia|].
          specialize (K j Hj). rewrite q_state, Hno in K. discriminate. }
        pose proof (q_edge t) as K. rewrite Ho in K. destruct (is_old (p (S t))) eqn:Ho'.
        - split; auto. destruct (core_A (p (S t)) (proj1 (Hp _)) Ho') as (H1 & H2). apply Hdn; auto.
          unfold q. rewrite H2, Hmo, <- Hm, (Hmo t). auto.
        - destruct K as (e & He & Hte). exfalso. pose proof (p_min e (or_introl He)).
          pose proof (proj1 (proj2 (proj2 p_scan)) e He) as (HeA & Hei & _). apply inside_state in Hei. destruct Hei as (Em' & _).
          specialize (Hdn e HeA Hte Em'). lia.
      Qed.
      Lemma p_path : False.
      Proof.
        apply (leave (fun t => is_old (p t)) 0).
        { intros K. apply (q_old 0). auto. }
        intros (u & _ & _ & Eu).
        apply (leave (fun t => negb (is_old (p t))) u).
        { intros K. apply (q_new u). intros v Hv. specialize (K v Hv). apply negb_true_iff. auto. }
        intros (v & Hv & Hb & Ev). apply negb_false_iff in Ev.
        assert (Hlt : u < v) by (destruct (Nat.eq_dec u v) as [->|]; [congruence|lia]).
        pose proof (Hb (v - 1) ltac:(lia) ltac:(lia)) as Ew. apply negb_true_iff in Ew.
        pose proof (q_edge (v - 1)) as K. replace (S (v - 1)) with v in K by lia. rewrite Ew, Ev in K.
        destruct (core_L (p (v - 1)) (proj1 (Hp _)) Ew) as (_ & Em).
        assert (Hmd : forall t, amode (p t) = d) by (intros t; rewrite Hmo, <- Em, (Hmo (v - 1)); auto).
        apply p_Ex in K. destruct K as (_ & _ & Kr).
        assert (Hall : forall w, is_old (p (v + w)) = true /\ (argrad (q (v + w)) < mn)%Z).
        { induction w as [|w (IH1 & IH2)]; [rewrite Nat.add_0_r; auto|].
          replace (v + S w) with (S (v + w)) by lia. apply q_low; auto. }
        apply (q_old v). intros w Hw. replace w with (v + (w - v)) by lia. apply Hall.
      Qed.
    End Path.
    (** *** The invariant *)
    Lemma p_target : forall c, In c L -> atrans c <> [] -> among (map astate Ex) (astate c) = false.
    Proof.
      intros c Hc Ht. destruct (atrans c) as [|t l] eqn:Et; [congruence|]. assert (Hi : In t (atrans c)) by (rewrite Et; left; auto).
      destruct (rs_closed _ _ _ _ _ HL c t Hc Hi) as (c' & Hc' & <-). apply (rs_safe _ _ _ _ _ HL c c' Hc Hc' Hi).
    Qed.
    Lemma p_safeL : forall c c', In c L -> In c' L -> In (aid c') (atrans c) -> step_ok (astate c) (astate c').
    Proof.
      intros c c' Hc Hc' Ht. destruct (rs_safe _ _ _ _ _ HL c c' Hc Hc' Ht) as (_ & H1 & H2). split; [exact H1|].
      intros He. left. apply H2. apply noenv_f. auto.
    Qed.
    Lemma p_keep_other : forall x, amode x <> d -> drop N d M x = false.
    Proof. intros x E. unfold drop, inside. rewrite (proj2 (Z.eqb_neq _ _) E). reflexivity. Qed.
    Theorem p_inv : inv (d + 1) B.
    Proof.
      assert (Hold : forall z, In z B -> (d + 1 <= amode z)%Z -> exists x, In x A /\ drop N d M x = false /\ z = oldn N d A mE M i x).
      { intros z Hz Hm. apply p_node in Hz. destruct Hz as [K|(c & Hc & _ & ->)]; auto. cbn in Hm. lia. }
      pose proof (vw_scale _ _ _ _ _ _ _ _ _ _ _ _ _ Hvw) as Hi1.
      constructor.
      - apply p_nodup.
      - intros z t Hz Ht. apply p_node in Hz. destruct Hz as [(x & Hx & Hk & ->)|(c & Hc & Hn & ->)].
        + destruct (p_edge_old x t Hx Hk Ht) as (y & Hy & _ & [(_ & Hky & ->)|(_ & c & Hc & Hcn & _ & ->)]).
          * apply (in_ids B _ (p_old y Hy Hky)).
          * apply (in_ids B _ (p_new c Hc Hcn)).
        + destruct (p_edge_new c t Hc Ht) as (c' & Hc' & _ & [(Hn' & ->)|(_ & x & Hx & _ & Hm & ->)]).
          * apply (in_ids B _ (p_new c' Hc' Hn')).
          * apply (in_ids B _ (p_old x (proj1 (proj1 (p_Ex x) Hx)) (p_markkept x Hm))).
      - intros z Hz. rewrite <- core_state by auto. destruct (is_old z) eqn:E.
        + apply (iv_states _ _ Hinv). apply core_A; auto.
        + apply p_stL. apply core_L; auto.
      - destruct (iv_order _ _ Hinv) as (O1 & O2). destruct Hhit as (a & Ha). destruct (iv_aff _ _ Hinv d a Ha ltac:(lia)) as (x0 & Hx0 & _ & Em0 & _).
        pose proof (O1 x0 Hx0) as Od. rewrite Em0 in Od. split.
        + intros z Hz. apply p_node in Hz. destruct Hz as [(x & Hx & Hk & ->)|(c & Hc & Hn & ->)]; [apply (O1 x Hx)|exact Od].
        + assert (Hdd : forall s, exists i0 c, i0 < length (fs_sgoals F) /\ d = Z.of_nat i0 /\ d = Z.of_nat ((i0 + c) mod length (fs_sgoals F)) /\
            forall j, j < c -> sgoal F ((i0 + j) mod length (fs_sgoals F)) s = true).
          { intros s. exists (Z.to_nat d), 0. split; [lia|]. split; [lia|]. split; [|intros j Hj; lia].
            rewrite Nat.add_0_r, Nat.mod_small by lia. lia. }
          intros z w Hz Hw Ht. destruct (p_edge z w Hz Hw Ht) as
            [(x & y & Hx & Hy & _ & Hxy & -> & _ & ->)|[(x & y & c & Hx & Hy & _ & Hxy & -> & He & Hc & _ & Es & ->)|
             [(c & c' & Hc & Hc' & _ & Hcc & -> & _ & ->)|(c & c' & x & Hc & Hc' & _ & Hcc & -> & _ & Hx & _ & _ & ->)]]].
          * apply (O2 x y Hx Hy Hxy).
          * pose proof (O2 x y Hx Hy Hxy) as K. pose proof (proj1 (proj2 (proj2 p_scan)) y He) as (_ & Hi & _). apply inside_state in Hi.
            destruct Hi as (Em & _). rewrite Em in K. cbn [amode astate oldn newn]. rewrite Es. exact K.
          * cbn [amode astate newn]. apply Hdd.
          * pose proof (proj1 (p_Ex x) Hx) as (_ & Hi & _). apply inside_state in Hi. destruct Hi as (Em & _).
            cbn [amode astate newn oldn]. rewrite Em. apply Hdd.
      - intros p j Hj Hp Hne Heg Hmo Hno. apply (p_path p j); auto.
      - intros z Hz Ha. apply p_node in Hz. destruct Hz as [(x & Hx & Hk & ->)|(c & Hc & Hn & ->)].
        + assert (Hna : ~ (In (amode x, aid x) aff /\ (d <= amode x)%Z)).
          { intros (K1 & K2). cbn in Ha. destruct (Z.eq_dec (amode x) d) as [E|E]; [|apply Ha; split; auto; lia].
            destruct (iv_aff _ _ Hinv _ _ K1 K2) as (x' & Hx' & Ex' & _ & XN).
            assert (x' = x) by (apply (node_unique A); auto). subst x'.
            assert (Hm : M (aid x) = true).
            { unfold drop, inside in Hk. rewrite E, Z.eqb_refl, XN in Hk. cbn in Hk. apply negb_false_iff in Hk. auto. }
            destruct (p_mark x Hx Hm) as (_ & K). assert (HxU : In x U) by (apply HU; auto).
            pose proof (p_min x (or_intror HxU)). lia. }
          destruct (iv_sound _ _ Hinv x Hx Hna) as (S1 & S2). split.
          * intros w Hw Ht. destruct (p_edge_old x (aid w) Hx Hk Ht) as (y & Hy & Hty & [(_ & Hky & Et)|(_ & c & Hc & Hcn & Es & Et)]).
            -- assert (w = oldn N d A mE M i y) by (apply (node_unique B); auto; [apply p_nodup|apply p_old; auto]). subst w.
               apply (S1 y Hy Hty).
            -- assert (w = newn d m (rr * i) c) by (apply (node_unique B); auto; [apply p_nodup|apply p_new; auto]). subst w.
               cbn [astate newn oldn]. rewrite Es. apply (S1 y Hy Hty).
          * intros e He. destruct (S2 e He) as (y & Hy & Ht & Ee). destruct (p_ans_old x y Hx Hk Hy Ht) as (w & Hw & Htw & Es & _).
            exists w. split; auto. split; auto. rewrite Es. auto.
        + split.
          * intros w Hw Ht. destruct (p_edge_new c (aid w) Hc Ht) as (c' & Hc' & Htc & [(Hn' & Et)|(_ & x & Hx & Es & Hm & Et)]).
            -- assert (w = newn d m (rr * i) c') by (apply (node_unique B); auto; [apply p_nodup|apply p_new; auto]). subst w.
               apply (p_safeL c c' Hc Hc' Htc).
            -- assert (w = oldn N d A mE M i x).
               { apply (node_unique B); auto; [apply p_nodup|]. apply p_old; [apply p_Ex; auto|]. apply p_markkept; auto. }
               subst w. cbn [astate newn oldn]. rewrite Es. apply (p_safeL c c' Hc Hc' Htc).
          * intros e He. destruct (rs_answer _ _ _ _ _ HL c e Hc (p_target c Hc Hn) He) as (c' & Hc' & Ht & Ee & _).
            destruct (p_ans_new c c' Hc Hc' Ht) as (w & Hw & Htw & Es & _). exists w. split; auto. split; auto. rewrite Es. exact Ee.
      - intros h a Ha Hl. destruct (iv_aff _ _ Hinv h a Ha ltac:(lia)) as (x & Hx & E1 & E2 & E3).
        exists (oldn N d A mE M i x). split; [apply p_old; auto; apply p_keep_other; lia|auto].
      - intros z w Hz Hw Hl Es Em. destruct (Hold z Hz Hl) as (x & Hx & Hk & ->). destruct (Hold w Hw ltac:(lia)) as (y & Hy & Hk' & ->).
        cbn in Hl, Es, Em. f_equal. apply (iv_unique _ _ Hinv); auto. lia.
      - intros z Hz Hl. destruct (Hold z Hz Hl) as (x & Hx & Hk & ->). cbn in Hl |- *.
        pose proof (iv_rgrad _ _ Hinv x Hx ltac:(lia)). nia.
      - intros z w Hz Hw Hl Ht Em. destruct (Hold z Hz Hl) as (x & Hx & Hk & ->). destruct (Hold w Hw ltac:(lia)) as (y & Hy & Hk' & ->).
        cbn in Hl, Em. destruct (p_edge_old x _ Hx Hk Ht) as (y' & Hy' & Hty & [(_ & _ & Et)|(_ & c & Hc & _ & _ & Et)]).
        + cbn in Et. assert (y' = y) by (apply (node_unique A); auto). subst y'.
          destruct (iv_down _ _ Hinv x y Hx Hy ltac:(lia) Hty Em) as [K|K]; [left; cbn; nia|right; exact K].
        + exfalso. cbn in Et. apply (ndX (aid y)); [apply in_ids; auto|]. rewrite Et. apply in_ids. auto.
      - intros z w Hz Hw Ht Hm Hl HwN Hh. destruct (Hold w Hw Hl) as (y & Hy & Hk' & ->). cbn in Hl, HwN, Hh, Hm.
        assert (Hs : exists x, In x A /\ In (aid y) (atrans x) /\ amode y <> amode x).
        { destruct (p_edge z _ Hz Hw Ht) as
            [(x & y' & Hx & Hy' & _ & Hxy & -> & _ & E)|[(x & y' & c & _ & _ & _ & _ & _ & _ & Hc & _ & _ & E)|
             [(c & c' & _ & Hc' & _ & _ & _ & _ & E)|(c & c' & x & Hc & Hc' & _ & Hcc & -> & _ & Hx & _ & _ & E)]]].
          - exists x. split; auto. apply (f_equal aid) in E. cbn in E. assert (y' = y) by (apply (node_unique A); auto). subst y'. auto.
          - exfalso. apply (f_equal aid) in E. cbn in E. apply (ndX (aid y)); [apply in_ids; auto|]. rewrite E. apply in_ids. auto.
          - exfalso. apply (f_equal aid) in E. cbn in E. apply (ndX (aid y)); [apply in_ids; auto|]. rewrite E. apply in_ids. auto.
          - exfalso. apply (f_equal aid) in E. cbn in E. pose proof (proj1 (p_Ex x) Hx) as (HxA & Hi & _).
            assert (y = x) by (apply (node_unique A); auto). subst y. apply inside_state in Hi. destruct Hi. lia. }
        destruct Hs as (x & Hx & Hxy & Hxm).
        destruct (iv_entered _ _ Hinv x y Hx Hy Hxy Hxm ltac:(lia) HwN Hh) as (z0 & Hz0 & Zm & ZN & Zt).
        assert (Zk : drop N d M z0 = false) by (apply p_keep_other; lia).
        exists (oldn N d A mE M i z0). split; [apply p_old; auto|]. split; [exact Zm|]. split; [exact ZN|].
        destruct (p_ans_old z0 y Hz0 Zk Hy Zt) as (w & Hw' & Htw & _ & _ & Ew). rewrite Ew in Htw; auto.
        intros He. pose proof (proj1 (proj2 (proj2 p_scan)) y He) as (_ & Hi & _). apply inside_state in Hi. destruct Hi. lia.
      - intros z Hz Hi. apply p_node in Hz. destruct Hz as [(x & Hx & Hk & ->)|(c & Hc & Hn & ->)].
        + apply (iv_init _ _ Hinv x Hx Hi).
        + cbn in Hi. rewrite (Hini c Hc) in Hi. discriminate.
      - intros x Hx Hi Hc. destruct (iv_start _ _ Hinv x Hx Hi) as (z & Hz & Hzi & Es & Em).
        { destruct Hc as [K|[K|K]]; auto. right. right. lia. }
        exists (oldn N d A mE M i z). split; [|auto]. apply p_old; auto. unfold drop, inside.
        destruct Hc as [K|[K|K]].
        + rewrite Es, K, andb_false_r. reflexivity.
        + rewrite (proj2 (Z.eqb_neq (amode z) d)); auto. intros E. apply K. rewrite <- Em, E. auto.
        + rewrite (proj2 (Z.eqb_neq (amode z) d)) by lia. reflexivity.
    Qed.
  End Step.
End Sem.
