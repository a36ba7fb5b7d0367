(** rm_sysgoal ends, and when it succeeds. *)
From Coq Require Import List ZArith Lia Bool Arith.
From Verif Require Import Base Game Bdd BGame Support SupportProofs EnumProofs Ops OpsProofs Strs Ptree Form Solve FSpec
  SolveProofs RealProofs Automaton AutProofs
  Synth SynthSets SynthSpec Reach ReachSpec ReachProofs Nonbool AutIO AutIOSpec AutIOProofs Hotswap HotSpec HotProofs HotForm HotSem
  HotCore HotFollow.
Import ListNotations.
Open Scope nat_scope.

(** ** The arrays *)
Section Arrays.
  Variable A : aut.
  Hypothesis Hclosed : closed A.
  Hypothesis Hnd : NoDup (ids A).
  Lemma push_total : forall cap U l a, NoDup l -> incl l U -> In a U -> length U <= cap ->
    exists l', push cap l a = Ok l' /\ incl l' U.
  Proof.
    intros cap U l a Hl Hi Ha Hc. unfold push. destruct (memb a l) eqn:E; [eauto|]. apply memb_false in E.
    assert (Hlen : length (a :: l) <= length U).
    { apply NoDup_incl_length; [constructor; auto|]. intros b [<-|Hb]; auto. }
    cbn in Hlen. replace (length l <? cap) with true by (symmetry; apply Nat.ltb_lt; lia).
    eexists. split; [reflexivity|]. intros b Hb. apply in_app_or in Hb. destruct Hb as [|[<-|[]]]; auto.
  Qed.
  Lemma push_all_total : forall cap U want trans l, NoDup l -> incl l U -> length U <= cap -> incl trans (ids A) ->
    (forall y, In y A -> In (aid y) trans -> want (amode y) = true -> In (aid y) U) ->
    exists l', push_all cap A want trans l = Ok l' /\ incl l' U.
  Proof.
    induction trans as [|t r IH]; intros l Hl Hi Hc Ht Hw; cbn [push_all]; [eauto|].
    destruct (deref_Some A t (Ht t (or_introl eq_refl))) as (y & Ey). rewrite Ey. destruct (deref_In _ _ _ Ey) as (Hy & Et).
    assert (Hr : incl r (ids A)) by (intros b Hb; apply Ht; right; auto).
    assert (Hwr : forall y, In y A -> In (aid y) r -> want (amode y) = true -> In (aid y) U) by (intros z Hz Hzr; apply Hw; auto; right; auto).
    destruct (want (amode y)) eqn:Ew.
    - destruct (push_total cap U l t Hl Hi) as (l' & E & Hi'); auto.
      { rewrite <- Et. apply Hw; auto. left; auto. }
      rewrite E. cbn [bind]. apply IH; auto. apply (push_ok _ _ _ _ E Hl).
    - cbn [bind]. apply IH; auto.
  Qed.
  Variables (d k : Z).
  Notation dm := (del_mode d k).
  Lemma scan_total : forall cap U V nodes En Ex, incl nodes A -> NoDup En -> NoDup Ex -> incl En U -> incl Ex V ->
    length U <= cap -> length V <= cap ->
    (forall a, is_entry A d a nodes -> In a U) -> (forall a, is_exit A d k a nodes -> In a V) ->
    exists p, scan_modes d k cap A nodes En Ex = Ok p.
  Proof.
    induction nodes as [|x r IH]; intros En Ex Hin H1 H2 H3 H4 HU HV HE HX; cbn [scan_modes]; [eauto|].
    assert (Hx : In x A) by (apply Hin; left; auto).
    assert (Htr : incl (atrans x) (ids A)) by (intros t Ht; apply (Hclosed x); auto).
    assert (K1 : exists Ex', (if dm (amode x) then push_all cap A (fun m => negb (m =? next_i d k)%Z && negb (m =? d)%Z) (atrans x) Ex else Ok Ex) = Ok Ex' /\
      NoDup Ex' /\ incl Ex' V).
    { destruct (dm (amode x)) eqn:Ed; [|eauto].
      destruct (push_all_total cap V (fun m => negb (m =? next_i d k)%Z && negb (m =? d)%Z) (atrans x) Ex H2 H4 HV Htr) as (Ex' & E & Hi).
      - intros y Hy Ht Hw. rewrite want_exit in Hw. apply negb_true_iff in Hw. apply HX. exists x, y. repeat split; auto. left; auto.
      - exists Ex'. split; auto. split; auto. apply (push_all_ok A Hnd _ _ _ _ _ E H2). }
    destruct K1 as (Ex' & -> & H2' & H4'). cbn [bind].
    assert (K2 : exists En', (if (amode x =? d)%Z then Ok En else push_all cap A (fun m => (m =? d)%Z) (atrans x) En) = Ok En' /\
      NoDup En' /\ incl En' U).
    { destruct (Z.eqb_spec (amode x) d) as [Ed|Ed]; [eauto|].
      destruct (push_all_total cap U (fun m => (m =? d)%Z) (atrans x) En H1 H3 HU Htr) as (En' & E & Hi).
      - intros y Hy Ht Hw. apply Z.eqb_eq in Hw. apply HE. exists x, y. repeat split; auto. left; auto.
      - exists En'. split; auto. split; auto. apply (push_all_ok A Hnd _ _ _ _ _ E H1). }
    destruct K2 as (En' & -> & H1' & H3'). cbn [bind]. apply IH; auto.
    - intros z Hz. apply Hin. right. auto.
    - intros a (x' & y & Hx' & K). apply HE. exists x', y. split; [right; auto|auto].
    - intros a (x' & y & Hx' & K). apply HX. exists x', y. split; [right; auto|auto].
  Qed.
  (** the arrays never hold more than they can *)
  Lemma push_cap : forall cap l a l', push cap l a = Ok l' -> length l <= cap -> length l' <= cap.
  Proof.
    intros cap l a l' H Hl. unfold push in H. destruct (memb a l); [injection H as <-; auto|].
    destruct (length l <? cap) eqn:E; [|discriminate]. injection H as <-. apply Nat.ltb_lt in E. rewrite app_length. cbn. lia.
  Qed.
  Lemma push_all_cap : forall cap want trans l l', push_all cap A want trans l = Ok l' -> length l <= cap -> length l' <= cap.
  Proof.
    induction trans as [|t r IH]; intros l l' H Hl; cbn [push_all] in H; [injection H as <-; auto|].
    destruct (deref A t) as [y|]; [|discriminate]. destruct (want (amode y)).
    - destruct (push cap l t) as [l1| |] eqn:E; cbn [bind] in H; try discriminate. apply (IH l1); auto. eapply push_cap; eauto.
    - cbn [bind] in H. eauto.
  Qed.
  Lemma scan_cap : forall cap nodes En Ex En' Ex', scan_modes d k cap A nodes En Ex = Ok (En', Ex') ->
    length Ex <= cap -> length Ex' <= cap.
  Proof.
    induction nodes as [|x r IH]; intros En Ex En' Ex' H HX; cbn [scan_modes] in H; [injection H as <- <-; auto|].
    destruct (if dm (amode x) then _ else _) as [Ex1| |] eqn:E1 in H; cbn [bind] in H; try discriminate.
    destruct (if (amode x =? d)%Z then _ else _) as [En1| |] eqn:E2 in H; cbn [bind] in H; try discriminate.
    apply (IH _ _ _ _ H). destruct (dm (amode x)); [eapply push_all_cap; eauto|injection E1 as <-; auto].
  Qed.
  Lemma push_all_fuel : forall cap want trans l, push_all cap A want trans l <> Fuel.
  Proof.
    induction trans as [|t r IH]; intros l; cbn [push_all]; [discriminate|]. destruct (deref A t) as [y|]; [|discriminate].
    destruct (want (amode y)); [|apply IH]. unfold push. destruct (memb t l); [apply IH|]. destruct (length l <? cap); [apply IH|discriminate].
  Qed.
  Lemma scan_fuel : forall cap nodes En Ex, scan_modes d k cap A nodes En Ex <> Fuel.
  Proof.
    induction nodes as [|x r IH]; intros En Ex; cbn [scan_modes]; [discriminate|].
    destruct (dm (amode x)).
    - pose proof (push_all_fuel cap (fun m => negb (m =? next_i d k)%Z && negb (m =? d)%Z) (atrans x) Ex) as K.
      destruct (push_all _ _ _ _ Ex) as [Ex1| |]; cbn [bind]; try discriminate; [|congruence].
      destruct (amode x =? d)%Z; cbn [bind]; [apply IH|].
      pose proof (push_all_fuel cap (fun m => (m =? d)%Z) (atrans x) En) as K2.
      destruct (push_all _ _ _ _ En); cbn [bind]; try discriminate; [apply IH|congruence].
    - cbn [bind]. destruct (amode x =? d)%Z; cbn [bind]; [apply IH|].
      pose proof (push_all_fuel cap (fun m => (m =? d)%Z) (atrans x) En) as K2.
      destruct (push_all _ _ _ _ En); cbn [bind]; try discriminate; [apply IH|congruence].
  Qed.
  Lemma states_at_total : forall l, incl l (ids A) -> exists ss, states_at A l = Ok ss.
  Proof.
    induction l as [|a l IH]; intros Hi; cbn [states_at]; [eauto|].
    destruct (deref_Some A a (Hi a (or_introl eq_refl))) as (x & Ex). rewrite Ex.
    destruct IH as (ss & E); [intros b Hb; apply Hi; right; auto|]. rewrite E. cbn. eauto.
  Qed.
End Arrays.

(** ** Connecting *)
Section ConnectTotal.
  Variables (A S0 : aut) (n : nat).
  Hypothesis HndA : NoDup (ids A).
  Hypothesis HndS : NoDup (ids S0).
  Hypothesis HcS : closed S0.
  Hypothesis Hdis : forall a, In a (ids A) -> ~ In a (ids S0).
  Hypothesis HlA : forall x, In x A -> length (astate x) = n.
  Hypothesis HlS : forall s, In s S0 -> length (astate s) = n.
  Lemma entry_total : forall l m i, crosses A S0 m -> incl l (ids A) ->
    (forall x, In x A -> In (aid x) l -> exists s, In s S0 /\ astate s = astate x) ->
    exists p, connect_entry l (map (ren m) A) (marked S0 i) = Ok (Some p).
  Proof.
    induction l as [|a l IH]; intros m i Hm Hi Hs; cbn [connect_entry]; [eauto|].
    rewrite deref_map by reflexivity. destruct (deref_Some A a (Hi a (or_introl eq_refl))) as (x & Ex). rewrite Ex. cbn [option_map].
    destruct (deref_In _ _ _ Ex) as (Hx & Ea). unfold marked at 1. rewrite find_map_state by reflexivity. cbn [astate ren set_trans].
    destruct (with_state (astate x) S0) as [s|] eqn:Es; cbn [option_map].
    - unfold with_state in Es. apply find_some in Es. destruct Es as (Hs0 & Es).
      assert (Ha : In a (ids A)) by (apply Hi; left; auto).
      cbn [aid set_init]. rewrite replace_ren by (eapply crosses_fresh; eauto).
      unfold marked. rewrite store_map by reflexivity.
      assert (Em : map (fun x0 => if aid x0 =? aid s then set_init (ainit (ren m x)) (set_init (i x0) x0) else set_init (i x0) x0) S0 =
        marked S0 (fun z => if aid z =? aid s then ainit x else i z)).
      { unfold marked. apply map_ext. intros z. destruct (aid z =? aid s); reflexivity. }
      rewrite Em. apply IH.
      + apply crosses_app; auto. intros a' v [E|[]]. injection E as <- <-. split; auto. apply in_map. auto.
      + intros b Hb. apply Hi. right. auto.
      + intros z Hz Hl. apply Hs; auto. right. auto.
    - exfalso. destruct (Hs x Hx) as (s & Hs0 & Est); [left; auto|]. unfold with_state in Es.
      pose proof (find_none _ _ Es s Hs0) as K. cbn beta in K. rewrite <- not_true_iff_false in K. apply K.
      apply statecmp_spec; [rewrite HlA, HlS; auto|auto].
  Qed.
  Variable S1 : aut.
  Hypothesis HS1 : exists i, S1 = marked S0 i.
  Variable Exit : list nat.
  Hypothesis HExA : forall a, In a Exit -> In a (ids A).
  Hypothesis HndE : NoDup Exit.
  Variable m1 : smap.
  Hypothesis Hm1 : crosses A S0 m1.
  Hypothesis HuS : forall s s', In s S1 -> In s' S1 -> astate s = astate s' -> s = s'.
  Lemma match_total : forall M m E s, incl E (ids A) ->
    (exists x, In x A /\ In (aid x) E /\ ~ In (aid x) (map fst M) /\ astate x = s) ->
    exists p, match_exit (map (ren m) (filter (unmerged M) A))
      (map (fun a => if memb a (map fst M) then None else Some a) E) s = Ok (Some p).
  Proof.
    intros M m E s HE (x & Hx & HxE & HxM & Es). induction E as [|a E IH]; [destruct HxE|]. cbn [map match_exit].
    assert (HE' : incl E (ids A)) by (intros b Hb; apply HE; right; auto).
    destruct (memb a (map fst M)) eqn:Ea.
    - destruct IH as ((y & r) & K); auto.
      { destruct HxE as [E1|]; auto. exfalso. apply HxM. apply memb_In. congruence. }
      rewrite K. cbn [bind]. eauto.
    - rewrite deref_map by reflexivity. rewrite deref_filter by auto.
      destruct (deref_Some A a (HE a (or_introl eq_refl))) as (x1 & Ex1). rewrite Ex1. destruct (deref_In _ _ _ Ex1) as (Hx1 & Eid).
      assert (Eu : unmerged M x1 = true) by (unfold unmerged; rewrite Eid, Ea; auto). rewrite Eu. cbn [option_map astate ren set_trans].
      destruct (statecmp s (astate x1)) eqn:Est; [eauto|].
      destruct IH as ((y & r) & K); auto.
      { destruct HxE as [E1|]; auto. exfalso. assert (x = x1) by (apply (node_unique A); congruence). subst x1.
        rewrite <- not_true_iff_false in Est. apply Est. apply statecmp_spec; [|auto]. congruence. }
      rewrite K. cbn [bind]. eauto.
  Qed.
  Lemma exit_total : forall nodes M, merges A S1 Exit M ->
    (forall b, In b nodes -> In b (ids S1)) -> NoDup nodes -> (forall b, In b nodes -> ~ In b (map snd M)) ->
    (forall s, In s S1 -> atrans s = [] -> exists x, In x A /\ In (aid x) Exit /\ astate x = astate s) ->
    exists p, connect_exit nodes (map (ren (m1 ++ lift M)) (filter (unmerged M) A)) (map (fin A (m1 ++ lift M) M) S1) (left_over Exit M)
      = Ok (Some p).
  Proof.
    induction nodes as [|b nodes IH]; intros M HM Hin Hnd Hfr Hx; cbn [connect_exit]; [eauto|].
    inversion Hnd as [|? ? Hni Hnd']; subst. rewrite deref_map by apply fin_aid.
    destruct (deref_Some S1 b (Hin b (or_introl eq_refl))) as (s & Es). rewrite Es. cbn [option_map].
    destruct (deref_In _ _ _ Es) as (Hs & Eb).
    assert (Hps : partner M s = None) by (apply partner_None; rewrite Eb; apply Hfr; left; auto).
    assert (Hfs : fin A (m1 ++ lift M) M s = s) by (unfold fin; rewrite Hps; auto). rewrite Hfs.
    destruct (no_trans s) eqn:Ent.
    - assert (Ht : atrans s = []) by (unfold no_trans in Ent; destruct (atrans s); auto; discriminate).
      destruct (Hx s Hs Ht) as (x & Hxa & HxE & Exs).
      destruct (match_total M (m1 ++ lift M) Exit (astate s) HExA) as ((y & E') & Em).
      { exists x. repeat split; auto. intros Hi. apply in_map_iff in Hi. destruct Hi as ((a', b') & Ea' & Hp). cbn in Ea'.
        destruct (mg_pair _ _ _ _ HM _ _ Hp) as (x' & s' & K1 & K2 & _ & K4 & K5 & _ & K7).
        assert (x' = x) by (apply (node_unique A); congruence). subst x'.
        assert (s' = s) by (apply HuS; auto; congruence). subst s'.
        apply (Hfr b (or_introl eq_refl)). rewrite <- Eb, K5. apply in_map_iff. exists (a', b'). auto. }
      change (left_over Exit M) with (map (fun a => if memb a (map fst M) then None else Some a) Exit). rewrite Em. cbn [bind].
      destruct (exit_step A S0 n HndA HndS HcS Hdis HlA HlS S1 HS1 Exit HExA HndE m1 Hm1 M s y E' HM Hs) as (x0 & Ex0 & HE' & HM' & HA & HS); auto.
      { rewrite Eb. apply Hfr. left. auto. }
      cbn zeta in *. rewrite Eb in *. rewrite Ex0, HA, HS, HE'. apply IH; auto.
      + intros c Hc. apply Hin. right; auto.
      + intros c Hc. rewrite map_app, in_app_iff. cbn. intros [K|[K|[]]].
        * apply (Hfr c); [right; auto|auto].
        * congruence.
    - apply IH; auto.
      + intros c Hc. apply Hin. right; auto.
      + intros c Hc. apply Hfr. right; auto.
  Qed.
End ConnectTotal.

(** ** Deleting *)
Lemma flen : forall (X : Type) (f : X -> bool) l, length (filter f l) <= length l.
Proof. induction l as [|x l IH]; cbn; auto. destruct (f x); cbn; lia. Qed.
Lemma drop_total : forall d k fuel A S, NoDup (ids A) -> length A <= fuel ->
  exists p, drop_modes d k fuel [] A S = Ok p /\ length (snd p) = length S.
Proof.
  intros d k fuel. induction fuel as [|fuel IH]; intros A S Hnd Hl; cbn [drop_modes].
  - destruct A; [|cbn in Hl; lia]. cbn. eexists. split; reflexivity.
  - destruct (find _ A) as [x|] eqn:Ef; [|eexists; split; reflexivity]. cbn [memb existsb].
    apply find_some in Ef. destruct Ef as (Hx & _).
    set (A1 := replace_anode_trans A (aid x) None).
    assert (Hid : ids A1 = ids A) by (unfold A1, replace_anode_trans, ids; rewrite map_map; reflexivity).
    rewrite delete_ok; [|rewrite Hid; auto|rewrite Hid; apply in_map; auto].
    destruct (IH (filter (fun z => negb (aid z =? aid x)) A1) (replace_anode_trans S (aid x) None)) as (p & E & Hp).
    + apply nodup_filter_ids. rewrite Hid. auto.
    + assert (Hlt : length (filter (fun z => negb (aid z =? aid x)) A1) < length A1).
      { assert (Hx1 : exists z, In z A1 /\ aid z = aid x).
        { assert (K : In (aid x) (ids A1)) by (rewrite Hid; apply in_map; auto). apply in_map_iff in K. destruct K as (z & K1 & K2). eauto. }
        destruct Hx1 as (z & Hz & Ez). clear - Hz Ez. induction A1 as [|y l IHl]; [destruct Hz|]. cbn.
        destruct Hz as [->|Hz].
        - rewrite Ez, Nat.eqb_refl. cbn. pose proof (flen _ (fun z0 => negb (aid z0 =? aid x)) l). lia.
        - specialize (IHl Hz). destruct (negb (aid y =? aid x)); cbn; lia. }
      assert (HA1 : length A1 = length A) by (unfold A1, replace_anode_trans; apply map_length). lia.
    + exists p. split; auto. rewrite Hp. unfold replace_anode_trans. apply map_length.
Qed.

Section CoreTotal.
  Variable F : fspec.
  Hypothesis Hbool : all_boolean F.
  Let ne := length (fs_evars F).
  Let ns := length (fs_svars F).
  Let n := ne + ns.
  Let m := 2 * (ne + ns).
  Let k := length (fs_sgoals F).
  Variables (orc : oracle) (alloc : nat -> aut -> nat).
  Hypothesis Htools : tools_ok F orc alloc.
  Variable d : nat.
  Hypothesis Hd : d < k.
  Hypothesis Hk3 : 3 <= k.
  Let dz := Z.of_nat d.
  Let kz := Z.of_nat k.
  Notation dm := (del_mode dz kz).
  Variable A : aut.
  Hypothesis Hco : correct F A.
  Variables (et st : dt) (eg : list dt).
  Hypothesis Hnp : no_primed_sys ne ns et.
  Hypothesis Hgeg : Forall (Good ne ns) eg.
  Hypothesis Hleg : 0 < length eg.
  Hypothesis Hete : forall s e w, bitvec n s -> bitvec ne e -> bitvec ns w -> ev et (s ++ e ++ w) = g_etr (game_of F) s e.
  Hypothesis Hste : forall s s', bitvec n s -> bitvec n s' -> ev st (s ++ s') = g_str (game_of F) s s'.
  Hypothesis Hege : Forall2 (fun f d => forall s, bitvec n s -> evS n d s = holds F f s) (egoals1 F) eg.

  Lemma dm_elsewhere : forall x, dm (amode x) = true <-> ~ elsewhere F d x.
  Proof.
    intros x. unfold del_mode. rewrite orb_true_iff, !Z.eqb_eq. unfold dz, kz, k. rewrite (next_eq F d Hd Hk3).
    unfold elsewhere. lia.
  Qed.
  Lemma exit_leaves : forall y, In y A -> (is_exit A dz kz (aid y) A <-> leaves F d A y).
  Proof.
    intros y Hy. split.
    - intros (x & y' & Hx & Hy' & Ea & Ht & E1 & E2). assert (y' = y) by (apply (node_unique A); auto; apply (co_ids _ _ Hco)). subst y'.
      split; auto. split.
      + destruct (dm (amode y)) eqn:E; [discriminate|]. assert (K : ~ ~ elsewhere F d y).
        { intros K. apply dm_elsewhere in K. congruence. }
        unfold elsewhere in *. lia.
      + exists x. split; auto. split; auto. apply dm_elsewhere. auto.
    - intros (_ & He & x & Hx & Hn & Ht). exists x, y. repeat split; auto; [apply dm_elsewhere; auto|].
      rewrite <- not_true_iff_false. rewrite dm_elsewhere. tauto.
  Qed.
  Definition cap := length (filter (fun x => dm (amode x)) A).
  Lemma dels_bound : forall D, NoDup D -> (forall x, In x D -> In x A /\ ~ elsewhere F d x) -> length D <= cap.
  Proof.
    intros D HD H. apply NoDup_incl_length; auto. intros x Hx. destruct (H x Hx). apply filter_In. split; auto. apply dm_elsewhere. auto.
  Qed.
  Lemma dels_nodup : NoDup (filter (fun x => dm (amode x)) A).
  Proof.
    apply NoDup_filter. pose proof (co_ids _ _ Hco) as H. unfold ids in H. apply (NoDup_map_inv aid). auto.
  Qed.
  Lemma A_closed : closed A.
  Proof. intros x t Hx Ht. destruct (co_closed _ _ Hco x t Hx Ht) as (y & Hy & <-). apply in_map. auto. Qed.
  Lemma scan_fits : exits_fit F d A -> exists p, scan_modes dz kz cap A A [] [] = Ok p.
  Proof.
    intros (U & D & HU & HD1 & HD2 & Hl). pose proof (co_ids _ _ Hco) as HndA.
    apply (scan_total A A_closed HndA dz kz cap (map aid (filter (fun x => dm (amode x)) A)) (map aid U)); try constructor.
    - apply incl_refl.
    - intros a [].
    - intros a [].
    - rewrite map_length. apply le_n.
    - rewrite map_length. pose proof (dels_bound D HD1 HD2). lia.
    - intros a (x & y & Hx & Hy & <- & Ht & E1 & E2). apply in_map. apply filter_In. split; auto. unfold del_mode. rewrite E2, Z.eqb_refl. auto.
    - intros a Ha. assert (Ha' := Ha). destruct Ha as (x & y & Hx & Hy & <- & _). apply in_map. apply HU. apply exit_leaves; auto.
  Qed.
  Lemma scan_overflows : ~ exits_fit F d A -> scan_modes dz kz cap A A [] [] = Crash.
  Proof.
    intros Hno. destruct (scan_modes dz kz cap A A [] []) as [(En, Ex)| |] eqn:E; auto; exfalso.
    - apply Hno. pose proof (co_ids _ _ Hco) as HndA.
      destruct (scan_ok A HndA dz kz _ _ _ _ _ _ E (NoDup_nil _) (NoDup_nil _)) as (_ & HndX & _ & HEx).
      pose proof (scan_cap A dz kz _ _ _ _ _ _ E (Nat.le_0_l _)) as Hc.
      exists (flat_map (fun a => match deref A a with Some y => [y] | None => [] end) Ex), (filter (fun x => dm (amode x)) A).
      split; [|split; [apply dels_nodup|split]].
      + intros y Hy. apply in_flat_map. exists (aid y). split.
        * apply HEx. right. apply exit_leaves; auto. apply Hy.
        * rewrite deref_unique; auto; [left; auto|apply Hy].
      + intros x Hx. apply filter_In in Hx. destruct Hx. split; auto. apply dm_elsewhere. auto.
      + fold cap. clear - Hc. assert (K : length (flat_map (fun a => match deref A a with Some y => [y] | None => [] end) Ex) <= length Ex); [|lia].
        clear Hc. induction Ex as [|a l IH]; cbn; auto. rewrite app_length. destruct (deref A a); cbn; lia.
    - apply (scan_fuel A dz kz cap A [] []). auto.
  Qed.

  Variable P : vec -> Prop.
  Hypothesis HPA : forall x, In x A -> P (astate x).
  Hypothesis HPc : closed_play F P.
  Hypothesis HPm : forall s, P s -> exists e, legal_env (game_of F) s e.
  Hypothesis Hnoe : fs_evars F = [] -> forall s, In s (fs_states F) -> g_etr (game_of F) s [] = true.
  Lemma none_untouched : untouched A = [].
  Proof.
    unfold untouched. replace (filter no_trans A) with (@nil anode); auto. symmetry.
    assert (H : forall x, In x A -> no_trans x = false).
    { intros x Hx. destruct (HPm (astate x) (HPA x Hx)) as (e & He).
      destruct (co_answer _ _ Hco x e Hx He) as (y & _ & Ht & _). unfold no_trans. destruct (atrans x); [destruct Ht|auto]. }
    clear - H. induction A as [|x l IH]; cbn; auto. rewrite (H x) by (left; auto). apply IH. intros; apply H; right; auto.
  Qed.
  Let al := fun t S => alloc t (S ++ A).
  (** the reachability game *)
  Lemma game_total : forall en ex, Forall (bitvec n) en -> Forall (bitvec n) ex ->
    (forall s, In s en -> reach_wins (game_of F) (among ex) s) ->
    exists N, forall fuel, N <= fuel -> exists S,
      synthesize_reachgame ne ns orc al fuel en ex et st eg (bOne m) = Ok S /\ (S <> [] <-> en <> []).
  Proof.
    intros en ex Hen Hex Hw. destruct (good_One ne ns) as (HgO & HeO).
    assert (HEN : forall s, In s ex -> evS n (bOne m) s = true).
    { intros s Hs. apply HeO. rewrite Forall_forall in Hex. apply Hex. auto. }
    destruct (list_exact ne ns orc al (proj1 Htools) (al_fresh F orc alloc Htools A) en ex (bOne m) et st eg Hnp HgO Hgeg Hen Hex HEN)
      as (N & HN).
    - destruct eg; [cbn in Hleg; lia|discriminate].
    - destruct (Nat.eq_dec ne 0) as [Hn0|Hn0]; [right|left; lia]. intros s Hs.
      assert (Ee : fs_evars F = []) by (apply length_zero_iff_nil; exact Hn0). cbn [g_etr within bgame].
      rewrite Hete; auto; try apply bitvec_zeros.
      + apply (Hnoe Ee). apply (st_bits F Hbool). exact Hs.
      + rewrite Hn0. apply (bitvec_zeros 0).
    - exists N. intros fuel Hf. destruct (HN fuel Hf) as (S & HS & Hiff). exists S. split; auto. rewrite Hiff. split; [tauto|].
      intros Hne. split; auto. intros s Hs. assert (Hb : bitvec n s) by (rewrite Forall_forall in Hen; auto).
      split; [apply HeO; auto|].
      assert (Hst : g_states (game_of F) = g_states (within (evS n (bOne m)) (bgame ne ns et st eg []))).
      { eapply gst; eauto. }
      refine (reach_wins_ext (game_of F) _ _ _ _ _ _ _ (among ex) (among ex) _ s _ (Hw s Hs)).
      + symmetry. exact Hst.
      + symmetry. eapply gen; eauto.
      + reflexivity.
      + rewrite Hst. intros u e Hu He. symmetry. apply (get F Hbool et st eg [] Hete); auto.
        rewrite <- (gen F Hbool et st eg []). auto.
      + rewrite Hst. intros u u' Hu Hu'. symmetry. apply (gsr F Hbool et st eg [] Hste); auto.
      + rewrite Hst. intros p Hp. eapply (gio F Hbool et st eg []); eauto.
      + auto.
      + apply (st_bits F Hbool). exact Hb.
  Qed.

  Hypothesis Hse : seeks F A.
  Hypothesis Hap : forall x, In x A -> sgoal F (after F d) (astate x) = true -> sgoal F (after F (after F d)) (astate x) = true -> False.
  Hypothesis Hfit : exits_fit F d A.
  Lemma core_total : exists N, forall fuel, N <= fuel ->
    exists B, rm_core dz kz ne ns orc alloc et st eg fuel [] A = Ok B /\ (B <> [] <-> taken_up F d A).
  Proof.
    pose proof (co_ids _ _ Hco) as HndA.
    destruct (cap =? 0) eqn:E0.
    { exists 0. intros fuel _. exists []. unfold rm_core. fold cap. rewrite E0. split; auto. split; [congruence|].
      intros (x & y & Hx & Hy & _ & _ & Em) _. apply Nat.eqb_eq in E0. unfold cap in E0.
      assert (K : In y (filter (fun x => dm (amode x)) A)).
      { apply filter_In. split; auto. unfold del_mode, dz. rewrite Em, Z.eqb_refl. auto. }
      destruct (filter (fun x => dm (amode x)) A); [destruct K|discriminate]. }
    destruct (scan_fits Hfit) as ((En, Ex) & Es).
    destruct (scan_ok A HndA dz kz _ _ _ _ _ _ Es (NoDup_nil _) (NoDup_nil _)) as (HndE & HndX & HEn & HEx).
    assert (HEn' : forall a, In a En <-> is_entry A dz a A) by (intros a; rewrite HEn; cbn; tauto).
    assert (HEx' : forall a, In a Ex <-> is_exit A dz kz a A) by (intros a; rewrite HEx; cbn; tauto).
    assert (HEnA : incl En (ids A)).
    { intros a Ha. apply HEn' in Ha. destruct Ha as (x & y & _ & Hy & <- & _). apply in_map. auto. }
    assert (HExA : incl Ex (ids A)).
    { intros a Ha. apply HEx' in Ha. destruct Ha as (x & y & _ & Hy & <- & _). apply in_map. auto. }
    destruct (states_at_total A En HEnA) as (en & Een). destruct (states_at_total A Ex HExA) as (ex & Eex).
    pose proof (states_at_ok A HndA _ _ Een) as Hen. pose proof (states_at_ok A HndA _ _ Eex) as Hex.
    assert (HbA : forall x, In x A -> bitvec n (astate x)).
    { intros x Hx. apply (st_bits F Hbool). apply (co_states _ _ Hco). auto. }
    assert (Hbn : Forall (bitvec n) en).
    { apply Forall_forall. intros s Hs. apply Hen in Hs. destruct Hs as (x & Hx & _ & <-). auto. }
    assert (Hbx : Forall (bitvec n) ex).
    { apply Forall_forall. intros s Hs. apply Hex in Hs. destruct Hs as (x & Hx & _ & <-). auto. }
    assert (Hwin : forall s, In s en -> reach_wins (game_of F) (among ex) s).
    { intros s Hs. apply Hen in Hs. destruct Hs as (x & Hx & Hi & <-). apply HEn' in Hi.
      destruct Hi as (u & x' & _ & Hx' & Ea & _ & _ & Em). assert (x' = x) by (apply (node_unique A); auto). subst x'.
      apply (follow_wins F d Hd Hk3 A Hco Hse (fun He x Hx => Hnoe He _ (co_states _ _ Hco x Hx)) Hap); auto; [|left; auto].
      intros v y Hv Hy Ht Hin Hno. apply among_In. apply Hex. exists y. split; auto. split; auto. apply HEx'. apply exit_leaves; auto.
      unfold inside in Hin, Hno. split; auto. split; [unfold elsewhere; tauto|]. exists v. split; auto. split; auto. unfold elsewhere. tauto. }
    destruct (game_total en ex Hbn Hbx Hwin) as (N & HN). exists N. intros fuel Hf. destruct (HN fuel Hf) as (S & Ey & HSn).
    assert (Htk : taken_up F d A <-> En <> []).
    { split.
      - intros (x & y & Hx & Hy & Ht & E1 & E2) E. assert (K : In (aid y) En); [|rewrite E in K; destruct K].
        apply HEn'. exists x, y. repeat split; auto.
      - intros Hne. destruct En as [|a r]; [congruence|]. destruct (proj1 (HEn' a) (or_introl eq_refl)) as (x & y & Hx & Hy & <- & Ht & E1 & E2).
        exists x, y. auto. }
    assert (Hen0 : en <> [] <-> En <> []).
    { destruct En as [|a r]; cbn in Een; [injection Een as <-; tauto|]. destruct (deref A a); [|discriminate].
      destruct (states_at A r); cbn [bind] in Een; try discriminate. injection Een as <-. split; discriminate. }
    unfold rm_core. fold cap. rewrite E0, Es. cbn [bind]. rewrite Een. cbn [bind]. rewrite Eex. cbn [bind].
    match goal with |- context [synthesize_reachgame ?a ?b ?c ?e ?f ?g ?h ?i ?j ?l ?q] =>
      change (synthesize_reachgame a b c e f g h i j l q) with (synthesize_reachgame ne ns orc al fuel en ex et st eg (bOne m)) end.
    rewrite Ey. cbn [bind].
    destruct S as [|s0 S']; [exists []; split; auto; rewrite Htk, <- Hen0, <- HSn; tauto|]. set (S := s0 :: S') in *.
    destruct (sub_sound F Hbool orc alloc Htools A et st eg Hnp Hgeg Hete Hste Hege _ _ _ _ Hbn Hbx Ey) as (HS & Hini & Hdis); [discriminate|].
    assert (HndS : NoDup (ids S)) by apply HS.
    assert (HcS : closed S).
    { intros s t Hs Ht. destruct (rs_closed _ _ _ _ _ HS s t Hs Ht) as (s' & Hs' & <-). apply in_map. auto. }
    assert (HlA : forall x, In x A -> length (astate x) = n) by (intros x Hx; apply (HbA x Hx)).
    assert (HlS : forall s, In s S -> length (astate s) = n).
    { intros s Hs. pose proof (rs_states _ _ _ _ _ HS s Hs) as K. apply (st_bits F Hbool) in K. apply K. }
    assert (HmS : marked S ainit = S).
    { unfold marked. rewrite <- map_id. apply map_ext. intros x. destruct x; reflexivity. }
    destruct (entry_total A S n Hdis HlA HlS En [] ainit (fun a v Hi => match Hi with end) HEnA) as ((A1, S1) & Ece).
    { intros x Hx Hi. destruct (rs_entry _ _ _ _ _ HS (astate x)) as (s & Hs & Est); eauto.
      - apply (co_states _ _ Hco). auto.
      - apply among_In. apply Hen. exists x. auto. }
    rewrite ren_nil, HmS in Ece. rewrite Ece. cbn [bind].
    rewrite <- (ren_nil A) in Ece. rewrite <- HmS in Ece.
    destruct (entry_ok A S n HndS Hdis HlA HlS En [] ainit A1 S1 (fun a v Hi => match Hi with end) Ece)
      as (m1 & i1 & -> & -> & Hm1f & Hm1 & Hi1). cbn [app].
    assert (Hcr : crosses A S m1).
    { intros a v Hi. destruct (Hm1 a v Hi) as (x & s & Hx & <- & Hs & -> & _). split; apply in_map; auto. }
    assert (HS1 : exists i, marked S i1 = marked S i) by eauto.
    assert (Hids : map aid (marked S i1) = ids S) by (unfold marked, ids; rewrite map_map; auto).
    assert (HM0 : merges A (marked S i1) Ex []).
    { constructor; [constructor|constructor|]. intros a b []. }
    assert (E1 : map (ren m1) A = map (ren (m1 ++ lift [])) (filter (unmerged []) A)).
    { cbn. rewrite app_nil_r. f_equal. symmetry. apply filter_all. auto. }
    assert (E2 : marked S i1 = map (fin A (m1 ++ lift []) []) (marked S i1)).
    { rewrite <- map_id at 1. apply map_ext. intros x. reflexivity. }
    assert (E3 : map Some Ex = left_over Ex []) by (unfold left_over; apply map_ext; auto).
    rewrite Hids, E1, E3.
    assert (HmI : forall s, In s (marked S i1) -> exists s0, In s0 S /\ astate s = astate s0 /\ atrans s = atrans s0 /\ s = set_init (i1 s0) s0).
    { intros s Hs. unfold marked in Hs. apply in_map_iff in Hs. destruct Hs as (s1 & <- & Hs1). exists s1. auto. }
    destruct (exit_total A S n HndA HndS HcS Hdis HlA HlS (marked S i1) HS1 Ex HExA HndX m1 Hcr) with (nodes := ids S) (M := @nil (nat * nat)) as ((A2, S2) & Ecx); auto.
    { intros s s' Hs Hs' Eq. destruct (HmI s Hs) as (a & Ha & Ea & _ & ->). destruct (HmI s' Hs') as (b & Hb & Eb & _ & ->).
      cbn in Eq. assert (a = b) by (apply (rs_unique _ _ _ _ _ HS); auto). subst b. auto. }
    { intros b Hb. change (ids (marked S i1)) with (map aid (marked S i1)). rewrite Hids. auto. }
    { intros s Hs Ht. destruct (HmI s Hs) as (a & Ha & Ea & Eat & _). rewrite Eat in Ht.
      destruct (rs_end _ _ _ _ _ HS a Ha Ht) as [K|K].
      - apply among_In in K. apply Hex in K. destruct K as (x & Hx & Hi & Est). exists x. split; auto. split; auto. congruence.
      - exfalso. destruct (HPm (astate a)) as (e & He); [|apply (K e He)].
        apply (reach_closed F _ _ S P HS); auto. intros z Hz Hi. apply among_In, Hen in Hi. destruct Hi as (x & Hx & _ & <-). auto. }
    rewrite <- E2 in Ecx. rewrite Ecx. cbn [bind]. rewrite E2 in Ecx.
    destruct (exit_ok A S n HndA HndS HcS Hdis HlA HlS (marked S i1) HS1 Ex HExA HndX m1 Hcr (ids S) [] A2 S2 HM0)
      as (M & HM & EA2 & ES2 & HMall); auto.
    { intros b Hb. change (ids (marked S i1)) with (map aid (marked S i1)). rewrite Hids. auto. }
    destruct (drop_total dz kz (length A2) A2 S2) as (p & Edm & Hlp); [|auto|].
    { rewrite EA2. unfold ids. rewrite map_map. rewrite (map_ext _ aid) by auto. apply nodup_filter_ids. auto. }
    rewrite Edm. cbn [bind]. eexists. split; [reflexivity|]. rewrite Htk, <- Hen0, <- HSn. split; [intros _; discriminate|].
    intros _ K. apply app_eq_nil in K. destruct K as (_ & K). apply map_eq_nil in K. rewrite K in Hlp. rewrite ES2 in Hlp.
    unfold marked in Hlp. rewrite !map_length in Hlp. cbn in Hlp. discriminate.
  Qed.
End CoreTotal.
