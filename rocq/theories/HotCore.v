(** rm_sysgoal as a whole. *)
From Coq Require Import List ZArith Lia Bool Arith.
From Verif Require Import Base Game Bdd BGame Support SupportProofs EnumProofs Ops OpsProofs Strs Ptree Form Solve FSpec
  SolveProofs RealProofs Automaton AutProofs
  Synth SynthSets SynthSpec Reach ReachSpec ReachProofs Nonbool AutIO AutIOSpec AutIOProofs Hotswap HotSpec HotProofs HotForm HotSem.
Import ListNotations.
Open Scope nat_scope.

(** ** The addresses of new nodes *)
Section Fresh.
  Variables (ne ns : nat) (orc : oracle) (alloc : nat -> aut -> nat) (P : nat -> Prop).
  Hypothesis HP : forall t A, P (alloc t A).
  Let ok (A : aut) : Prop := forall x, In x A -> P (aid x).
  Lemma fresh_store : forall A a f, (forall x, aid (f x) = aid x) -> ok A -> ok (store A a f).
  Proof.
    intros A a f Hf H x Hx. unfold store in Hx. apply in_map_iff in Hx. destruct Hx as (y & <- & Hy).
    destruct (aid y =? a); rewrite ?Hf; auto.
  Qed.
  Lemma fresh_insert : forall A t md rg i s, ok A -> ok (insert_anode A (alloc t A) md rg i s).
  Proof. intros A t md rg i s H x [<-|Hx]; cbn; auto. Qed.
  Lemma fresh_append : forall A m1 s1 m2 s2 A' b, append_anode_trans A m1 s1 m2 s2 = Ok (A', b) -> ok A -> ok A'.
  Proof.
    intros A m1 s1 m2 s2 A' b H HA. unfold append_anode_trans in H.
    destruct (find_anode A m1 s1) as [x|]; [|discriminate].
    destruct (find_anode A m2 s2) as [y|]; injection H as <- <-; auto.
    apply fresh_store; auto.
  Qed.
  Lemma fresh_rinsert : forall stk A t, ok A -> ok (fst (rinsert alloc stk A t)).
  Proof. induction stk as [|s stk IH]; intros A t H; cbn; auto. apply IH. apply fresh_insert. auto. Qed.
  Variables (stN et : dt) (L : levels_t).
  Lemma fresh_rmove : forall s j e T q T' q', rmove ne ns orc alloc stN L s j e T q = Ok (Some (T', q')) ->
    ok (r_str q) -> ok (r_str q').
  Proof.
    intros s j e T q T' q' H Hq. unfold rmove in H. destruct (rchoose _ _ _ _ _ _ _ _ _ _) as [(o, t)| |]; cbn [bind] in H; try discriminate.
    destruct o as [(c, T1)|]; [|discriminate].
    destruct (append_anode_trans _ _ _ _ _) as [(A', b)| |] eqn:Ea; cbn [bind] in H; try discriminate.
    destruct b; [|discriminate]. injection H as <- <-. cbn. eapply fresh_append; eauto.
    destruct (find_anode _ _ _); cbn; auto. apply fresh_insert. auto.
  Qed.
  Lemma fresh_rmoves : forall es s j T q q', rmoves ne ns orc alloc stN L s j es T q = Ok (Some q') -> ok (r_str q) -> ok (r_str q').
  Proof.
    induction es as [|e es IH]; intros s j T q q' H Hq; cbn [rmoves] in H; [injection H as <-; auto|].
    destruct (rmove _ _ _ _ _ _ _ _ _ _ _) as [[(T', q1)|]| |] eqn:Em; cbn [bind] in H; try discriminate.
    apply (IH _ _ _ _ _ H). eapply fresh_rmove; eauto.
  Qed.
  Lemma fresh_iteration : forall fuel s stk A t q, riteration ne ns orc alloc stN et L fuel s stk A t = Ok (Some q) ->
    ok A -> ok (r_str q).
  Proof.
    intros fuel s stk A t q H HA. unfold riteration in H.
    destruct (level_search _ _ _ _ _) as [j| |]; cbn [bind] in H; try discriminate.
    destruct (find_anode A (-1) s) as [x|]; [|discriminate].
    assert (H1 : ok (store A (aid x) (set_rgrad (Z.of_nat j)))) by (apply fresh_store; auto).
    destruct ((0 <? length (atrans x)) || (j =? 0)); [injection H as <-; auto|].
    destruct (nth_error (fst L) (j - 1)) as [T|]; [|discriminate].
    destruct (0 <? ne).
    - destruct (get_env_moves _ _ _ _ _ _ _) as [es| |]; cbn [bind] in H; try discriminate.
      eapply fresh_rmoves in H; auto.
    - eapply fresh_rmoves in H; auto.
  Qed.
  Lemma fresh_main : forall fuel f q A, rmain ne ns orc alloc stN et L fuel f q = Ok (Some A) -> ok (r_str q) -> ok A.
  Proof.
    induction fuel as [|fuel IH]; intros f q A H Hq; cbn [rmain] in H; destruct (r_stk q) as [|s stk] eqn:Es; try discriminate;
      try (injection H as <-; auto; fail).
    destruct (riteration _ _ _ _ _ _ _ _ _ _ _ _) as [[q'|]| |] eqn:Ei; cbn [bind] in H; try discriminate.
    apply (IH _ _ _ H). eapply fresh_iteration; eauto.
  Qed.
End Fresh.
Lemma fresh_reach : forall ne ns orc alloc (P : nat -> Prop) fuel en ex et st egs N A, (forall t A, P (alloc t A)) ->
  synthesize_reachgame ne ns orc alloc fuel en ex et st egs N = Ok A -> forall x, In x A -> P (aid x).
Proof.
  intros ne ns orc alloc P fuel en ex et st egs N A HP H. unfold synthesize_reachgame, synthesize_reachgame_BDD in H.
  destruct (reach_levels _ _ _ _ _ _ _ _ _) as [[L|]| |]; cbn [bind] in H; try discriminate; [|injection H as <-; intros x []].
  destruct (completions_of _ _ _ _ _) as [l| |]; cbn [bind] in H; try discriminate.
  destruct (rinsert alloc (rev l) [] 1) as (A0, t) eqn:Er.
  destruct (rmain _ _ _ _ _ _ _ _ _ _) as [[A1|]| |] eqn:Em; cbn [bind] in H; try discriminate; injection H as <-; [|intros x []].
  eapply fresh_main; eauto. cbn. replace A0 with (fst (rinsert alloc (rev l) [] 1)) by (rewrite Er; auto).
  apply fresh_rinsert; auto. intros x [].
Qed.

(** [P] is preserved by the moves of the game *)
Definition closed_play (F : fspec) (P : vec -> Prop) : Prop :=
  forall s s', P s -> In s' (fs_states F) -> g_str (game_of F) s s' = true ->
    (fs_evars F <> [] -> legal_env (game_of F) s (g_env (game_of F) s')) -> P s'.
(** a strategy that reaches a target keeps what holds of its entry states *)
Lemma reach_closed : forall F tg en S (P : vec -> Prop),
  reach_strategy (game_of F) tg en (match fs_evars F with [] => true | _ => false end) S ->
  (forall s, In s S -> en (astate s) = true -> P (astate s)) -> closed_play F P ->
  forall s, In s S -> P (astate s).
Proof.
  intros F tg en S P HS He Hc y Hy. destruct (rs_reachable _ _ _ _ _ HS y Hy) as (x & Hx & Hex & Hr).
  assert (K : forall a b, reach S a b -> (forall x, In x S -> aid x = a -> P (astate x)) ->
    forall y, In y S -> aid y = b -> P (astate y)).
  { clear x Hx Hex Hr y Hy. intros a b H Ha. induction H as [a|a b c H IH (x & Hx & Ex & Ht)]; [exact Ha|].
    intros y Hy Ey. subst c. destruct (rs_safe _ _ _ _ _ HS x y Hx Hy Ht) as (_ & K1 & K2).
    apply (Hc (astate x)); auto.
    - exact (rs_states _ _ _ _ _ HS y Hy).
    - intros Hn. apply K2. destruct (fs_evars F); [congruence|reflexivity]. }
  apply (K _ _ Hr); auto. intros z Hz Ez. assert (z = x); [|subst z; auto].
  pose proof (rs_ids _ _ _ _ _ HS) as Hnd. clear - Hnd Hx Hz Ez.
  induction S as [|w l IH]; [destruct Hx|]. cbn [map] in Hnd. inversion Hnd; subst.
  destruct Hx as [<-|Hx], Hz as [<-|Hz]; auto.
  - exfalso. apply H1. rewrite <- Ez. apply in_map; auto.
  - exfalso. apply H1. rewrite Ez. apply in_map; auto.
Qed.

Section Core.
  Variable F : fspec.
  Hypothesis Hws : well_scoped F.
  Hypothesis Hbool : all_boolean F.
  Let ne := length (fs_evars F).
  Let ns := length (fs_svars F).
  Let n := ne + ns.
  Let m := 2 * (ne + ns).
  Let k := length (fs_sgoals F).
  Variables (orc : oracle) (alloc : nat -> aut -> nat).
  Hypothesis Htools : tools_ok F orc alloc.
  Variable d : nat.
  Hypothesis Hd : d < k.
  Hypothesis Hk3 : 3 <= k.
  Let dz := Z.of_nat d.
  Let kz := Z.of_nat k.
  Variable A : aut.
  Hypothesis Hco : correct F A.
  Variables (et st : dt) (eg : list dt).
  Hypothesis Hnp : no_primed_sys ne ns et.
  Hypothesis Hgeg : Forall (Good ne ns) eg.
  Hypothesis Hete : forall s e w, bitvec n s -> bitvec ne e -> bitvec ns w -> ev et (s ++ e ++ w) = g_etr (game_of F) s e.
  Hypothesis Hste : forall s s', bitvec n s -> bitvec n s' -> ev st (s ++ s') = g_str (game_of F) s s'.
  Hypothesis Hege : Forall2 (fun f d => forall s, bitvec n s -> evS n d s = holds F f s) (egoals1 F) eg.
  Let al := fun t S => alloc t (S ++ A).
  Lemma al_fresh : forall t S, ~ In (al t S) (ids S).
  Proof. intros t S H. apply (proj2 Htools t (S ++ A)). unfold ids in *. rewrite map_app. apply in_or_app. auto. Qed.
  Lemma al_other : forall t S, ~ In (al t S) (ids A).
  Proof. intros t S H. apply (proj2 Htools t (S ++ A)). unfold ids in *. rewrite map_app. apply in_or_app. auto. Qed.
  Lemma A_bits : forall x, In x A -> bitvec n (astate x).
  Proof. intros x Hx. apply (st_bits F Hbool). apply (co_states _ _ Hco). auto. Qed.
  Lemma sub_sound : forall fuel en ex S, Forall (bitvec n) en -> Forall (bitvec n) ex ->
    synthesize_reachgame ne ns orc al fuel en ex et st eg (bOne m) = Ok S -> S <> [] ->
    reach_strategy (game_of F) (among ex) (among en) (match fs_evars F with [] => true | _ => false end) S /\
    (forall s, In s S -> ainit s = false) /\ (forall a, In a (ids A) -> ~ In a (ids S)).
  Proof.
    intros fuel en ex S Hen Hex H HS. destruct (good_One ne ns) as (HgO & HeO).
    assert (HEN : forall s, In s ex -> evS n (bOne m) s = true).
    { intros s Hs. apply HeO. rewrite Forall_forall in Hex. apply Hex. auto. }
    destruct (list_sound ne ns orc al (proj1 Htools) al_fresh en ex (bOne m) et st eg Hnp HgO Hgeg Hen Hex HEN fuel S H HS)
      as (Hrs & _).
    split; [|split].
    - change (ne =? 0) with (length (fs_evars F) =? 0) in Hrs. assert (Eb : (length (fs_evars F) =? 0) = match fs_evars F with [] => true | _ => false end) by (destruct (fs_evars F); auto).
      rewrite Eb in Hrs.
      refine (reach_strategy_ext _ _ _ _ _ _ _ _ _ _ _ _ _ _ _ _ _ Hrs); auto.
      + eapply gst; eauto.
      + apply gen; auto.
      + eapply get; eauto.
      + eapply gsr; eauto.
      + intros p Hp. eapply (gio F Hbool et st eg []); eauto.
      + intros s Hs. eapply gge; eauto.
    - unfold synthesize_reachgame in H. destruct (states_good ne ns en Hen) as (H1 & _). destruct (states_good ne ns ex Hex) as (H3 & _).
      apply (top_noinit ne ns orc al (proj1 Htools) al_fresh _ _ (bOne m) et st eg [] Hnp H1 H3 HgO Hgeg
        (lsub ne ns ex (bOne m) Hex HEN) fuel S H).
    - intros a Ha Hs. apply in_map_iff in Hs. destruct Hs as (s & <- & Hs).
      apply (fresh_reach ne ns orc al (fun a => ~ In a (ids A)) fuel en ex et st eg (bOne m) S al_other H s Hs). auto.
  Qed.

  Hypothesis Hord : in_order F A.
  Hypothesis Hns : not_skipped F d A.
  Lemma core_ok : forall fuel raw B, rm_core dz kz ne ns orc alloc et st eg fuel raw A = Ok B -> B <> [] ->
    correct (without d F) B /\ keeps F d A B /\
    forall P : vec -> Prop, (forall x, In x A -> P (astate x)) -> closed_play F P -> forall y, In y B -> P (astate y).
  Proof.
    intros fuel raw B H HB. unfold rm_core in H.
    destruct (length (filter (fun x => del_mode dz kz (amode x)) A) =? 0) eqn:E0; [injection H as <-; congruence|].
    destruct (scan_modes _ _ _ _ _ _ _) as [(En, Ex)| |] eqn:Es; cbn [bind] in H; try discriminate.
    destruct (states_at A En) as [en| |] eqn:Een; cbn [bind] in H; try discriminate.
    destruct (states_at A Ex) as [ex| |] eqn:Eex; cbn [bind] in H; try discriminate.
    fold m al in H.
    destruct (synthesize_reachgame _ _ _ _ _ _ _ _ _ _ _) as [S| |] eqn:Ey; cbn [bind] in H; try discriminate.
    destruct S as [|s0 S']; [injection H as <-; congruence|]. set (S := s0 :: S') in *.
    pose proof (co_ids _ _ Hco) as HndA.
    destruct (scan_ok A HndA dz kz _ _ _ _ _ _ Es (NoDup_nil _) (NoDup_nil _)) as (HndE & HndX & HEn & HEx).
    pose proof (states_at_ok A HndA _ _ Een) as Hen. pose proof (states_at_ok A HndA _ _ Eex) as Hex.
    assert (HEn' : forall a, In a En <-> is_entry A dz a A) by (intros a; rewrite HEn; cbn; tauto).
    assert (HEx' : forall a, In a Ex <-> is_exit A dz kz a A) by (intros a; rewrite HEx; cbn; tauto).
    assert (Hbn : Forall (bitvec n) en).
    { apply Forall_forall. intros s Hs. apply Hen in Hs. destruct Hs as (x & Hx & _ & <-). apply A_bits. auto. }
    assert (Hbx : Forall (bitvec n) ex).
    { apply Forall_forall. intros s Hs. apply Hex in Hs. destruct Hs as (x & Hx & _ & <-). apply A_bits. auto. }
    destruct (sub_sound _ _ _ _ Hbn Hbx Ey) as (HS & Hini & Hdis); [discriminate|].
    assert (HndS : NoDup (ids S)) by apply HS.
    assert (HcS : closed S).
    { intros s t Hs Ht. destruct (rs_closed _ _ _ _ _ HS s t Hs Ht) as (s' & Hs' & <-). apply in_map. auto. }
    assert (HlA : forall x, In x A -> length (astate x) = n) by (intros x Hx; apply (A_bits x Hx)).
    assert (HlS : forall s, In s S -> length (astate s) = n).
    { intros s Hs. pose proof (rs_states _ _ _ _ _ HS s Hs) as K. apply (st_bits F Hbool) in K. apply K. }
    assert (HmS : marked S ainit = S).
    { unfold marked. rewrite <- map_id. apply map_ext. intros x. destruct x; reflexivity. }
    destruct (connect_entry En A S) as [[(A1, S1)|]| |] eqn:Ece; cbn [bind] in H; try discriminate; [|injection H as <-; congruence].
    rewrite <- (ren_nil A) in Ece. rewrite <- HmS in Ece.
    destruct (entry_ok A S n HndS Hdis HlA HlS En [] ainit A1 S1 (fun a v Hi => match Hi with end) Ece)
      as (m1 & i1 & -> & -> & Hm1f & Hm1 & Hi1). cbn [app] in H.
    assert (Hcr : crosses A S m1).
    { intros a v Hi. destruct (Hm1 a v Hi) as (x & s & Hx & <- & Hs & -> & _). split; apply in_map; auto. }
    assert (HExA : forall a, In a Ex -> In a (ids A)).
    { intros a Ha. apply HEx' in Ha. destruct Ha as (x & y & _ & Hy & <- & _). apply in_map. auto. }
    destruct (connect_exit _ _ _ _) as [[(A2, S2)|]| |] eqn:Ecx; cbn [bind] in H; try discriminate; [|injection H as <-; congruence].
    assert (HS1 : exists i, marked S i1 = marked S i) by eauto.
    assert (Hids : map aid (marked S i1) = ids S) by (unfold marked, ids; rewrite map_map; auto).
    assert (HM0 : merges A (marked S i1) Ex []).
    { constructor; [constructor|constructor|]. intros a b []. }
    assert (E1 : map (ren m1) A = map (ren (m1 ++ lift [])) (filter (unmerged []) A)).
    { cbn. rewrite app_nil_r. f_equal. symmetry. apply filter_all. auto. }
    assert (E2 : marked S i1 = map (fin A (m1 ++ lift []) []) (marked S i1)).
    { rewrite <- map_id at 1. apply map_ext. intros x. reflexivity. }
    assert (E3 : map Some Ex = left_over Ex []) by (unfold left_over; apply map_ext; auto).
    rewrite Hids in Ecx. rewrite E1, E2, E3 in Ecx.
    destruct (exit_ok A S n HndA HndS HcS Hdis HlA HlS (marked S i1) HS1 Ex HExA HndX m1 Hcr (ids S) [] A2 S2 HM0)
      as (M & HM & EA2 & ES2 & HMall); auto.
    { intros b Hb. change (ids (marked S i1)) with (map aid (marked S i1)). rewrite Hids. auto. }
    cbn [app] in HM, EA2, ES2, HMall. subst A2 S2.
    destruct (drop_modes _ _ _ _ _ _) as [p| |] eqn:Edm; cbn [bind] in H; try discriminate. injection H as <-.
    assert (Hcr2 : crosses A S (m1 ++ lift M)).
    { apply crosses_app; auto. eapply crosses_lift; eauto. }
    match type of Edm with drop_modes _ _ ?fl _ _ _ = _ => set (f0 := fl) in Edm end.
    destruct (drop_ok A S HcS Hdis (marked S i1) HS1 Ex dz kz raw M HM f0 (m1 ++ lift M) (filter (unmerged M) A) p Hcr2) as (D & HD & Ef & Eg); auto.
    { intros x Hx. apply filter_In in Hx. apply Hx. }
    { apply nodup_filter_ids. auto. }
    rewrite Ef, Eg.
    split; [|split].
    - eapply B_correct; eauto. intros s Hs Ht. apply HMall; auto. rewrite <- Hids. apply in_map. auto.
    - eapply B_keeps; eauto.
    - intros P HPA HPc y Hy.
      destruct (B_of F d Hd Hk3 A Hco Hord En Ex en ex HEn' HEx' S HS i1 m1 M D Hm1f Hi1 HM y Hy) as [(x & Hx & _ & ->)|(s & Hs & _ & ->)].
      + exact (HPA x Hx).
      + cbn [astate new]. apply (reach_closed F _ _ S P HS); auto. intros z Hz He. apply among_In, Hen in He.
        destruct He as (x & Hx & _ & <-). auto.
  Qed.
End Core.
