(** add_metric_sysgoal on a strategy written to a file and read back. *)
From Coq Require Import List ZArith Lia Bool Arith.
From Verif Require Import Base Game Bdd BGame Support SupportProofs EnumProofs Ops OpsProofs Strs Ptree Form Solve FSpec
  SolveProofs RealProofs Automaton AutProofs
  Synth SynthSets SynthSpec SynthInit Reach ReachSpec ReachProofs Nonbool AutIO AutIOSpec AutIOProofs Metric MetricSpec MetricProofs MetricLevels
  Hotswap HotSpec HotProofs HotForm HotSem HotLoad HotSynth AddGoal AddSpec AddMerge AddView AddSem AddEnd AddCore.
Import ListNotations.
Open Scope nat_scope.

(** ** The same automaton with other addresses *)
Section Relabel.
  Variables (f : nat -> nat) (A : aut).
  Hypothesis Hf : forall a b, In a (ids A) -> In b (ids A) -> f a = f b -> a = b.
  Hypothesis Hnd : NoDup (ids A).
  Hypothesis Hcl : closed A.
  Let B := map (relabel f) A.
  Lemma rl_path : forall p : nat -> anode, (forall t, In (p t) B /\ In (aid (p (S t))) (atrans (p t))) ->
    exists q, (forall t, In (q t) A /\ In (aid (q (S t))) (atrans (q t))) /\ forall t, p t = relabel f (q t).
  Proof.
    intros p Hp. destruct (Hp 0) as (H0 & _). apply rl_In in H0. destruct H0 as (x0 & Hx0 & _).
    set (q := fun t => match find (fun x => f (aid x) =? aid (p t)) A with Some x => x | None => x0 end).
    assert (Hq : forall t, In (q t) A /\ p t = relabel f (q t)).
    { intros t. destruct (Hp t) as (Ht & _). apply rl_In in Ht. destruct Ht as (x & Hx & E). unfold q.
      destruct (find _ A) as [x'|] eqn:Ef.
      - apply find_some in Ef. destruct Ef as (Hx' & Ef). apply Nat.eqb_eq in Ef. rewrite E in Ef. cbn in Ef.
        assert (x' = x).
        { apply (node_unique A); auto. apply Hf; auto; apply in_map; auto. }
        subst x'. auto.
      - exfalso. pose proof (find_none _ _ Ef x Hx) as K. cbn in K. rewrite E in K. cbn in K. rewrite Nat.eqb_refl in K. discriminate. }
    exists q. split; [|apply Hq]. intros t. split; [apply Hq|]. destruct (Hp t) as (_ & Ht). destruct (Hq t) as (Q1 & Q2). destruct (Hq (S t)) as (Q3 & Q4).
    rewrite Q2, Q4 in Ht. exact (proj1 (rl_edge f A Hf Hcl _ _ Q1 Q3) Ht).
  Qed.
  Lemma rl_proceeds : forall F, proceeds F A -> proceeds F B.
  Proof.
    intros F H p Hp Hne Heg Hm. destruct (rl_path p Hp) as (q & Hq & E). apply (H q); auto.
    - intros He t. specialize (Hne He t). rewrite E in Hne. auto.
    - intros g Hg t. destruct (Heg g Hg t) as (u & Hu & Eu). exists u. split; auto. rewrite E in Eu. auto.
    - intros t. specialize (Hm t). rewrite !E in Hm. auto.
  Qed.
  Lemma rl_after : forall F i x, In x A -> (comes_after F i B (relabel f x) <-> comes_after F i A x).
  Proof.
    intros F i x Hx. split; intros (y & Hy & Ht & Hp).
    - apply rl_In in Hy. destruct Hy as (z & Hz & ->). exists z. split; auto. split; [exact (proj1 (rl_edge f A Hf Hcl z x Hz Hx) Ht)|exact Hp].
    - exists (relabel f y). split; [apply rl_In; eauto|]. split; [exact (proj2 (rl_edge f A Hf Hcl y x Hy Hx) Ht)|exact Hp].
  Qed.
  Lemma rl_starts : forall F i C, starts F i B C -> starts F i A C.
  Proof.
    intros F i C (H1 & H2). split.
    - intros y Hy E. destruct (H1 y Hy E) as (z & Hz & Ez & Es). apply rl_In in Hz. destruct Hz as (x & Hx & ->). exists x. auto.
    - intros x Hx E Hn. apply (H2 (relabel f x)); [apply rl_In; eauto|auto|]. rewrite rl_after; auto.
  Qed.
End Relabel.

(** ** Where the new goal is placed *)
Lemma argmin_ok : forall r pre l bi b, l = pre ++ r -> b = nth bi l 0%Z -> bi < length pre ->
  (forall j, j < length pre -> (b <= nth j l 0)%Z) -> (forall j, j < bi -> (b < nth j l 0)%Z) ->
  exists m, argmin r (Z.of_nat (length pre)) (Z.of_nat bi) b = Z.of_nat m /\ m < length l /\
    (forall j, j < length l -> (nth m l 0 <= nth j l 0)%Z) /\ forall j, j < m -> (nth m l 0 < nth j l 0)%Z.
Proof.
  induction r as [|x r IH]; intros pre l bi b El Eb Hb Hle Hlt; cbn [argmin].
  - rewrite app_nil_r in El. subst l b. exists bi. auto.
  - assert (El' : l = (pre ++ [x]) ++ r) by (rewrite El, <- app_assoc; reflexivity).
    assert (Ex : nth (length pre) l 0%Z = x) by (rewrite El, app_nth2, Nat.sub_diag by lia; reflexivity).
    assert (Hlen : length (pre ++ [x]) = S (length pre)) by (rewrite app_length; cbn; lia).
    replace (Z.of_nat (length pre) + 1)%Z with (Z.of_nat (length (pre ++ [x]))) by lia.
    destruct (Z.ltb_spec x b) as [Hx|Hx]; apply IH; auto; try lia.
    + intros j Hj. destruct (Nat.eq_dec j (length pre)) as [->|]; [lia|]. specialize (Hle j). lia.
    + intros j Hj. specialize (Hle j). lia.
    + intros j Hj. destruct (Nat.eq_dec j (length pre)) as [->|]; [lia|]. apply Hle. lia.
Qed.

Section Place.
  Variable F : fspec.
  Hypothesis Hbool : all_boolean F.
  Let ne := length (fs_evars F).
  Let ns := length (fs_svars F).
  Let n := ne + ns.
  Let k := length (fs_sgoals F).
  Variable orc : oracle.
  Hypothesis Horc : oracle_ok (2 * n) orc.
  Variables (g : form) (gd : dt) (fs : list (Z * Z)) (fuel : nat).
  Hypothesis Hgd : Good ne ns gd.
  Hypothesis Hgde : forall s, bitvec n s -> evS n gd s = holds F g s.
  Hypothesis Hfs : fields_in n fs.
  Hypothesis Hfu : 2 ^ n <= fuel.
  Lemma in_set_holds : forall d f, (forall s, bitvec n s -> evS n d s = holds F f s) ->
    forall s, in_set n d s <-> In s (fs_states F) /\ holds F f s = true.
  Proof.
    intros d f H s. rewrite (SynthSpec.st_bits F Hbool). fold ne ns n. unfold in_set. split; intros (H1 & H2); split; auto.
    - rewrite <- H; auto.
    - rewrite H; auto.
  Qed.
  Lemma mins_ok : forall sg fsg t, Forall (Good ne ns) sg ->
    Forall2 (fun f d => forall s, bitvec n s -> evS n d s = holds F f s) fsg sg ->
    exists l, goal_mins n fuel orc fs gd t sg = Ok l /\ Forall2 (fun f x => goal_dist fs F f g x) fsg l.
  Proof.
    induction sg as [|d sg IH]; intros fsg t Hg H2; inversion H2 as [|f ? fsg' ? Hfd H2']; subst; cbn [goal_mins].
    - exists []. auto.
    - inversion Hg as [|? ? Hgd0 Hg']; subst. destruct Hgd0 as (Hw & Hu). destruct Hgd as (Hwg & Hug).
      change (2 * (ne + ns)) with (2 * n) in Hw, Hwg.
      assert (K : exists x mx t', bounds_DDset n fuel orc t d gd fs = Ok ((x, mx), t') /\ goal_dist fs F f g x).
      { destruct (in_set_dec ne ns orc Horc d Hw Hu) as [Hd|Hd];
          [destruct (in_set_dec ne ns orc Horc gd Hwg Hug) as [Hd'|Hd']|].
        - destruct (bounds_DDset_ok n orc Horc d gd fs Hw Hu Hwg Hug Hfs Hd Hd' t fuel Hfu) as (mn & mx & t' & E & (s & Hs & Hmn) & _ & Hall).
          exists mn, mx, t'. split; auto. split.
          + intros _. split.
            * destruct Hmn as ((u & Hu' & Eu) & _). exists (s, u). cbn. apply (in_set_holds d f Hfd) in Hs. apply (in_set_holds gd g Hgde) in Hu'. tauto.
            * intros (s', u) (K1 & K2 & K3 & K4). cbn in *. destruct (Hall s') as (x & (_ & Hx) & Hle); [apply (in_set_holds d f Hfd); auto|].
              specialize (Hx u). assert (in_set n gd u) by (apply (in_set_holds gd g Hgde); auto). specialize (Hx H). lia.
          + intros Hno. exfalso. destruct Hd as (s1 & Hs1). destruct Hd' as (s2 & Hs2). apply (Hno (s1, s2)). cbn.
            apply (in_set_holds d f Hfd) in Hs1. apply (in_set_holds gd g Hgde) in Hs2. tauto.
        - destruct (bounds_DDset_empty n orc Horc d gd fs Hw Hu Hwg Hug Hfs (or_intror Hd') t fuel Hfu) as (t' & E).
          exists (-1)%Z, (-1)%Z, t'. split; auto. split; auto. intros ((s, u) & K1 & K2 & K3 & K4). exfalso. apply (Hd' u).
          apply (in_set_holds gd g Hgde). auto.
        - destruct (bounds_DDset_empty n orc Horc d gd fs Hw Hu Hwg Hug Hfs (or_introl Hd) t fuel Hfu) as (t' & E).
          exists (-1)%Z, (-1)%Z, t'. split; auto. split; auto. intros ((s, u) & K1 & K2 & K3 & K4). exfalso. apply (Hd s).
          apply (in_set_holds d f Hfd). auto. }
      destruct K as (x & mx & t' & E & Hx). rewrite E. cbn [bind fst snd].
      destruct (IH fsg' t' Hg' H2') as (l & El & Hl). rewrite El. cbn [bind]. exists (x :: l). auto.
  Qed.
  Lemma place_ok : forall sg, 0 < k -> Forall (Good ne ns) sg ->
    Forall2 (fun f d => forall s, bitvec n s -> evS n d s = holds F f s) (fs_sgoals F) sg ->
    exists i, istar0 n fuel orc fs gd sg = Ok (Z.of_nat i) /\ place fs F g i.
  Proof.
    intros sg Hk Hg H2. assert (Hl : length sg = k) by (symmetry; apply (Forall2_len _ _ _ _ _ H2)).
    unfold istar0, place. fold k. destruct fs as [|o fs'] eqn:Efs.
    - exists (k - 1). rewrite Hl. split; [f_equal; lia|]. split; [lia|]. split; [lia|]. congruence.
    - rewrite <- Efs in *. destruct (mins_ok sg (fs_sgoals F) 0 Hg H2) as (l & El & Hd). rewrite El. cbn [bind].
      pose proof (Forall2_len _ _ _ _ _ Hd) as Hll. fold k in Hll. destruct l as [|x r]; [cbn in Hll; lia|].
      destruct (argmin_ok r [x] (x :: r) 0 x) as (m & Em & Hm & Hle & Hlt); auto; [intros [|j] Hj; cbn in *; lia|intros; lia|].
      cbn in Em. exists m. rewrite Em. split; auto. cbn in Hm. cbn in Hll. split; [lia|]. split; [intros K; congruence|].
      intros _. exists (fun j => nth j (x :: r) 0%Z). split; [|split].
      + intros j Hj. apply (SynthSpec.Forall2_nth' _ _ _ _ _ j FTrue 0%Z Hd Hj).
      + intros j Hj. apply Hle. cbn. lia.
      + exact Hlt.
  Qed.
End Place.

(** ** Without a state to start from *)
Lemma no_entry : forall ne ns orc alloc fuel Ex et st eg N A, oracle_ok (2 * (ne + ns)) orc ->
  synthesize_reachgame_BDD ne ns orc alloc fuel (states_BDD ne ns []) Ex et st eg N = Ok A -> A = [].
Proof.
  intros ne ns orc alloc fuel Ex et st eg N A Horc H. unfold synthesize_reachgame_BDD in H.
  destruct (reach_levels _ _ _ _ _ _ _ _ _) as [[L|]| |]; cbn [bind] in H; try discriminate; [|congruence].
  destruct (completions_of _ _ _ _ _) as [l| |] eqn:E; cbn [bind] in H; try discriminate.
  destruct (good_Zero ne ns) as ((Hw & _) & _).
  assert (El : l = []).
  { destruct (completions_of_any ne ns orc Horc fuel 0 (states_BDD ne ns []) (ne + ns) (fun _ => false) l) as (_ & Hl); auto.
    - lia.
    - intros v Hv. unfold states_BDD. cbn [fold_left]. apply ev_Zero. exact Hv.
    - destruct l as [|a l]; auto. exfalso. destruct (proj1 (Hl a)) as (_ & K); [left; auto|discriminate]. }
  subst l. cbn in H. destruct fuel; cbn in H; congruence.
Qed.
Lemma passing_some : forall F A i y, (forall x, In x A -> (0 <= amode x < Z.of_nat (length (fs_sgoals F)))%Z) ->
  i < length (fs_sgoals F) -> NoDup (ids A) -> In y A -> In (aid y) (passing (Z.of_nat i) A) -> comes_after F i A y.
Proof.
  intros F A i y Hm Hi Hnd Hy Ha.
  apply passing_In in Ha. destruct Ha as (x & y' & Hx & Hy' & E & Ht & Hp).
  assert (y' = y) by (apply (node_unique A); auto). subst y'. exists x. split; auto. split; auto.
  pose proof (Hm x Hx) as Hmx. pose proof (Hm y Hy) as Hmy. unfold passes_goal. set (k := length (fs_sgoals F)) in *.
  replace (amode x) with (Z.of_nat (Z.to_nat (amode x))) in Hp |- * by lia.
  replace (amode y) with (Z.of_nat (Z.to_nat (amode y))) in Hp |- * by lia.
  set (u := Z.to_nat (amode x)) in *. set (v := Z.to_nat (amode y)) in *.
  assert (Hu : u < k) by (unfold u; lia). assert (Hv : v < k) by (unfold v; lia).
  apply (passes_gap k) in Hp; try lia. exists u, (gap k u v), (gap k u i).
  rewrite !gap_spec by lia. split; auto. split; [apply gap_lt; lia|]. auto.
Qed.

(** ** add_metric_sysgoal *)
Section Whole.
  Variable F : fspec.
  Hypothesis Hws : well_scoped F.
  Hypothesis Hbool : all_boolean F.
  Let k := length (fs_sgoals F).
  Let ne := length (fs_evars F).
  Let ns := length (fs_svars F).
  Let n := ne + ns.
  Variable g : form.
  Hypothesis Hgb : boolean g = true.
  Hypothesis Hgs : state_form F g.
  Variables (orc : oracle) (alloc : nat -> aut -> nat).
  Hypothesis Htools : tools_ok F orc alloc.
  Variable fs : list (Z * Z).
  Hypothesis Hfs : fields_in n fs.
  Lemma add_unfold : forall nn text L A fuel, 0 < k -> 2 ^ n <= fuel ->
    aut_aut_load nn text = Ok (Some L) -> of_loaded L = Ok A -> A <> [] ->
    exists et st eg gd i,
      no_primed_sys ne ns et /\ Forall (Good ne ns) eg /\
      (forall s e w, bitvec n s -> bitvec ne e -> bitvec ns w -> ev et (s ++ e ++ w) = g_etr (game_of F) s e) /\
      (forall s s', bitvec n s -> bitvec n s' -> ev st (s ++ s') = g_str (game_of F) s s') /\
      Forall2 (fun f d => forall s, bitvec n s -> evS n d s = holds F f s) (egoals1 F) eg /\
      Good ne ns gd /\ (forall s, bitvec n s -> evS n gd s = holds F g s) /\ place fs F g i /\
      add_metric_sysgoal (spec_of F) NULL orc alloc fuel nn text fs (tree_of g) =
        add_core (Z.of_nat k) (Z.of_nat i) ne ns orc alloc et st eg gd fuel (untouched A) A.
  Proof.
    intros nn text L A fuel Hk Hfu HL HA Hne.
    destruct (spec_BDDs_ok F Hws Hbool) as
      (et & st & eg & sg & Hb & Hnp & Hgeg & Hgsg & _ & Hlsg & Hleg & Het & Hst & Heg & Hsg).
    destruct (state_form_BDD F g Hgb Hgs) as (gd & Egd & Hgd & Hgde).
    destruct (place_ok F Hbool orc (proj1 Htools) g gd fs fuel Hgd Hgde Hfs Hfu sg Hk Hgsg Hsg) as (i & Ei & Hpl).
    exists et, st, eg, gd, i. repeat (split; [assumption|]).
    unfold add_metric_sysgoal. rewrite HL. cbn [bind]. rewrite HA. cbn [bind].
    unfold aut_expand_bool. destruct A as [|a A']; [congruence|]. cbn [bind snd fst Z.eqb].
    rewrite Hb. cbn [bind]. rewrite Egd. cbn [bind]. rewrite num_env_eq, num_sys_eq. rewrite Ei. cbn [bind].
    rewrite Hlsg. reflexivity.
  Qed.
  Section File.
    Variables (nn : Z) (A : aut) (text : String.string) (fuel : nat) (B : aut).
    Hypothesis Hco : correct F A.
    Hypothesis Hw : writable nn A.
    Hypothesis Hdump : aut_aut_dump A nn = Ok text.
    Hypothesis Hsh : short_lines text.
    Hypothesis Hfu : 2 ^ n <= fuel.
    Hypothesis HB : add_metric_sysgoal (spec_of F) NULL orc alloc fuel nn text fs (tree_of g) = Ok B.
    Hypothesis Hne : B <> [].
    Lemma add_ok : 2 <= k ->
      exists i, place fs F g i /\ (in_order F A -> proceeds F A -> apart F i (after F i) -> new_apart F g (after F i) ->
        correct (with_goal (S i) g F) B /\ starts F (after F i) A B /\
        (env_moves F -> in_order_but (with_goal (S i) g F) (moved i (after F i)) (S i) B)) /\
        forall y, In y A -> comes_after F i A y -> holds F g (astate y) = false.
    Proof.
      intros Hk. destruct (file_relabel F nn A text Hco Hw Hdump Hsh) as (f & L & EL & Eof & HneA & Hf & Hcl).
      destruct (add_unfold nn text L _ fuel ltac:(lia) Hfu EL Eof HneA) as
        (et & st & eg & gd & i & Hnp & Hgeg & Het & Hst & Heg & Hgd & Hgde & Hpl & Eq).
      rewrite Eq in HB. pose proof (co_ids _ _ Hco) as Hnd. assert (Hi : i < k) by apply Hpl.
      pose proof (rl_correct f A Hf Hnd Hcl F Hco) as Hco'. exists i. split; auto. split.
      - intros Hord Hpro Hap Hna.
        destruct (core_ok F Hbool orc alloc Htools et st eg Hnp Hgeg Het Hst Heg g gd Hgd Hgde i Hi Hk (map (relabel f) A) Hco'
          (rl_order f A Hf Hcl F Hord) (rl_proceeds f A Hf Hnd Hcl F Hpro)
          (fun x Hx => Hap (astate x) (co_states _ _ Hco' x Hx)) (fun x Hx => Hna (astate x) (co_states _ _ Hco' x Hx)) _ _ _ HB Hne) as (H1 & H2 & H3).
        split; auto. split; [apply (rl_starts f A Hf Hcl F _ B H2)|].
        apply (H3 (fun s => In s (fs_states F))); [apply Hco'|]. intros s s' _ Hs _ _. exact Hs.
      - intros y Hy (x & Hx & Ht & m & c & j & Hm & Hc & Hj & Ex & Ey & Ei). fold k in Hm, Hc, Ey, Ei.
        assert (Hgap : forall d, d < k -> gap k m ((m + d) mod k) = d).
        { intros d Hd. assert (Hl : (m + d) mod k < k) by (apply Nat.mod_upper_bound; lia).
          rewrite gap_val by lia. destruct (le_lt_dec k (m + d)) as [K|K].
          - replace ((m + d) mod k) with (m + d - k); [destruct (Nat.leb_spec m (m + d - k)); lia|].
            symmetry. replace (m + d) with (m + d - k + 1 * k) at 1 by lia. rewrite Nat.mod_add by lia. apply Nat.mod_small. lia.
          - rewrite Nat.mod_small by lia. destruct (Nat.leb_spec m (m + d)); lia. }
        change (astate y) with (astate (relabel f y)).
        apply (core_entry F Hbool orc alloc Htools et st eg Hnp Hgeg Het Hst Heg g gd Hgd Hgde i Hi Hk (map (relabel f) A) Hco' _ _ _ HB Hne).
        + apply in_map. auto.
        + apply passing_In. exists (relabel f x), (relabel f y). split; [apply in_map; auto|]. split; [apply in_map; auto|].
          split; auto. split; [exact (proj2 (rl_edge f A Hf Hcl x y Hx Hy) Ht)|]. cbn [amode relabel]. rewrite Ex, Ey.
          apply (passes_gap k); try lia; [apply Nat.mod_upper_bound; lia|]. rewrite Hgap by lia. rewrite <- Ei, Hgap by lia. lia.
    Qed.
    Lemma add_taken : 0 < k -> (forall x, In x A -> (0 <= amode x < Z.of_nat k)%Z) ->
      exists i y, place fs F g i /\ In y A /\ comes_after F i A y.
    Proof.
      intros Hk Hm. destruct (file_relabel F nn A text Hco Hw Hdump Hsh) as (f & L & EL & Eof & HneA & Hf & Hcl).
      destruct (add_unfold nn text L _ fuel Hk Hfu EL Eof HneA) as
        (et & st & eg & gd & i & Hnp & Hgeg & Het & Hst & Heg & Hgd & Hgde & Hpl & Eq).
      rewrite Eq in HB. pose proof (co_ids _ _ Hco) as Hnd. assert (Hi : i < k) by apply Hpl. exists i.
      destruct (passing (Z.of_nat i) (map (relabel f) A)) as [|a l] eqn:Ep.
      - exfalso. unfold add_core in HB. rewrite Ep in HB. cbn [states_at bind] in HB.
        destruct (synthesize_reachgame_BDD ne ns orc _ fuel (states_BDD ne ns []) gd et st eg _) as [C1| |] eqn:E1; cbn [bind] in HB; try discriminate.
        apply no_entry in E1; [|apply Htools]. subst C1. unfold give_up in HB. destruct (untouched _); [|discriminate].
        injection HB as <-. congruence.
      - assert (Ha : In a (passing (Z.of_nat i) (map (relabel f) A))) by (rewrite Ep; left; auto).
        pose proof (passing_ids _ _ _ Ha) as Hy. apply ids_in in Hy. destruct Hy as (y' & Hy' & <-).
        pose proof Hy' as Hy. apply rl_In in Hy. destruct Hy as (y & Hy & ->). exists y. split; auto. split; auto.
        apply (rl_after f A Hf Hcl); auto. apply passing_some; auto.
        + intros x Hx. apply rl_In in Hx. destruct Hx as (z & Hz & ->). apply (Hm z Hz).
        + apply rl_ids; auto.
    Qed.
  End File.
End Whole.

(** ** The strategies that synthesize returns *)
Lemma made_proceeds : forall F A i, 2 <= length (fs_sgoals F) -> correct F A -> seeks F A -> i < length (fs_sgoals F) ->
  apart F i (after F i) -> proceeds F A.
Proof.
  intros F A i Hk Hco (Hm & Hse) Hi Hap p Hp Hne Heg Hc. set (k := length (fs_sgoals F)) in *.
  pose proof (Hm (p 0) (proj1 (Hp 0))) as Hm0. set (j := Z.to_nat (amode (p 0))).
  assert (Hj : j < k) by (unfold j; lia).
  destruct (co_live _ _ Hco p Hp Hne Heg (nth j (fs_sgoals F) FTrue) (nth_In _ _ Hj) 1) as (t & Ht & E).
  destruct t as [|t]; [lia|].
  destruct (Hse (p t) (p (S t)) (proj1 (Hp t)) (proj1 (Hp (S t))) (proj2 (Hp t))) as (i' & c & Hi' & E1 & E2 & Hg & Hiff).
  rewrite Hc in E1, E2. fold k in Hi', E2, Hg. assert (i' = j) by (unfold j; lia). subst i'.
  assert (H0 : 0 < c) by (apply Hiff; exact E).
  assert (Hck : k <= c).
  { destruct (le_lt_dec k c) as [K|K]; auto. exfalso. rewrite E1 in E2. apply Nat2Z.inj in E2.
    destruct (le_lt_dec k (j + c)) as [K'|K'].
    - replace (j + c) with (j + c - k + 1 * k) in E2 by lia. rewrite Nat.mod_add, Nat.mod_small in E2 by lia. lia.
    - rewrite Nat.mod_small in E2 by lia. lia. }
  assert (Hall : forall a, a < k -> sgoal F a (astate (p (S t))) = true).
  { intros a Ha. rewrite <- (gap_spec k ltac:(lia) j a Hj Ha). apply Hg. pose proof (gap_lt k ltac:(lia) j a). lia. }
  apply (Hap (astate (p (S t)))); [apply (co_states _ _ Hco); apply Hp|apply Hall; auto|apply Hall].
  apply Nat.mod_upper_bound. fold k. lia.
Qed.

Lemma add_sound : forall F, well_scoped F -> all_boolean F -> 2 <= length (fs_sgoals F) ->
  forall g, boolean g = true -> state_form F g ->
  forall orc alloc, tools_ok F orc alloc ->
  forall fs, fields_in (length (fs_evars F) + length (fs_svars F)) fs ->
  forall n A text fuel B, correct F A -> in_order F A -> proceeds F A ->
  writable n A -> aut_aut_dump A n = Ok text -> short_lines text ->
  2 ^ (length (fs_evars F) + length (fs_svars F)) <= fuel ->
  add_metric_sysgoal (spec_of F) NULL orc alloc fuel n text fs (tree_of g) = Ok B -> B <> [] ->
  exists i, place fs F g i /\
    (apart F i (after F i) -> new_apart F g (after F i) -> correct (with_goal (S i) g F) B /\ starts F (after F i) A B /\
      (env_moves F -> in_order_but (with_goal (S i) g F) (moved i (after F i)) (S i) B)).
Proof.
  intros F Hws Hb Hk g Hgb Hgs orc alloc HT fs Hfs n A text fuel B Hco Hord Hpro Hw Hd Hs Hfu HB Hne.
  destruct (add_ok F Hws Hb g Hgb Hgs orc alloc HT fs Hfs n A text fuel B Hco Hw Hd Hs Hfu HB Hne Hk) as (i & Hpl & H & _).
  exists i. auto.
Qed.
Lemma add_made : forall F, well_scoped F -> all_boolean F -> 2 <= length (fs_sgoals F) ->
  forall g, boolean g = true -> state_form F g ->
  forall orc alloc, tools_ok F orc alloc ->
  forall fs, fields_in (length (fs_evars F) + length (fs_svars F)) fs ->
  forall fuel' flags n A text fuel B, synthesize (spec_of F) orc alloc fuel' flags = Ok A ->
  writable n A -> aut_aut_dump A n = Ok text -> short_lines text ->
  2 ^ (length (fs_evars F) + length (fs_svars F)) <= fuel ->
  add_metric_sysgoal (spec_of F) NULL orc alloc fuel n text fs (tree_of g) = Ok B -> B <> [] ->
  exists i, place fs F g i /\
    (apart F i (after F i) -> new_apart F g (after F i) -> correct (with_goal (S i) g F) B /\ starts F (after F i) A B /\
      (env_moves F -> in_order_but (with_goal (S i) g F) (moved i (after F i)) (S i) B)).
Proof.
  intros F Hws Hb Hk g Hgb Hgs orc alloc HT fs Hfs fuel' flags n A text fuel B HA Hw Hd Hs Hfu HB Hne.
  assert (Hgo : fs_sgoals F <> []) by (destruct (fs_sgoals F); [cbn in Hk; lia|discriminate]).
  pose proof (made_correct F Hws Hb Hgo orc alloc HT fuel' flags A HA) as Hco.
  pose proof (made_order F Hws Hb Hgo orc alloc HT fuel' flags A HA) as Hor.
  pose proof (made_seeks F Hws Hb Hgo orc alloc HT fuel' flags A HA) as Hse.
  destruct (add_ok F Hws Hb g Hgb Hgs orc alloc HT fs Hfs n A text fuel B Hco Hw Hd Hs Hfu HB Hne Hk) as (i & Hpl & H & _).
  exists i. split; auto. intros Hap Hna. apply H; auto. apply (made_proceeds F A i); auto. apply Hpl.
Qed.
