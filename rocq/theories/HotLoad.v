(** rm_sysgoal on a strategy written to a file and read back. *)
From Coq Require Import List ZArith Lia Bool Arith.
From Verif Require Import Base Game Bdd BGame Support SupportProofs EnumProofs Ops OpsProofs Strs Ptree Form Solve FSpec
  SolveProofs RealProofs Automaton AutProofs
  Synth SynthSets SynthSpec Reach ReachSpec ReachProofs Nonbool AutIO AutIOSpec AutIOProofs Hotswap HotSpec HotProofs HotForm HotSem
  HotCore HotFollow HotTotal Lasso.
Import ListNotations.
Open Scope nat_scope.

(** ** The same automaton with other addresses *)
Definition relabel (f : nat -> nat) (x : anode) : anode :=
  Node (f (aid x)) (ainit x) (astate x) (amode x) (argrad x) (map f (atrans x)).

Section Relabel.
  Variables (f : nat -> nat) (A : aut).
  Hypothesis Hf : forall a b, In a (ids A) -> In b (ids A) -> f a = f b -> a = b.
  Hypothesis Hnd : NoDup (ids A).
  Hypothesis Hcl : closed A.
  Let B := map (relabel f) A.
  Lemma rl_ids : NoDup (ids B).
  Proof.
    unfold B, ids. rewrite map_map. cbn. rewrite <- (map_map aid f).
    change (NoDup (map f (ids A))). clear - Hf Hnd. induction (ids A) as [|a l IH]; cbn; [constructor|].
    inversion Hnd as [|? ? Hni Hnd']; subst. constructor.
    - intros Hi. apply in_map_iff in Hi. destruct Hi as (b & E & Hb). apply Hf in E; [|right; auto|left; auto]. congruence.
    - apply IH; auto. intros x y Hx Hy. apply Hf; right; auto.
  Qed.
  Lemma rl_edge : forall x y, In x A -> In y A -> (In (aid (relabel f y)) (atrans (relabel f x)) <-> In (aid y) (atrans x)).
  Proof.
    intros x y Hx Hy. cbn. rewrite in_map_iff. split; [|eauto]. intros (t & E & Ht).
    apply Hf in E; [congruence|apply (Hcl x); auto|apply in_map; auto].
  Qed.
  Lemma rl_In : forall y, In y B <-> exists x, In x A /\ y = relabel f x.
  Proof. intros y. unfold B. rewrite in_map_iff. split; intros (x & K1 & K2); eauto. Qed.
  Lemma rl_correct : forall F, correct F A -> correct F B.
  Proof.
    intros F H. constructor.
    - apply rl_ids.
    - intros y t Hy Ht. apply rl_In in Hy. destruct Hy as (x & Hx & ->). cbn in Ht. apply in_map_iff in Ht.
      destruct Ht as (t' & <- & Ht). destruct (co_closed _ _ H x t' Hx Ht) as (z & Hz & <-). exists (relabel f z).
      split; auto. apply rl_In. eauto.
    - intros y Hy. apply rl_In in Hy. destruct Hy as (x & Hx & ->). apply (co_states _ _ H x Hx).
    - intros y z Hy Hz Ht. apply rl_In in Hy. destruct Hy as (x & Hx & ->). apply rl_In in Hz. destruct Hz as (u & Hu & ->).
      apply (rl_edge x u Hx Hu) in Ht. apply (co_safe _ _ H x u); auto.
    - intros y e Hy He. apply rl_In in Hy. destruct Hy as (x & Hx & ->). destruct (co_answer _ _ H x e Hx He) as (u & Hu & Ht & E).
      exists (relabel f u). split; [apply rl_In; eauto|]. split; auto. apply rl_edge; auto.
    - intros p Hp Hne Heg g Hg.
      destruct (Hp 0) as (H0 & _). apply rl_In in H0. destruct H0 as (x0 & Hx0 & _).
      set (q := fun t => match find (fun x => f (aid x) =? aid (p t)) A with Some x => x | None => x0 end).
      assert (Hq : forall t, In (q t) A /\ p t = relabel f (q t)).
      { intros t. destruct (Hp t) as (Ht & _). apply rl_In in Ht. destruct Ht as (x & Hx & E). unfold q.
        destruct (find _ A) as [x'|] eqn:Ef.
        - apply find_some in Ef. destruct Ef as (Hx' & Ef). apply Nat.eqb_eq in Ef. rewrite E in Ef. cbn in Ef.
          assert (x' = x).
          { apply (node_unique A); auto. apply Hf; auto; apply in_map; auto. }
          subst x'. auto.
        - exfalso. pose proof (find_none _ _ Ef x Hx) as K. cbn in K. rewrite E in K. cbn in K. rewrite Nat.eqb_refl in K. discriminate. }
      cut (infinitely_often (holds F g) (fun t => astate (q t))).
      { intros K t. destruct (K t) as (t' & Ht & E). exists t'. split; auto. destruct (Hq t') as (_ & Q2). rewrite Q2. auto. }
      apply (co_live _ _ H q) with (g := g); auto.
      + intros t. split; [apply Hq|]. destruct (Hp t) as (_ & Ht). destruct (Hq t) as (Q1 & Q2). destruct (Hq (S t)) as (Q3 & Q4).
        rewrite Q2, Q4 in Ht. apply rl_edge; auto.
      + intros He t. specialize (Hne He t). destruct (Hq t) as (_ & Q2). rewrite Q2 in Hne. auto.
      + intros h Hh t. destruct (Heg h Hh t) as (t' & Ht & E). exists t'. split; auto. destruct (Hq t') as (_ & Q2). rewrite Q2 in E. auto.
  Qed.
  Lemma rl_order : forall F, in_order F A -> in_order F B.
  Proof.
    intros F (H1 & H2). split.
    - intros y Hy. apply rl_In in Hy. destruct Hy as (x & Hx & ->). apply (H1 x Hx).
    - intros y z Hy Hz Ht. apply rl_In in Hy. destruct Hy as (x & Hx & ->). apply rl_In in Hz. destruct Hz as (u & Hu & ->).
      apply (rl_edge x u Hx Hu) in Ht. apply (H2 x u); auto.
  Qed.
  Lemma rl_skip : forall F i, not_skipped F i A -> not_skipped F i B.
  Proof.
    intros F i H y z Hy Hz Ht. apply rl_In in Hy. destruct Hy as (x & Hx & ->). apply rl_In in Hz. destruct Hz as (u & Hu & ->).
    apply (rl_edge x u Hx Hu) in Ht. apply (H x u); auto.
  Qed.
  Lemma rl_seeks : forall F, seeks F A -> seeks F B.
  Proof.
    intros F (H1 & H2). split.
    - intros y Hy. apply rl_In in Hy. destruct Hy as (x & Hx & ->). apply (H1 x Hx).
    - intros y z Hy Hz Ht. apply rl_In in Hy. destruct Hy as (x & Hx & ->). apply rl_In in Hz. destruct Hz as (u & Hu & ->).
      apply (rl_edge x u Hx Hu) in Ht. apply (H2 x u); auto.
  Qed.
  Lemma rl_inj : forall x y, In x A -> In y A -> relabel f x = relabel f y -> x = y.
  Proof.
    intros x y Hx Hy E. apply (node_unique A); auto. apply Hf; try (apply in_map; auto). injection E. auto.
  Qed.
  Lemma rl_nodup : forall l, incl l A -> NoDup l -> NoDup (map (relabel f) l).
  Proof.
    induction l as [|x l IH]; intros Hi Hl; cbn; [constructor|]. inversion Hl as [|? ? Hni Hl']; subst. constructor.
    - intros K. apply in_map_iff in K. destruct K as (y & E & Hy). apply rl_inj in E; [|apply Hi; right; auto|apply Hi; left; auto].
      congruence.
    - apply IH; auto. intros y Hy. apply Hi. right. auto.
  Qed.
  Lemma rl_leaves : forall F i x, In x A -> (leaves F i B (relabel f x) <-> leaves F i A x).
  Proof.
    intros F i x Hx. split; intros (_ & He & y & Hy & Hn & Ht).
    - apply rl_In in Hy. destruct Hy as (z & Hz & ->). split; auto. split; auto. exists z. split; auto. split; auto.
      apply rl_edge; auto.
    - split; [apply rl_In; eauto|]. split; auto. exists (relabel f y). split; [apply rl_In; eauto|]. split; auto.
      apply rl_edge; auto.
  Qed.
  Lemma nodup_A : NoDup A.
  Proof. apply (NoDup_map_inv aid). auto. Qed.
  Lemma rl_fit : forall F i, exits_fit F i B <-> exits_fit F i A.
  Proof.
    intros F i. split; intros (U & D & HU & HD & HDA & Hl).
    - assert (Hdec : forall x, {In (relabel f x) U} + {~ In (relabel f x) U}) by (intros x; apply in_dec; apply anode_dec).
      assert (Hdec' : forall x, {In (relabel f x) D} + {~ In (relabel f x) D}) by (intros x; apply in_dec; apply anode_dec).
      set (U' := filter (fun x => if Hdec x then true else false) A).
      set (D' := filter (fun x => if Hdec' x then true else false) A).
      assert (HU' : forall x, In x U' <-> In x A /\ In (relabel f x) U).
      { intros x. unfold U'. rewrite filter_In. destruct (Hdec x); split; intros (? & ?); split; auto; try discriminate; tauto. }
      assert (HD' : forall x, In x D' <-> In x A /\ In (relabel f x) D).
      { intros x. unfold D'. rewrite filter_In. destruct (Hdec' x); split; intros (? & ?); split; auto; try discriminate; tauto. }
      exists U', D'. split; [|split; [|split]].
      + intros x Hx. apply HU'. split; [apply Hx|]. apply HU. apply rl_leaves; auto. apply Hx.
      + apply NoDup_filter. apply nodup_A.
      + intros x Hx. apply HD' in Hx. destruct Hx as (H1 & H2). split; auto. apply (HDA _ H2).
      + assert (L1 : length (map (relabel f) U') <= length U).
        { apply NoDup_incl_length.
          - apply rl_nodup; [intros x Hx; apply HU' in Hx; tauto|]. apply NoDup_filter. apply nodup_A.
          - intros y Hy. apply in_map_iff in Hy. destruct Hy as (x & <- & Hx). apply HU' in Hx. tauto. }
        assert (L2 : length D <= length (map (relabel f) D')).
        { apply NoDup_incl_length; auto. intros y Hy. destruct (HDA y Hy) as (Hb & _). apply rl_In in Hb.
          destruct Hb as (x & Hx & ->). apply in_map. apply HD'. auto. }
        rewrite map_length in L1, L2. lia.
    - assert (Hdec : forall x, {In x U} + {~ In x U}) by (intros x; apply in_dec; apply anode_dec).
      set (U' := filter (fun x => if Hdec x then true else false) A).
      assert (HU' : forall x, In x U' <-> In x A /\ In x U).
      { intros x. unfold U'. rewrite filter_In. destruct (Hdec x); split; intros (? & ?); split; auto; try discriminate; tauto. }
      exists (map (relabel f) U'), (map (relabel f) D). split; [|split; [|split]].
      + intros y Hy. assert (Hb := proj1 Hy). apply rl_In in Hb. destruct Hb as (x & Hx & ->). apply in_map. apply HU'. split; auto.
        apply HU. apply rl_leaves; auto.
      + apply rl_nodup; auto. intros x Hx. apply (HDA x Hx).
      + intros y Hy. apply in_map_iff in Hy. destruct Hy as (x & <- & Hx). destruct (HDA x Hx). split; auto. apply rl_In. eauto.
      + rewrite !map_length. assert (L1 : length U' <= length U); [|lia].
        apply NoDup_incl_length; [apply NoDup_filter; apply nodup_A|]. intros x Hx. apply HU' in Hx. tauto.
  Qed.
  Lemma rl_taken : forall F i, taken_up F i B <-> taken_up F i A.
  Proof.
    intros F i. split; intros (x & y & Hx & Hy & Ht & E).
    - apply rl_In in Hx. destruct Hx as (x' & Hx & ->). apply rl_In in Hy. destruct Hy as (y' & Hy & ->).
      exists x', y'. split; auto. split; auto. split; auto. apply rl_edge; auto.
    - exists (relabel f x), (relabel f y). split; [apply rl_In; eauto|]. split; [apply rl_In; eauto|]. split; auto. apply rl_edge; auto.
  Qed.
  Lemma rl_keeps : forall F i C, keeps F i B C -> keeps F i A C.
  Proof.
    intros F i C (H1 & H2). split.
    - intros x Hx E. apply (H1 (relabel f x)); [apply rl_In; eauto|auto].
    - intros y Hy E. destruct (H2 y Hy E) as (z & Hz & Ez & Ei). apply rl_In in Hz. destruct Hz as (x & Hx & ->). exists x. auto.
  Qed.
End Relabel.

Lemma Forall2_nth_l : forall X Y (R : X -> Y -> Prop) l l', Forall2 R l l' -> forall i x, nth_error l i = Some x ->
  exists y, nth_error l' i = Some y /\ R x y.
Proof.
  intros X Y R l l' H. induction H as [|a b l l' Hab H IH]; intros [|i] x E; cbn in *; try discriminate; eauto.
  injection E as <-. eauto.
Qed.
Lemma combine_nth : forall X Y (l : list X) (l' : list Y) i x y, nth_error l i = Some x -> nth_error l' i = Some y -> In (x, y) (List.combine l l').
Proof.
  induction l as [|a l IH]; intros [|b l'] [|i] x y H H'; cbn in *; try discriminate.
  - left. congruence.
  - right. eauto.
Qed.
Lemma combine_pos : forall X Y (l : list X) (l' : list Y) x y, In (x, y) (List.combine l l') ->
  exists i, nth_error l i = Some x /\ nth_error l' i = Some y.
Proof.
  induction l as [|a l IH]; intros [|b l'] x y H; cbn in *; try tauto. destruct H as [E|H].
  - injection E as <- <-. exists 0. auto.
  - destruct (IH l' x y H) as (i & H1 & H2). exists (S i). auto.
Qed.
Lemma nodup_pos : forall X (g : X -> nat) l i j x y, NoDup (map g l) -> nth_error l i = Some x -> nth_error l j = Some y -> g x = g y -> i = j.
Proof.
  intros X g l. induction l as [|a l IH]; intros i j x y Hnd Hi Hj E; [destruct i; discriminate|].
  cbn in Hnd. inversion Hnd as [|? ? Hni Hnd']; subst. destruct i as [|i]; destruct j as [|j]; auto; cbn in *.
  - injection Hi as <-. apply nth_error_In in Hj. exfalso. apply Hni. rewrite E. apply in_map. auto.
  - injection Hj as <-. apply nth_error_In in Hi. exfalso. apply Hni. rewrite <- E. apply in_map. auto.
  - f_equal. eapply IH; eauto.
Qed.

Lemma loaded_relabel : forall (n : Z) A L, writable n A -> same_aut (fun x => Some (ainit x)) A L ->
  exists f, of_loaded L = Ok (map (relabel f) A) /\
    forall a b, In a (ids A) -> In b (ids A) -> f a = f b -> a = b.
Proof.
  intros n A L (_ & _ & Hnd & _ & Hw) (HF & HndL).
  set (f := fun a => match find (fun p => aid (fst p) =? a) (List.combine A L) with Some p => l_addr (snd p) | None => 0 end).
  assert (Hf : forall i x y, nth_error A i = Some x -> nth_error L i = Some y -> f (aid x) = l_addr y).
  { intros i x y Hx Hy. unfold f. destruct (find _ _) as [(x', y')|] eqn:Ef.
    - apply find_some in Ef. destruct Ef as (Hin & E). apply Nat.eqb_eq in E. cbn in E.
      destruct (combine_pos _ _ _ _ _ _ Hin) as (j & Hx' & Hy').
      assert (i = j) by (eapply (nodup_pos _ aid A); eauto). subst j. cbn. congruence.
    - exfalso. pose proof (find_none _ _ Ef _ (combine_nth _ _ _ _ _ _ _ Hx Hy)) as K. cbn in K. rewrite Nat.eqb_refl in K. discriminate. }
  exists f. split.
  - assert (H : forall A' L', (forall i x, nth_error A' i = Some x -> exists j, nth_error A j = Some x /\ nth_error L j = nth_error L' i) ->
      Forall2 (same_node A L (fun x => Some (ainit x))) A' L' -> of_loaded L' = Ok (map (relabel f) A')).
    { intros A' L' Hpos H. induction H as [|x y A' L' Hxy H IH]; [reflexivity|]. cbn [of_loaded map].
      destruct Hxy as (E1 & E2 & E3 & E4 & E5). rewrite E1. rewrite IH.
      - cbn [bind]. f_equal. f_equal. unfold relabel. destruct (Hpos 0 x eq_refl) as (j & Hj & Hj'). cbn in Hj'.
        rewrite (Hf j x y Hj Hj'), E2, E3, E4. f_equal. clear - E5 Hf.
        induction E5 as [|a b l l' (kk & x' & y' & K1 & K2 & K3 & K4) H IH]; [reflexivity|]. cbn. f_equal; auto.
        rewrite <- K2, <- K4. symmetry. eapply Hf; eauto.
      - intros i z Hz. apply (Hpos (S i) z). auto. }
    apply H; auto. intros i x Hx. exists i. auto.
  - intros a b Ha Hb E. apply in_map_iff in Ha. destruct Ha as (x & <- & Hx). apply in_map_iff in Hb. destruct Hb as (y & <- & Hy).
    apply In_nth_error in Hx. destruct Hx as (i & Hi). apply In_nth_error in Hy. destruct Hy as (j & Hj).
    destruct (Forall2_nth_l _ _ _ _ _ HF i x Hi) as (x' & Hx' & _). destruct (Forall2_nth_l _ _ _ _ _ HF j y Hj) as (y' & Hy' & _).
    rewrite (Hf _ _ _ Hi Hx'), (Hf _ _ _ Hj Hy') in E.
    assert (i = j) by (eapply (nodup_pos _ l_addr L); eauto). subst j. congruence.
Qed.

(** ** rm_sysgoal *)
Section Whole.
  Variable F : fspec.
  Hypothesis Hws : well_scoped F.
  Hypothesis Hbool : all_boolean F.
  Let k := length (fs_sgoals F).
  Lemma sp_goals : Z.of_nat (length (sys_goals (spec_of F))) = Z.of_nat k.
  Proof. cbn. rewrite map_length. reflexivity. Qed.
  Lemma rm_unfold : forall orc alloc n text d L A, d < k -> 3 <= k ->
    aut_aut_load n text = Ok (Some L) -> of_loaded L = Ok A -> A <> [] ->
    exists et st eg,
      no_primed_sys (length (fs_evars F)) (length (fs_svars F)) et /\
      Forall (Good (length (fs_evars F)) (length (fs_svars F))) eg /\ 0 < length eg /\
      (forall s e w, bitvec (length (fs_evars F) + length (fs_svars F)) s -> bitvec (length (fs_evars F)) e ->
         bitvec (length (fs_svars F)) w -> ev et (s ++ e ++ w) = g_etr (game_of F) s e) /\
      (forall s s', bitvec (length (fs_evars F) + length (fs_svars F)) s -> bitvec (length (fs_evars F) + length (fs_svars F)) s' ->
         ev st (s ++ s') = g_str (game_of F) s s') /\
      Forall2 (fun f d => forall s, bitvec (length (fs_evars F) + length (fs_svars F)) s ->
         evS (length (fs_evars F) + length (fs_svars F)) d s = holds F f s) (egoals1 F) eg /\
      forall fuel, rm_sysgoal (spec_of F) NULL orc alloc fuel n text (Z.of_nat d) =
        rm_core (Z.of_nat d) (Z.of_nat k) (length (fs_evars F)) (length (fs_svars F)) orc alloc et st eg fuel (untouched A) A.
  Proof.
    intros orc alloc n text d L A Hd Hk HL HA Hne.
    destruct (spec_BDDs_ok F Hws Hbool) as
      (et & st & eg & sg & Hb & Hnp & Hgeg & Hgsg & _ & Hlsg & Hleg & Het & Hst & Heg & Hsg).
    exists et, st, eg. repeat (split; [assumption|]). intros fuel.
    unfold rm_sysgoal. rewrite sp_goals.
    replace ((Z.of_nat d <? 0)%Z || (Z.of_nat k <=? Z.of_nat d)%Z) with false by lia.
    replace (Z.of_nat k <? 3)%Z with false by lia.
    rewrite HL. cbn [bind]. rewrite HA. cbn [bind].
    unfold aut_expand_bool. destruct A as [|a A']; [congruence|]. cbn [bind snd fst Z.eqb].
    unfold spec_BDDs in Hb.
    destruct (to_BDD (spec_of F) (env_trans (spec_of F))) as [et'| |]; cbn [bind] in Hb |- *; try discriminate.
    destruct (to_BDD (spec_of F) (sys_trans (spec_of F))) as [st'| |]; cbn [bind] in Hb |- *; try discriminate.
    destruct (map_out (to_BDD (spec_of F)) (env_goals' (spec_of F))) as [eg'| |]; cbn [bind] in Hb |- *; try discriminate.
    destruct (map_out (to_BDD (spec_of F)) (sys_goals (spec_of F))) as [sg'| |]; cbn [bind] in Hb |- *; try discriminate.
    injection Hb as -> -> -> ->. rewrite num_env_eq, num_sys_eq. reflexivity.
  Qed.

  Variables (orc : oracle) (alloc : nat -> aut -> nat).
  Hypothesis Htools : tools_ok F orc alloc.
  Variable d : nat.
  Hypothesis Hd : d < k.
  Hypothesis Hk3 : 3 <= k.
  Lemma rm_ok : forall fuel n A text B, correct F A -> in_order F A -> not_skipped F d A ->
    writable n A -> aut_aut_dump A n = Ok text -> short_lines text ->
    rm_sysgoal (spec_of F) NULL orc alloc fuel n text (Z.of_nat d) = Ok B -> B <> [] ->
    correct (without d F) B /\ keeps F d A B.
  Proof.
    intros fuel n A text B Hco Hord Hns Hw Hdump Hsh H HB.
    destruct (dump_load true n A Hw) as (text' & Et & HL). unfold aut_aut_dump in Hdump. rewrite Et in Hdump.
    cbn [bind] in Hdump. injection Hdump as <-.
    destruct (HL Hsh) as (L & EL & HsA). cbn [andb] in HsA.
    assert (EL' : aut_aut_load n text' = Ok (Some L)) by (unfold aut_aut_load; rewrite EL; reflexivity).
    destruct (loaded_relabel n A L Hw HsA) as (f & Eof & Hf).
    assert (Hne : map (relabel f) A <> []) by (destruct Hw as (K & _); destruct A; [congruence|discriminate]).
    destruct (rm_unfold orc alloc n text' d L _ Hd Hk3 EL' Eof Hne) as (et & st & eg & Hnp & Hgeg & _ & Het & Hst & Heg & Eq).
    rewrite Eq in H. pose proof (co_ids _ _ Hco) as Hnd.
    assert (Hcl : closed A).
    { intros x t Hx Ht. destruct (co_closed _ _ Hco x t Hx Ht) as (y & Hy & <-). apply in_map. auto. }
    destruct (core_ok F Hbool orc alloc Htools d Hd Hk3 (map (relabel f) A) (rl_correct f A Hf Hnd Hcl F Hco)
      et st eg Hnp Hgeg Het Hst Heg (rl_order f A Hf Hcl F Hord) (rl_skip f A Hf Hcl F d Hns) _ _ _ H HB) as (H1 & H2 & _).
    split; auto. eapply rl_keeps; eauto.
  Qed.
  Section File.
    Variables (n : Z) (A : aut) (text : String.string).
    Hypothesis Hco : correct F A.
    Hypothesis Hw : writable n A.
    Hypothesis Hdump : aut_aut_dump A n = Ok text.
    Hypothesis Hsh : short_lines text.
    (** what the file says *)
    Lemma file_relabel : exists f L, aut_aut_load n text = Ok (Some L) /\ of_loaded L = Ok (map (relabel f) A) /\
      map (relabel f) A <> [] /\ (forall a b, In a (ids A) -> In b (ids A) -> f a = f b -> a = b) /\ closed A.
    Proof.
      destruct (dump_load true n A Hw) as (text' & Et & HL). unfold aut_aut_dump in Hdump. rewrite Et in Hdump.
      cbn [bind] in Hdump. injection Hdump as E. cbn in E. subst text'.
      destruct (HL Hsh) as (L & EL & HsA). cbn [andb] in HsA.
      destruct (loaded_relabel n A L Hw HsA) as (f & Eof & Hf). exists f, L.
      split; [unfold aut_aut_load; rewrite EL; reflexivity|]. split; auto. split; [|split; auto].
      - destruct Hw as (K & _). destruct A; [congruence|discriminate].
      - intros x t Hx Ht. destruct (co_closed _ _ Hco x t Hx Ht) as (y & Hy & <-). apply in_map. auto.
    Qed.
    Lemma rm_overflows : ~ exits_fit F d A -> forall fuel,
      rm_sysgoal (spec_of F) NULL orc alloc fuel n text (Z.of_nat d) = Crash.
    Proof.
      intros Hno fuel. destruct file_relabel as (f & L & EL & Eof & Hne & Hf & Hcl).
      destruct (rm_unfold orc alloc n text d L _ Hd Hk3 EL Eof Hne) as (et & st & eg & Hnp & Hgeg & Hleg & Het & Hst & Heg & Eq).
      rewrite Eq. pose proof (co_ids _ _ Hco) as Hnd. pose proof (rl_correct f A Hf Hnd Hcl F Hco) as Hco'.
      assert (Hno' : ~ exits_fit F d (map (relabel f) A)) by (rewrite (rl_fit f A Hf Hnd Hcl); auto).
      pose proof (scan_overflows F d Hd Hk3 _ Hco' eg Hleg Hno') as K. unfold rm_core. fold k in K |- *.
      change (length (filter (fun x => del_mode (Z.of_nat d) (Z.of_nat k) (amode x)) (map (relabel f) A))) with (cap F d (map (relabel f) A)).
      destruct (cap F d (map (relabel f) A) =? 0) eqn:E0.
      - exfalso. apply Hno'. exists [], []. split; [|split; [constructor|split; [intros x []|auto]]].
        intros y (Hy & _ & x & Hx & Hn & _). apply Nat.eqb_eq in E0. unfold cap in E0.
        assert (Hi : In x (filter (fun x => del_mode (Z.of_nat d) (Z.of_nat (length (fs_sgoals F))) (amode x)) (map (relabel f) A))).
        { apply filter_In. split; auto. apply (dm_elsewhere F d Hd Hk3 eg Hleg). auto. }
        destruct (filter _ (map (relabel f) A)); [destruct Hi|discriminate].
      - rewrite K. reflexivity.
    Qed.
    Lemma rm_total : env_moves F -> seeks F A -> apart F (after F d) (after F (after F d)) -> exits_fit F d A ->
      exists N, forall fuel, N <= fuel -> exists B,
        rm_sysgoal (spec_of F) NULL orc alloc fuel n text (Z.of_nat d) = Ok B /\ (B <> [] <-> taken_up F d A).
    Proof.
      intros Hmov Hse Hap Hfit. destruct file_relabel as (f & L & EL & Eof & Hne & Hf & Hcl).
      destruct (rm_unfold orc alloc n text d L _ Hd Hk3 EL Eof Hne) as (et & st & eg & Hnp & Hgeg & Hleg & Het & Hst & Heg & Eq).
      pose proof (co_ids _ _ Hco) as Hnd. pose proof (rl_correct f A Hf Hnd Hcl F Hco) as Hco'.
      assert (Hnoe : fs_evars F = [] -> forall s, In s (fs_states F) -> g_etr (game_of F) s [] = true).
      { intros He s Hs. destruct (Hmov s Hs) as (e & Hi & Ht). assert (e = []); [|subst; auto].
        cbn in Hi. unfold fs_envs in Hi. rewrite He in Hi. cbn in Hi. destruct Hi as [|[]]; auto. }
      assert (Hcp : closed_play F (fun s => In s (fs_states F))) by (intros s s' _ Hs _ _; exact Hs).
      destruct (core_total F Hbool orc alloc Htools d Hd Hk3 (map (relabel f) A) Hco' et st eg Hnp Hgeg Hleg Het Hst Heg
        _ (co_states _ _ Hco') Hcp Hmov Hnoe (rl_seeks f A Hf Hcl F Hse) (fun x Hx => Hap (astate x) (co_states _ _ Hco' x Hx))) as (N & HN).
      { apply rl_fit; auto. }
      exists N. intros fuel Hfu. destruct (HN fuel Hfu) as (B & HB & Hiff). exists B.
      rewrite Eq, (none_untouched F _ Hco' _ (co_states _ _ Hco') Hmov). split; [exact HB|]. rewrite Hiff. apply rl_taken; auto.
    Qed.
  End File.
End Whole.
