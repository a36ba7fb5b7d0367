(** Proofs about the commands of the interactive mode (Interactive.v). *)
From Coq Require Import List ZArith Bool Arith Lia.
From Verif Require Import Base Fix Game GameTheory GameComplete Bdd Support SupportProofs EnumProofs BGame Ops
  OpsProofs SubProofs Strs Ptree Form Solve FSpec SolveProofs RealProofs Levels LevelProofs MetricLevels
  Automaton Synth SynthBdd SynthInit SynthSpec Interactive InteractSpec InteractLevels.
Import ListNotations.
Open Scope list_scope.
Open Scope nat_scope.

Lemma vec_eqb_iff : forall a b, vec_eqb a b = true <-> a = b.
Proof. intros. apply vec_eqb_eq. Qed.

Lemma match_pos : forall A a (x y : A), 0 < a -> match a with O => x | S _ => y end = y.
Proof. intros A [|a] x y H; [lia|reflexivity]. Qed.

Section Interact.
  Variable F : fspec.
  Hypothesis Hws : well_scoped F.
  Hypothesis Hbool : all_boolean F.
  Hypothesis Hgoals : fs_sgoals F <> [].
  Hypothesis Hsvars : fs_svars F <> [].
  Let ne := length (fs_evars F).
  Let ns := length (fs_svars F).
  Let n := ne + ns.
  Let m := 2 * (ne + ns).
  Let k := length (fs_sgoals F).
  Notation sp := (spec_of F).
  Notation den := (evS n).
  Notation z0 := (bZero m).
  Notation GW := (game_with F).
  Variable orc : oracle.
  Hypothesis Horc : oracle_ok m orc.

  (** enough fuel for every command *)
  Definition fuel_bound : nat :=
    S (length (fs_sgoals F) * 2 ^ (length (fs_evars F) + length (fs_svars F)) +
       2 ^ (length (fs_evars F) + length (fs_svars F))).

  Lemma kpos : 0 < k.
  Proof. unfold k. destruct (fs_sgoals F); [congruence|simpl; lia]. Qed.
  Lemma nspos : 0 < ns.
  Proof. unfold ns. destruct (fs_svars F); [congruence|simpl; lia]. Qed.
  Lemma stb : forall s, In s (fs_states F) <-> bitvec n s.
  Proof. exact (st_bits F Hbool). Qed.
  Lemma enb : forall e, In e (fs_envs F) <-> bitvec ne e.
  Proof. exact (en_bits F Hbool). Qed.
  Lemma outb : forall y, In y (fs_outs F) <-> bitvec ns y.
  Proof.
    intros y. unfold fs_outs. rewrite dvecs_bool.
    - unfold doms. rewrite map_length. apply all_vecs_spec.
    - intros d Hd. unfold doms in Hd. apply in_map_iff in Hd. destruct Hd as (v & <- & Hv).
      apply (proj1 Hbool). unfold fs_vars. apply in_or_app. auto.
  Qed.
  Lemma m_nn : m = n + n. Proof. unfold m, n. lia. Qed.

  Lemma sublevels_unique : forall r i K Y K' Y', sublevels F r i K Y -> sublevels F r i K' Y' ->
    K' = K /\ forall j s, j <= K -> In s (fs_states F) -> Y' j s = Y j s.
  Proof.
    intros r i K Y K' Y' (W & X & HW & HL) (W' & X' & HW' & HL').
    destruct (lad_unique _ _ _ _ W W' K K' Y Y' X X' HL HL') as (H1 & H2); auto.
    intros u Hu. apply eq_true_iff_eq. rewrite HW, HW' by exact Hu. tauto.
  Qed.
  Lemma index_unique : forall r i K Y s j, sublevels F r i K Y -> In s (fs_states F) ->
    index_in K Y s j -> forall K' Y' j', sublevels F r i K' Y' -> index_in K' Y' s j' -> j' = j.
  Proof.
    intros r i K Y s j HS Hs (Hj & Hf & Ht) K' Y' j' HS' (Hj' & Hf' & Ht').
    destruct (sublevels_unique _ _ _ _ _ _ HS HS') as (-> & HY).
    destruct HS as (W & X & _ & HL).
    rewrite HY in Hf' by (auto; lia).
    assert (Hm : forall a b, a <= b <= K -> Y a s = true -> Y b s = true)
      by (intros; eapply (lad_mono _ _ _ _ _ _ _ _ HL); eauto).
    destruct (Nat.lt_trichotomy j j') as [H|[H|H]]; auto; exfalso.
    - rewrite (Hm j (j' - 1)) in Hf'; [discriminate|lia|apply Ht; lia].
    - rewrite (Hm j' (j - 1)) in Hf; [discriminate|lia|]. rewrite <- HY by (auto; lia). apply Ht'. lia.
  Qed.
  Lemma index_moves : forall r i K Y s j, sublevels F r i K Y -> In s (fs_states F) ->
    index_in K Y s j -> forall K' Y', sublevels F r i K' Y' -> index_in K' Y' s j.
  Proof.
    intros r i K Y s j HS Hs (Hj & Hf & Ht) K' Y' HS'.
    destruct (sublevels_unique _ _ _ _ _ _ HS HS') as (-> & HY).
    split; auto. rewrite !HY by (auto; lia). split; auto. intros H. rewrite HY by auto. auto.
  Qed.
  Lemma good_answer_ext : forall b s e T T' y, (forall u, In u (fs_states F) -> T' u = T u) ->
    (good_answer F b s e T y <-> good_answer F b s e T' y).
  Proof.
    intros b s e T T' y HT. unfold good_answer.
    split; intros ((H1 & H2) & H3 & H4); (split; [split; auto|]); (split; [auto|]).
    - rewrite HT; auto.
    - rewrite <- HT; auto.
  Qed.
  Lemma choice_moves : forall b i K Y s e j y, sublevels F (lev b) i K Y -> j <= K ->
    forall K' Y', sublevels F (lev b) i K' Y' ->
    (sys_choice F b s e Y j y <-> sys_choice F b s e Y' j y).
  Proof.
    intros b i K Y s e j y HS Hj K' Y' HS'.
    destruct (sublevels_unique _ _ _ _ _ _ HS HS') as (-> & HY).
    assert (E : forall q z, q <= K -> (good_answer F b s e (Y q) z <-> good_answer F b s e (Y' q) z)).
    { intros q z Hq. apply good_answer_ext. intros u Hu. apply HY; auto. }
    unfold sys_choice. rewrite (E (j - 1) y), (E j y) by lia.
    assert (Hn : (forall z, ~ good_answer F b s e (Y (j - 1)) z) <->
                 (forall z, ~ good_answer F b s e (Y' (j - 1)) z)).
    { split; intros H z Hz; apply (H z); apply E; auto; lia. }
    tauto.
  Qed.

  Section Bdds.
  Variables (et0 st0 : dt) (eg sg : list dt).
  Hypothesis Hgeg : Forall (Good ne ns) eg.
  Hypothesis Hgsg : Forall (Good ne ns) sg.
  Hypothesis Hlsg : length sg = k.
  Hypothesis Hleg : 0 < length eg.
  Hypothesis Heg : Forall2 (fun f d => forall s, bitvec n s -> den d s = holds F f s) (egoals1 F) eg.
  Hypothesis Hsg : Forall2 (fun f d => forall s, bitvec n s -> den d s = holds F f s) (fs_sgoals F) sg.

  (** BDDs of rules *)
  Definition rep_rules (r : rules) (et st : dt) : Prop :=
    (forall s e w, bitvec n s -> bitvec ne e -> bitvec ns w -> ev et (s ++ e ++ w) = may_env r s e) /\
    (forall s s', bitvec n s -> bitvec n s' -> ev st (s ++ s') = may_sys r s s').
  Hypothesis Hload : rep_rules (loaded F) et0 st0.

  Lemma rep_np : forall r et st, rep_rules r et st -> no_primed_sys ne ns et.
  Proof. intros r et st [H _] s e w w' Hs He Hw Hw'. rewrite !H; auto. Qed.

  Lemma gr1_agree : forall et st r p, (forall t, In (p t) (all_vecs n)) ->
    (gr1 (bgame ne ns et st eg sg) p <-> gr1 (GW r) p).
  Proof.
    intros et st r p Hp.
    assert (Hinf : forall l ds, Forall2 (fun f d => forall s, bitvec n s -> den d s = holds F f s) l ds ->
      ((forall g, In g (map (evS n) ds) -> infinitely_often g p) <->
       (forall g, In g (map (holds F) l) -> infinitely_often g p))).
    { intros l ds H. induction H as [|f d l ds Hfd H IH]; simpl; [tauto|].
      assert (Hone : infinitely_often (evS n d) p <-> infinitely_often (holds F f) p).
      { unfold infinitely_often. split; intros Hi t; destruct (Hi t) as (t' & Ht & Hx);
          exists t'; (split; [auto|]).
        - rewrite <- Hfd; auto. apply all_vecs_spec; auto.
        - rewrite Hfd; auto. apply all_vecs_spec; auto. }
      split; intros Ha g [<-|Hg].
      - apply Hone. apply Ha; auto.
      - apply (proj1 IH); auto.
      - apply Hone. apply Ha; auto.
      - apply (proj2 IH); auto. }
    unfold gr1. simpl. pose proof (Hinf _ _ Heg) as H1. pose proof (Hinf _ _ Hsg) as H2.
    fold n. rewrite H1, H2.
    assert (H3 : (forall g, In g (map (holds F) (egoals1 F)) -> infinitely_often g p) <->
                 (forall g, In g (map (holds F) (fs_egoals F)) -> infinitely_often g p)).
    { unfold egoals1. destruct (fs_egoals F); [|tauto]. simpl. split; [tauto|].
      intros _ g [<-|[]] t. exists t. split; auto. }
    rewrite H3. tauto.
  Qed.

  Section Rep.
  Variables (r : rules) (et st : dt).
  Hypothesis HR : rep_rules r et st.
  Let GB := bgame ne ns et st eg sg.
  Lemma etr_rep : forall s e, In s (all_vecs n) -> In e (all_vecs ne) -> g_etr GB s e = may_env r s e.
  Proof. intros s e Hs He. apply all_vecs_spec in Hs, He. apply (proj1 HR); auto using bitvec_zeros. Qed.
  Lemma str_rep : forall s s', In s (all_vecs n) -> In s' (all_vecs n) -> g_str GB s s' = may_sys r s s'.
  Proof. intros s s' Hs Hs'. apply all_vecs_spec in Hs, Hs'. apply (proj2 HR); auto. Qed.
  Lemma SE : fs_states F = all_vecs n. Proof. apply states_eq; auto. Qed.
  Lemma EE : fs_envs F = all_vecs ne. Proof. apply envs_eq; auto. Qed.
  Lemma wins_rep : forall s, bitvec n s -> (sys_wins GB s <-> sys_wins (GW r) s).
  Proof.
    intros s Hs. apply all_vecs_spec in Hs.
    split; apply sys_wins_ext1; simpl; auto; rewrite ?SE, ?EE; auto.
    - intros s1 e H1 H2. symmetry. apply etr_rep; auto.
    - intros s1 s2 H1 H2. symmetry. apply str_rep; auto.
    - intros p Hp Hg. apply (gr1_agree et st r p Hp); auto.
    - intros s1 e H1 H2. apply etr_rep; auto.
    - intros s1 s2 H1 H2. apply str_rep; auto.
    - intros p Hp Hg. apply (gr1_agree et st r p Hp); auto.
  Qed.
  Lemma le_rep : forall s e, In s (all_vecs n) -> (legal_env (GW r) s e <-> legal_env GB s e).
  Proof.
    intros s e Hs. apply legal_env_ext; simpl; auto; rewrite ?EE; auto.
    intros s1 e1 H1 H2. symmetry. apply etr_rep; auto.
  Qed.
  Lemma ls_rep : forall s e s', In s (all_vecs n) -> (legal_sys (GW r) s e s' <-> legal_sys GB s e s').
  Proof.
    intros s e s' Hs. apply legal_sys_ext; simpl; auto; rewrite ?SE; auto.
    intros s1 s2 H1 H2. symmetry. apply str_rep; auto.
  Qed.

  Lemma dom_size : length (domZ GB) + length (all_vecs n) < fuel_bound.
  Proof.
    unfold domZ, fuel_bound. rewrite prod_length, seq_length. unfold ngoals. simpl g_sgoals.
    rewrite map_length, Hlsg. simpl g_states. fold ne ns n k. rewrite !all_vecs_length. lia.
  Qed.
  Variable fuel : nat.
  Hypothesis Hfuel : fuel_bound <= fuel.

  Lemma winning_rep : exists W, winning_of ne ns eg sg fuel et st = Ok W /\ Good ne ns W /\
    forall s, bitvec n s -> (den W s = true <-> sys_wins (GW r) s).
  Proof.
    pose proof dom_size as HD.
    destruct (winning_set_ok ne ns et st (rep_np r et st HR) eg sg Hgeg Hgsg) with (fuel := fuel)
      as (W & HW & HG & He).
    - rewrite Hlsg. apply kpos.
    - fold GB. lia.
    - fold n. lia.
    - exists W. split; auto. split; auto. intros s Hs. rewrite <- wins_rep by auto.
      assert (Hin : In s (all_vecs n)) by (apply all_vecs_spec; auto).
      change (evS n W s) with (OpsProofs.den ne ns W s). rewrite (He s Hin).
      apply W_exact; auto.
      + apply vec_eqb_eq.
      + simpl. rewrite map_length. auto.
      + unfold ngoals. simpl. rewrite map_length, Hlsg. apply kpos.
  Qed.

  (** arrays of sublevel sets of the rules [r] *)
  Definition rep_levels (L : list levels_t) : Prop :=
    length L = k /\ forall i, i < k -> exists K, length (fst (nth i L ([], []))) = S K /\
      (forall j, j <= K -> Good ne ns (nth j (fst (nth i L ([], []))) z0)) /\
      sublevels F r i K (fun j => den (nth j (fst (nth i L ([], []))) z0)).
  Lemma levels_rep : forall W, winning_of ne ns eg sg fuel et st = Ok W ->
    exists L, levels_of ne ns eg sg fuel et st W = Ok L /\ rep_levels L.
  Proof.
    intros W HW. pose proof dom_size as HD. destruct winning_rep as (W' & HW' & HGW & HWs).
    assert (W' = W) by congruence. subst W'.
    assert (Hk : 0 < length sg) by (rewrite Hlsg; apply kpos).
    destruct (sub_goals_ok ne ns et st (rep_np r et st HR) eg sg Hgeg fuel W ltac:(fold n; lia) HGW sg Hgsg)
      as (R & HRr & HlR & HRi).
    assert (HRc : compute_sublevel_sets ne ns et st fuel W eg sg = Ok (Some R)).
    { unfold compute_sublevel_sets. rewrite HRr. cbn [bind]. destruct sg; auto. simpl in Hk. lia. }
    destruct (sublevels_ok ne ns et st (rep_np r et st HR) eg sg Hgeg Hgsg Hk Hleg fuel W HW) as [_ Hlad].
    destruct (Hlad _ _ HRc) as [_ Hl]. clear Hlad.
    exists R. unfold levels_of. rewrite HRc. split; auto. split; [exact (eq_trans HlR Hlsg)|].
    intros i Hi. rewrite <- Hlsg in Hi. destruct (HRi i Hi) as (K & HL & _).
    destruct (Hl i Hi) as (K' & L1 & _ & HL'). destruct HL as (LY & _ & HY & _).
    assert (K' = K) by lia. subst K'. exists K. split; auto. split; [intros j Hj; apply (HY j Hj)|].
    exists (den W), (fun j q => den (nth q (nth j (snd (nth i R ([], []))) []) z0)).
    split; [intros s Hs; apply HWs; apply stb; auto|].
    assert (Hlg : length (egoals1 F) = length eg) by (eapply Forall2_len; eauto). rewrite Hlg.
    apply (ladder_ext GB (GW r)) with (goal := den (nth i sg z0)) (W := den W)
          (eg := fun q => den (nth q eg z0)); auto.
    - simpl. apply SE.
    - intros s e Hs. apply le_rep. exact Hs.
    - intros s e s' Hs. apply ls_rep. exact Hs.
    - intros s Hs. simpl in Hs. apply all_vecs_spec in Hs. unfold sgoal. symmetry.
      apply (Forall2_nth' _ _ _ _ _ i FTrue z0 Hsg); auto. fold k. rewrite <- Hlsg. auto.
    - intros q s Hq Hs. simpl in Hs. apply all_vecs_spec in Hs. symmetry.
      apply (Forall2_nth' _ _ _ _ _ q FTrue z0 Heg); auto. rewrite Hlg. auto.
  Qed.
  End Rep.

  Variable fuel : nat.
  Hypothesis Hfuel : fuel_bound <= fuel.

  (** the state of the program represents the book *)
  Record rep (b : book) (x : istate) : Prop := {
    rp_now : rep_rules (now b) (i_et x) (i_st x);
    rp_W : Good ne ns (i_W x) /\
           forall s, bitvec n s -> (den (i_W x) s = true <-> sys_wins (GW (win b)) s);
    rp_L : rep_levels (lev b) (i_L x)
  }.
  Definition tick (x : istate) (t : nat) : istate :=
    {| i_et := i_et x; i_st := i_st x; i_W := i_W x; i_L := i_L x; i_t := t |}.
  Lemma rep_tick : forall b x t, rep b x -> rep b (tick x t).
  Proof. intros b x t [H1 H2 H3]. constructor; auto. Qed.

  (** *** edits *)
  Lemma state_BDD_eq : forall p u e w, bitvec n u -> bitvec ne e -> bitvec ns w -> bitvec n p ->
    ev (state_to_BDD m p 0) (u ++ e ++ w) = vec_eqb u p.
  Proof.
    intros p u e w Hu He Hw Hp. apply eq_true_iff_eq. rewrite vec_eqb_iff.
    rewrite state_to_BDD_spec.
    - unfold slice. simpl. rewrite (proj1 Hp), firstn_len by apply Hu. tauto.
    - apply join3; auto.
    - rewrite (proj1 Hp). unfold m, n. lia.
    - apply Hp.
  Qed.
  Lemma env_BDD_eq : forall p u e w, bitvec n u -> bitvec ne e -> bitvec ns w -> bitvec ne p ->
    ev (state_to_BDD m p n) (u ++ e ++ w) = vec_eqb e p.
  Proof.
    intros p u e w Hu He Hw Hp. apply eq_true_iff_eq. rewrite vec_eqb_iff.
    rewrite state_to_BDD_spec.
    - unfold slice. rewrite skipn_len by apply Hu. rewrite (proj1 Hp), firstn_len by apply He. tauto.
    - apply join3; auto.
    - rewrite (proj1 Hp). unfold m, n. lia.
    - apply Hp.
  Qed.
  Lemma next_BDD_eq : forall p u v, bitvec n u -> bitvec n v -> bitvec n p ->
    ev (state_to_BDD m p n) (u ++ v) = vec_eqb v p.
  Proof.
    intros p u v Hu Hv Hp. apply eq_true_iff_eq. rewrite vec_eqb_iff.
    rewrite state_to_BDD_spec.
    - unfold slice. rewrite skipn_len by apply Hu. rewrite (proj1 Hp).
      rewrite firstn_all2 by (rewrite (proj1 Hv); auto). tauto.
    - rewrite m_nn. apply bitvec_app; auto.
    - rewrite (proj1 Hp). unfold m, n. lia.
    - apply Hp.
  Qed.
  Lemma state_BDD_eq2 : forall p u v, bitvec n u -> bitvec n v -> bitvec n p ->
    ev (state_to_BDD m p 0) (u ++ v) = vec_eqb u p.
  Proof.
    intros p u v Hu Hv Hp. destruct (split2 ne ns v Hv) as (e & w & -> & He & Hw).
    apply state_BDD_eq; auto.
  Qed.
  Lemma out_BDD_eq : forall p u v, bitvec n u -> bitvec n v -> bitvec ns p ->
    ev (state_to_BDD m p (2 * ne + ns)) (u ++ v) = vec_eqb (out_of F v) p.
  Proof.
    intros p u v Hu Hv Hp. apply eq_true_iff_eq. rewrite vec_eqb_iff.
    rewrite state_to_BDD_spec.
    - unfold slice, out_of. fold ne.
      replace (skipn (2 * ne + ns) (u ++ v)) with (skipn ne v).
      + rewrite (proj1 Hp). rewrite firstn_all2; [tauto|]. rewrite skipn_length, (proj1 Hv). unfold n. lia.
      + rewrite skipn_app, (proj1 Hu). rewrite (skipn_all2 u) by (rewrite (proj1 Hu); unfold n; lia).
        simpl. f_equal. unfold n. lia.
    - rewrite m_nn. apply bitvec_app; auto.
    - rewrite (proj1 Hp). unfold m. lia.
    - apply Hp.
  Qed.

  Lemma bm3 : forall u e w, bitvec n u -> bitvec ne e -> bitvec ns w -> bitvec m (u ++ e ++ w).
  Proof. intros. apply join3; auto. Qed.
  Lemma bm2 : forall u v, bitvec n u -> bitvec n v -> bitvec m (u ++ v).
  Proof. intros. rewrite m_nn. apply bitvec_app; auto. Qed.

  (** *** lists of answers *)
  Lemma sys_completions_ok : forall t f g, wf m f ->
    (forall u e' w, bitvec n u -> bitvec ne e' -> bitvec ns w -> ev f (u ++ e' ++ w) = g w) ->
    exists l, sys_completions ne ns orc fuel t f = Ok l /\ NoDup l /\
      forall y, In y l <-> bitvec ns y /\ g y = true.
  Proof.
    intros t f g Hwf Hg. pose proof nspos as Hns. unfold sys_completions.
    assert (Hco : concat_out (fun gcube => enum_cube fuel (slice (2 * ne + ns) ns gcube)) (orc t f) =
      Ok (concat (map (fun c => completions (slice (2 * ne + ns) ns c)) (orc t f)))).
    { apply concat_out_ok. intros c Hc. apply enum_cube_ok.
      destruct (Horc t f Hwf) as (Hsh & _). rewrite Forall_forall in Hsh.
      destruct (Hsh c Hc) as (Hl & _). unfold slice. rewrite firstn_length, skipn_length, Hl.
      replace (m - (2 * ne + ns)) with ns by (unfold m; lia). rewrite Nat.min_id.
      unfold fuel_bound in Hfuel. fold ne ns n in Hfuel.
      assert (2 ^ ns <= 2 ^ n) by (apply Nat.pow_le_mono_r; unfold n; lia). lia. }
    assert (Hsl : forall u e' w, bitvec n u -> bitvec ne e' -> bitvec ns w ->
       slice (2 * ne + ns) ns (u ++ e' ++ w) = w).
    { intros u e' w Hu He' Hw. unfold slice. rewrite app_assoc.
      rewrite skipn_len by (rewrite app_length, (proj1 Hu), (proj1 He'); unfold n; lia).
      apply firstn_all2. rewrite (proj1 Hw). auto. }
    destruct (enum_slices m (2 * ne + ns) ns f (orc t f)) as (H1 & H2); auto.
    - unfold m. lia.
    - apply depends_slice with (g := g).
      + unfold m. lia.
      + intros v Hv. destruct (split3 ne ns v Hv) as (u & e' & w & -> & Hu & He' & Hw).
        rewrite Hg, Hsl; auto.
    - exists (concat (map (fun c => completions (slice (2 * ne + ns) ns c)) (orc t f))).
      split; [rewrite match_pos by exact Hns; exact Hco|]. split; auto. intros y. rewrite H2.
      replace (m - (2 * ne + ns) - ns) with 0 by (unfold m; lia).
      change (zeros 0) with (@nil Z). rewrite app_nil_r.
      replace (zeros (2 * ne + ns)) with (zeros n ++ zeros ne)
        by (unfold zeros; rewrite <- repeat_app; f_equal; unfold n; lia).
      split; intros (H3 & H4); split; auto.
      + rewrite <- app_assoc, Hg in H4; auto using bitvec_zeros.
      + rewrite <- app_assoc, Hg; auto using bitvec_zeros.
  Qed.

  Lemma legal_app : forall r s e y, bitvec n s -> bitvec ne e ->
    (legal_sys (GW r) s e (e ++ y) <-> bitvec ns y /\ may_sys r s (e ++ y) = true).
  Proof.
    intros r s e y Hs He. unfold legal_sys. simpl. rewrite stb. fold ne.
    rewrite firstn_len by apply He. split.
    - intros (H1 & _ & H3). split; auto. destruct H1 as [Hl Hb].
      rewrite app_length, (proj1 He) in Hl. apply Forall_app in Hb. split; [unfold n in Hl; lia|apply Hb].
    - intros (H1 & H3). split; [apply bitvec_app; auto|auto].
  Qed.

  (** *** the index *)
  Lemma search_ok : forall s, bitvec n s -> forall Y K, length Y = S K ->
    (forall j, j < K -> den (nth j Y z0) s = true -> den (nth (S j) Y z0) s = true) ->
    den (nth 0 Y z0) s = false ->
    exists j, level_search ne ns (length Y) Y s = Ok j /\ index_in K (fun j => den (nth j Y z0)) s j.
  Proof.
    intros s Hs Y K HY Hinc H0.
    assert (H : forall i, 0 < i <= S K -> (forall j, i <= j <= K -> den (nth j Y z0) s = true) ->
      exists j, level_search ne ns i Y s = Ok j /\ index_in K (fun j => den (nth j Y z0)) s j).
    { induction i as [|i IH]; intros Hi Hall; [lia|]. cbn [level_search].
      rewrite (nth_error_nth' _ z0) by lia. rewrite eval_at_den by exact Hs. fold n.
      destruct (den (nth i Y z0) s) eqn:E.
      - destruct i as [|i]; [congruence|]. apply IH; [lia|]. intros j Hj.
        destruct (Nat.eq_dec j (S i)) as [->|]; auto. apply Hall. lia.
      - exists (S i). split; auto. split; [lia|]. replace (S i - 1) with i by lia. split; auto. }
    rewrite HY. apply H; [lia|]. intros j Hj. lia.
  Qed.
  Lemma levels_index : forall r L i s, rep_levels r L -> i < k -> bitvec n s ->
    exists Y X K j, nth_error L i = Some (Y, X) /\ length Y = S K /\
      (forall q, q <= K -> Good ne ns (nth q Y z0)) /\
      level_search ne ns (length Y) Y s = Ok j /\
      sublevels F r i K (fun q => den (nth q Y z0)) /\ index_in K (fun q => den (nth q Y z0)) s j.
  Proof.
    intros r L i s [HL HLi] Hi Hs. destruct (HLi i Hi) as (K & HK & HG & HS).
    rewrite (nth_error_nth' L ([], [])) by lia. destruct (nth i L ([], [])) as [Y X]. cbn [fst] in *.
    pose proof HS as (W & X' & HW & Hlad).
    assert (Hin : In s (g_states (GW r))) by (simpl; apply stb; auto).
    destruct (search_ok s Hs Y K HK) as (j & Hj & Hidx).
    - intros q Hq. apply (lad_incr _ _ _ _ _ _ _ _ Hlad q s); auto.
    - apply (lad_bottom _ _ _ _ _ _ _ _ Hlad s Hin).
    - exists Y, X, K, j. auto 10.
  Qed.

  (** *** sysnext *)

  Section Sysnext.
  Variables (b : book) (x : istate) (s e : vec) (i : nat).
  Hypothesis Hrep : rep b x.
  Hypothesis Hs : bitvec n s.
  Hypothesis He : bitvec ne e.
  Hypothesis Hi : i < k.
  Let stW := bAnd m (i_st x) (bSwap m n (i_W x)).
  Lemma stW_ok : forall u v, bitvec n u -> bitvec n v -> ev stW (u ++ v) = ev (i_st x) (u ++ v) && den (i_W x) v.
  Proof.
    intros u v Hu Hv. destruct (rp_W _ _ Hrep) as ((Hwf & Hun) & _).
    unfold stW. rewrite ev_And by (apply bm2; auto). f_equal.
    etransitivity; [apply (ev_swap2 n (i_W x) u v); auto|].
    apply (den_ev ne ns); auto.
  Qed.
  Lemma toward_list : forall t f, Good ne ns f ->
    exists g l, toward ne ns stW f s e = Ok g /\ sys_completions ne ns orc fuel t g = Ok l /\
      lists l (good_answer F b s e (den f)).
  Proof.
    intros t f Hf.
    destruct (toward_spec ne ns (i_st x) stW [] (den (i_W x)) stW_ok f s e Hf Hs He) as (g & Hg & Hwf & Hev).
    destruct (sys_completions_ok t g _ Hwf Hev) as (l & Hl & Hnd & Hin).
    exists g, l. split; auto. split; auto. split; auto. intros y. rewrite Hin.
    unfold good_answer. rewrite legal_app by auto. rewrite !andb_true_iff.
    split.
    - intros (Hy & (H1 & H2) & H3). assert (Hey : bitvec n (e ++ y)) by (apply bitvec_app; auto).
      rewrite (proj2 (rp_now _ _ Hrep)) in H1 by auto. apply (rp_W _ _ Hrep) in H2; auto.
    - intros ((Hy & H1) & H2 & H3). assert (Hey : bitvec n (e ++ y)) by (apply bitvec_app; auto).
      split; auto. rewrite (proj2 (rp_now _ _ Hrep)) by auto. split; auto. split; auto.
      apply (rp_W _ _ Hrep); auto.
  Qed.

  Lemma sysnext_ok : forall K Y j, sublevels F (lev b) i K Y -> index_in K Y s j ->
    (j = K + 1 /\ (forall z, ~ good_answer F b s e (Y K) z) ->
       sysnext ne ns orc fuel x (s ++ e) (Z.of_nat i) = Crash) /\
    (~ (j = K + 1 /\ (forall z, ~ good_answer F b s e (Y K) z)) ->
       exists t l, sysnext ne ns orc fuel x (s ++ e) (Z.of_nat i) = Ok (tick x t, AMoves l) /\
         lists l (sys_choice F b s e Y j)).
  Proof.
    intros K0 Y0 j0 HS0 Hj0.
    destruct (levels_index (lev b) (i_L x) i s (rp_L _ _ Hrep) Hi Hs)
      as (Y & X & K & j & HL & HY & HG & Hsr & HS & Hidx).
    pose proof (proj2 (stb s) Hs) as Hss.
    assert (j0 = j) by (eapply index_unique; [exact HS|exact Hss|exact Hidx|exact HS0|exact Hj0]). subst j0.
    destruct (sublevels_unique _ _ _ _ _ _ HS HS0) as (-> & HYY). cbv beta in HYY.
    unfold sysnext. fold m n stW. rewrite Nat2Z.id, HL.
    rewrite firstn_len, skipn_len by apply Hs. rewrite Hsr. cbn [bind].
    destruct Hidx as (Hj & Hf & Ht).
    rewrite (nth_error_nth' Y z0) by lia. replace (Nat.pred j) with (j - 1) by lia.
    destruct (toward_list (i_t x) (nth (j - 1) Y z0)) as (g & l & Hg & Hl & Hnd & Hin); [apply HG; lia|].
    rewrite Hg. cbn [bind]. rewrite Hl. cbn [bind].
    assert (E : forall q z, q <= K -> (good_answer F b s e (den (nth q Y z0)) z <-> good_answer F b s e (Y0 q) z)).
    { intros q z Hq. apply good_answer_ext. intros u Hu. apply HYY; auto. }
    destruct l as [|y0 l0].
    - assert (Hno : forall z, ~ good_answer F b s e (Y0 (j - 1)) z).
      { intros z Hz. apply (Hin z). apply E; auto. lia. }
      destruct j as [|j1]; [lia|]. replace (S j1 - 1) with j1 in * by lia.
      destruct (Nat.eq_dec j1 K) as [->|HjK].
      + split; [intros _|intros H; exfalso; apply H; split; [lia|auto]].
        assert (Hnone : nth_error Y (S K) = None) by (apply nth_error_None; lia). rewrite Hnone. reflexivity.
      + split; [intros (H & _); lia|intros _].
        rewrite (nth_error_nth' Y z0) by lia.
        destruct (toward_list (S (i_t x)) (nth (S j1) Y z0)) as (g2 & l2 & Hg2 & Hl2 & Hnd2 & Hin2);
          [apply HG; lia|].
        rewrite Hg2. cbn [bind]. rewrite Hl2. cbn [bind].
        exists (S (S (i_t x))), l2. split; [reflexivity|]. split; auto. intros y. rewrite Hin2.
        unfold sys_choice. replace (S j1 - 1) with j1 by lia.
        rewrite (E (S j1) y) by lia. split; [auto|]. intros [H|[_ H]]; auto. exfalso. exact (Hno y H).
    - assert (Hy0 : good_answer F b s e (Y0 (j - 1)) y0) by (apply E; [lia|]; apply Hin; left; auto).
      split.
      + intros (-> & H). exfalso. replace (K + 1 - 1) with K in Hy0 by lia. exact (H _ Hy0).
      + intros _. exists (S (i_t x)), (y0 :: l0). split; [reflexivity|]. split; auto. intros y. rewrite Hin.
        unfold sys_choice. rewrite (E (j - 1) y) by lia. split; [auto|].
        intros [H|[H _]]; auto. exfalso. exact (H _ Hy0).
  Qed.
  End Sysnext.

  (** *** one command *)
  Lemma exec_ok : forall b x c, rep b x -> valid F c ->
    (stuck F b c -> exec ne ns et0 st0 eg sg orc fuel x (encode c) = Crash) /\
    (~ stuck F b c -> exists x' a, exec ne ns et0 st0 eg sg orc fuel x (encode c) = Ok (x', a) /\
       answers F b c a /\ rep (update F b c) x').
  Proof.
    intros b x c Hrep Hv. pose proof Hrep as [Hnow HW HL].
    assert (Hns := nspos).
    destruct c; cbn [stuck]; (split; [try tauto|]); cbn [valid] in Hv; cbn [encode exec].
    - (* winning *)
      intros _. apply stb in Hv. eexists _, _. split; [reflexivity|]. split; [|destruct b; exact Hrep].
      eexists. split; [reflexivity|]. rewrite eval_at_den by exact Hv. apply HW; auto.
    - (* envnext *)
      intros _. apply stb in Hv.
      assert (Hcase : fs_evars F = [] \/ exists v0 vs, fs_evars F = v0 :: vs)
        by (clear; destruct (fs_evars F); eauto).
      destruct Hcase as [Ev|(v0 & vs & Ev)].
      + assert (Hne : ne = 0) by (unfold ne; rewrite Ev; reflexivity). rewrite Hne.
        eexists _, _. split; [reflexivity|]. split; [cbn [answers]; rewrite Ev; auto|destruct b; exact Hrep].
      + assert (Hne : ne = S (length vs)) by (unfold ne; rewrite Ev; reflexivity).
        destruct (get_env_moves_spec fuel (orc (i_t x)) (cube0 ne ns) s (i_et x) ne ns) as (l & Hl & Hnd & Hin).
        { apply cube0_length. } { exact Hv. } { intros f Hf. apply Horc. exact Hf. }
        { unfold fuel_bound in Hfuel. fold ne ns n in Hfuel.
          assert (2 ^ ne <= 2 ^ n) by (apply Nat.pow_le_mono_r; unfold n; lia). lia. }
        exists (tick x (S (i_t x))), (AMoves l). split.
        * rewrite match_pos by lia. rewrite Hl. reflexivity.
        * split; [|destruct b; apply rep_tick; exact Hrep]. cbn [answers]. rewrite Ev. exists l. split; auto.
          split; auto. intros e. rewrite Hin. unfold legal_env. simpl. rewrite enb.
          split.
          -- intros (H1 & w & H2 & H3). split; auto. rewrite (proj1 Hnow) in H3; auto.
          -- intros (H1 & H2). split; auto. exists (zeros ns). split; [apply bitvec_zeros|].
             rewrite (proj1 Hnow); auto using bitvec_zeros.
    - (* sysnext, stuck *)
      destruct Hv as (H1 & H2 & H3). apply stb in H1. apply enb in H2. intros Hst.
      destruct (levels_index (lev b) (i_L x) i s HL H3 H1) as (Y & X & K & j & _ & _ & _ & _ & HS & Hidx).
      destruct (Hst _ _ HS) as (Hi1 & Hn).
      destruct (sysnext_ok b x s e i Hrep H1 H2 H3 _ _ _ HS Hi1) as (HC & _). apply HC. auto.
    - (* sysnext *)
      destruct Hv as (H1 & H2 & H3). apply stb in H1. apply enb in H2. intros Hst.
      destruct (levels_index (lev b) (i_L x) i s HL H3 H1) as (Y & X & K & j & _ & _ & _ & _ & HS & Hidx).
      destruct (sysnext_ok b x s e i Hrep H1 H2 H3 _ _ _ HS Hidx) as (_ & HO).
      destruct HO as (t & l & Hx & Hl).
      { intros (-> & Hn). apply Hst. intros K' Y' HS'.
        destruct (sublevels_unique _ _ _ _ _ _ HS HS') as (-> & HYY). split.
        - eapply (index_moves _ _ _ _ s); [exact HS|apply stb; auto|exact Hidx|exact HS'].
        - intros z Hz. apply (Hn z). eapply good_answer_ext; [|exact Hz]. intros u Hu.
          apply (HYY K u); auto. }
      exists (tick x t), (AMoves l). split; auto. split; [|destruct b; apply rep_tick; exact Hrep].
      cbn [answers]. exists l. split; auto. intros K' Y' j' HS' Hidx'.
      assert (j' = j) by (eapply (index_unique _ _ _ _ s); [exact HS|apply stb; auto|exact Hidx|exact HS'|exact Hidx']).
      subst j'. destruct Hl as (Hnd & Hin). split; auto. intros y. rewrite Hin.
      destruct (sublevels_unique _ _ _ _ _ _ HS HS') as (-> & HYY). cbv beta in HYY.
      destruct (le_gt_dec j K) as [HjK|HjK]; [eapply choice_moves; eauto|].
      assert (E : forall q z, q <= K ->
        (good_answer F b s e (den (nth q Y z0)) z <-> good_answer F b s e (Y' q) z)).
      { intros q z Hq. apply good_answer_ext. intros u Hu. apply HYY; auto. }
      assert (Ej : j - 1 = K) by (destruct Hidx; lia).
      unfold sys_choice. rewrite Ej.
      assert (Hsome : ~ forall z, ~ good_answer F b s e (Y' K) z).
      { intros Hn. apply Hst. intros K2 Y2 HS2.
        destruct (sublevels_unique _ _ _ _ _ _ HS' HS2) as (-> & HY2).
        replace (K + 1) with j by lia. split.
        - eapply (index_moves _ _ _ _ s); [exact HS|apply stb; auto|exact Hidx|exact HS2].
        - intros z Hz. apply (Hn z). eapply good_answer_ext; [|exact Hz]. intros u Hu.
          apply (HY2 K u); auto. }
      assert (Hsome2 : ~ forall z, ~ good_answer F b s e (den (nth K Y z0)) z).
      { intros Hn. apply Hsome. intros z Hz. apply (Hn z). apply E; auto. }
      rewrite (E K y) by lia. split; intros [H|[H _]]; auto; contradiction.
    - (* sysnexta *)
      intros _. destruct Hv as (H1 & H2). apply stb in H1. apply enb in H2.
      fold n. rewrite firstn_len, skipn_len by apply H1.
      destruct (cof2_spec ne ns [] (i_st x) s e H1 H2) as (g & Hg & Hwf & Hev). rewrite Hg. cbn [bind].
      destruct (sys_completions_ok (i_t x) g _ Hwf Hev) as (l & Hl & Hnd & Hin). rewrite Hl. cbn [bind].
      exists (tick x (S (i_t x))), (AMoves l). split; auto. split; [|destruct b; apply rep_tick; exact Hrep].
      exists l. split; auto. split; auto. intros y. rewrite Hin, legal_app by auto.
      split; intros (Hy & H); split; auto.
      + rewrite (proj2 Hnow) in H; auto. apply bitvec_app; auto.
      + rewrite (proj2 Hnow); auto. apply bitvec_app; auto.
    - (* getindex *)
      intros _. destruct Hv as (H1 & H2). apply stb in H1. rewrite Nat2Z.id.
      destruct (levels_index (lev b) (i_L x) i s HL H2 H1) as (Y & X & K & j & HLi & _ & _ & Hsr & HS & Hidx).
      rewrite eval_at_den by exact H1. fold n. destruct (den (i_W x) s) eqn:E.
      + rewrite HLi, Hsr. cbn [bind]. eexists _, _. split; [reflexivity|].
        split; [|destruct b; exact Hrep]. cbn [answers]. apply HW in E; auto. split; [|tauto].
        intros _. exists j. split; auto. intros K' Y' HS'.
        eapply (index_moves _ _ _ _ s); [exact HS|apply stb; auto|exact Hidx|exact HS'].
      + eexists _, _. split; [reflexivity|]. split; [|destruct b; exact Hrep]. cbn [answers]. split; auto.
        intros Hw. apply HW in Hw; auto. congruence.
    - (* restrict env *)
      intros _. destruct Hv as (H1 & H2). apply stb in H1. apply enb in H2.
      fold n m. rewrite firstn_len, skipn_len by apply H1. rewrite app_length, (proj1 H1), (proj1 H2).
      replace (n + ne =? 2 * ne + ns) with true by (symmetry; apply Nat.eqb_eq; unfold n; lia).
      eexists _, _. split; [reflexivity|]. split; [reflexivity|]. constructor; cbn [now win lev update edit i_et i_st i_W i_L]; auto.
      split; [|apply Hnow]. intros u x1 w Hu Hx Hw. cbn [may_env with_env].
      rewrite ev_And, ev_Or, !ev_Not by (apply bm3; auto).
      rewrite state_BDD_eq, env_BDD_eq, (proj1 Hnow) by auto.
      destruct (may_env (now b) u x1), (vec_eqb u s), (vec_eqb x1 e); reflexivity.
    - (* restrict sys *)
      intros _. destruct Hv as (H1 & H2). apply stb in H1, H2.
      fold n m. rewrite firstn_len, skipn_len by apply H1. rewrite app_length, (proj1 H1), (proj1 H2).
      replace (n + n =? 2 * ne + ns) with false by (symmetry; apply Nat.eqb_neq; unfold n; lia).
      eexists _, _. split; [reflexivity|]. split; [reflexivity|]. constructor; cbn [now win lev update edit i_et i_st i_W i_L]; auto.
      split; [apply Hnow|]. intros u x1 Hu Hx. cbn [may_sys with_sys].
      rewrite ev_And, ev_Or, !ev_Not by (apply bm2; auto).
      rewrite state_BDD_eq2, next_BDD_eq, (proj2 Hnow) by auto.
      destruct (may_sys (now b) u x1), (vec_eqb u s), (vec_eqb x1 s'); reflexivity.
    - (* relax env *)
      intros _. destruct Hv as (H1 & H2). apply stb in H1. apply enb in H2.
      fold n m. rewrite firstn_len, skipn_len by apply H1. rewrite app_length, (proj1 H1), (proj1 H2).
      replace (n + ne =? 2 * ne + ns) with true by (symmetry; apply Nat.eqb_eq; unfold n; lia).
      eexists _, _. split; [reflexivity|]. split; [reflexivity|]. constructor; cbn [now win lev update edit i_et i_st i_W i_L]; auto.
      split; [|apply Hnow]. intros u x1 w Hu Hx Hw. cbn [may_env with_env].
      rewrite ev_Or, ev_And by (apply bm3; auto).
      rewrite state_BDD_eq, env_BDD_eq, (proj1 Hnow) by auto. apply orb_comm.
    - (* relax sys *)
      intros _. destruct Hv as (H1 & H2). apply stb in H1, H2.
      fold n m. rewrite firstn_len, skipn_len by apply H1. rewrite app_length, (proj1 H1), (proj1 H2).
      replace (n + n =? 2 * ne + ns) with false by (symmetry; apply Nat.eqb_neq; unfold n; lia).
      eexists _, _. split; [reflexivity|]. split; [reflexivity|]. constructor; cbn [now win lev update edit i_et i_st i_W i_L]; auto.
      split; [apply Hnow|]. intros u x1 Hu Hx. cbn [may_sys with_sys].
      rewrite ev_Or, ev_And by (apply bm2; auto).
      rewrite state_BDD_eq2, next_BDD_eq, (proj2 Hnow) by auto. apply orb_comm.
    - (* blockenv *)
      intros _. apply enb in Hv. fold n m.
      eexists _, _. split; [reflexivity|]. split; [reflexivity|]. constructor; cbn [now win lev update edit i_et i_st i_W i_L]; auto.
      split; [|apply Hnow]. intros u x1 w Hu Hx Hw. cbn [may_env with_env].
      rewrite ev_And, ev_Not by (apply bm3; auto).
      rewrite env_BDD_eq, (proj1 Hnow) by auto. reflexivity.
    - (* blocksys *)
      intros _. apply outb in Hv. fold n m.
      eexists _, _. split; [reflexivity|]. split; [reflexivity|]. constructor; cbn [now win lev update edit i_et i_st i_W i_L]; auto.
      split; [apply Hnow|]. intros u x1 Hu Hx. cbn [may_sys with_sys].
      rewrite ev_And, ev_Not by (apply bm2; auto).
      rewrite out_BDD_eq, (proj2 Hnow) by auto. reflexivity.
    - (* clear *)
      intros _. eexists _, _. split; [reflexivity|]. split; [reflexivity|]. constructor; cbn [now win lev update edit i_et i_st i_W i_L]; auto.
    - (* refresh winning *)
      intros _. destruct (winning_rep _ _ _ Hnow fuel Hfuel) as (W & Hw & HG & HWs). rewrite Hw. cbn [bind].
      eexists _, _. split; [reflexivity|]. split; [reflexivity|]. constructor; cbn [now win lev update edit i_et i_st i_W i_L]; auto.
    - (* refresh levels *)
      intros _. destruct (winning_rep _ _ _ Hnow fuel Hfuel) as (W & Hw & HG & HWs). rewrite Hw. cbn [bind].
      destruct (levels_rep _ _ _ Hnow fuel Hfuel W Hw) as (L & Hl & HLr). rewrite Hl. cbn [bind].
      eexists _, _. split; [reflexivity|]. split; [reflexivity|]. constructor; cbn [now win lev update edit i_et i_st i_W i_L]; auto.
  Qed.
  End Bdds.
End Interact.
