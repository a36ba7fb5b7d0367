(** Proofs about compute_minmax and compute_horizon (Metric.v). *)
From Coq Require Import List ZArith Bool Arith String Ascii Lia.
From Verif Require Import Base Fix Game GameTheory GameComplete Bdd Support SupportProofs EnumProofs BGame Ops
  OpsProofs SubProofs Strs Ptree Form Solve FSpec SolveProofs RealProofs Levels LevelProofs Nonbool
  RSpec Metric MetricSpec MetricProofs.
Import ListNotations.
Open Scope list_scope.
Open Scope Z_scope.

(** ** Ladders of equivalent games *)
Section LadExt.
  Context {S E : Type}.
  Variables G G' : game S E.
  Hypothesis Hst : g_states G' = g_states G.
  Hypothesis Hle : forall s e, In s (g_states G) -> (legal_env G' s e <-> legal_env G s e).
  Hypothesis Hls : forall s e s', In s (g_states G) -> (legal_sys G' s e s' <-> legal_sys G s e s').
  Lemma forces_ext : forall T s, In s (g_states G) -> (forces G' T s <-> forces G T s).
  Proof.
    intros T s Hs. unfold forces. split; intros H e He.
    - destruct (H e) as (s' & H1 & H2); [apply Hle; auto|]. exists s'. split; auto. apply Hls; auto.
    - destruct (H e) as (s' & H1 & H2); [apply Hle; auto|]. exists s'. split; auto. apply Hls; auto.
  Qed.
  Lemma step_ext : forall goal goal' W W' Y eg eg' P s, In s (g_states G) -> goal' s = goal s -> W' s = W s ->
    eg' s = eg s -> (level_step G' goal' W' Y eg' P s <-> level_step G goal W Y eg P s).
  Proof.
    intros goal goal' W W' Y eg eg' P s Hs H1 H2 H3. unfold level_step. rewrite H1, H2, H3.
    rewrite !forces_ext by auto. tauto.
  Qed.
  Lemma ladder_ext : forall goal goal' W W' eg eg' ne K Y X,
    (forall s, In s (g_states G) -> goal' s = goal s) -> (forall s, In s (g_states G) -> W' s = W s) ->
    (forall r s, (r < ne)%nat -> In s (g_states G) -> eg' r s = eg r s) ->
    is_ladder G goal W eg ne K Y X -> is_ladder G' goal' W' eg' ne K Y X.
  Proof.
    intros goal goal' W W' eg eg' ne K Y X Hg HW He [L1 L2 L3 L4 L5 L6 L7].
    constructor; rewrite ?Hst; auto.
    - intros s Hs. rewrite HW by auto. auto.
    - intros j r s Hj Hr Hs. rewrite (step_ext goal goal' W W' _ (eg r) (eg' r)); auto.
    - intros j r P Hj Hr HP. apply L7; auto. intros s Hs HPs.
      apply (step_ext goal goal' W W' (Y j) (eg r) (eg' r) P s); auto.
  Qed.
End LadExt.

Lemma set_bounds_ext : forall fs (T T' G G' : vec -> Prop) mn mx, (forall s, T s <-> T' s) ->
  (forall s, G s <-> G' s) -> set_bounds fs T G mn mx -> set_bounds fs T' G' mn mx.
Proof.
  intros fs T T' G G' mn mx HT HG (H1 & H2 & H3).
  assert (D : forall s x, set_dist fs G s x -> set_dist fs G' s x).
  { intros s x [(g & Hg & E) L]. split; [exists g; split; [apply HG|]; auto|].
    intros y Hy. apply L. apply HG. auto. }
  split; [|split].
  - destruct H1 as (s & Hs & D1). exists s. split; [apply HT|]; auto.
  - destruct H2 as (s & Hs & D1). exists s. split; [apply HT|]; auto.
  - intros s Hs. apply HT in Hs. destruct (H3 s Hs) as (x & D1 & B). exists x. split; auto.
Qed.
Lemma pair_bounds_ext : forall fs (T T' G G' : vec -> Prop) mm, (forall s, T s <-> T' s) ->
  (forall s, G s <-> G' s) -> pair_bounds fs T G mm -> pair_bounds fs T' G' mm.
Proof.
  intros fs T T' G G' mm HT HG [H1 H2]. split.
  - intros (g & Hg). eapply set_bounds_ext; [exact HT|exact HG|]. apply H1. exists g. apply HG. auto.
  - intros H. apply H2. intros g Hg. apply (H g). apply HG. auto.
Qed.

(** ** Levels *)
Section Lev.
  Variables (ne ns : nat) (orc : oracle).
  Let n := (ne + ns)%nat.
  Hypothesis Horc : oracle_ok (2 * n) orc.
  Notation Good := (Good ne ns).
  Notation z0 := (bZero (2 * n)).

  Lemma in_set_dec : forall T, wf (2 * n) T -> unprimed n T ->
    (exists s, in_set n T s) \/ (forall s, ~ in_set n T s).
  Proof.
    intros T HT HU. destruct (states_of_ok n orc Horc T HT HU 0%nat (2 ^ n)%nat (le_n _)) as ([|s l] & _ & _ & Hl).
    - right. intros s Hs. apply Hl in Hs. destruct Hs.
    - left. exists s. apply Hl. left. auto.
  Qed.
  Lemma bounds_pair : forall T G fs, Good T -> Good G -> fields_in n fs -> (exists s, in_set n T s) ->
    forall t fuel, (2 ^ n <= fuel)%nat ->
    exists mm t', bounds_DDset n fuel orc t T G fs = Ok (mm, t') /\
      pair_bounds fs (in_set n T) (in_set n G) mm.
  Proof.
    intros T G fs [HT HTu] [HG HGu] Hf HneT t fuel Hfu.
    destruct (in_set_dec G HG HGu) as [Hne|He].
    - destruct (bounds_DDset_ok n orc Horc T G fs HT HTu HG HGu Hf HneT Hne t fuel Hfu) as (mn & mx & t' & E & B).
      exists (mn, mx), t'. split; auto. split; auto. intros He. destruct Hne as [g Hg]. destruct (He g Hg).
    - destruct (bounds_DDset_empty n orc Horc T G fs HT HTu HG HGu Hf (or_intror He) t fuel Hfu) as (t' & E).
      exists (-1, -1), t'. split; auto. split; auto. intros [g Hg]. destruct (He g Hg).
  Qed.
  Lemma good_diff : forall a b, Good a -> Good b -> Good (bAnd (2 * n) a (bNot (2 * n) b)) /\
    forall s, in_set n (bAnd (2 * n) a (bNot (2 * n) b)) s <-> bitvec n s /\ evS n a s = true /\ evS n b s = false.
  Proof.
    intros a b Ha Hb. destruct (good_Not ne ns b Hb) as [N1 N2]. destruct (good_And ne ns a _ Ha N1) as [A1 A2].
    split; [exact A1|]. intros s. unfold in_set. split.
    - intros [Hs E]. split; auto.
      change (evS n (bAnd (2 * n) a (bNot (2 * n) b)) s) with (den ne ns (bAnd (2 * (ne + ns)) a (bNot (2 * (ne + ns)) b)) s) in E.
      rewrite A2, N2 in E by auto. apply andb_true_iff in E. destruct E as [E1 E2].
      apply negb_true_iff in E2. auto.
    - intros (Hs & E1 & E2). split; auto.
      change (evS n (bAnd (2 * n) a (bNot (2 * n) b)) s) with (den ne ns (bAnd (2 * (ne + ns)) a (bNot (2 * (ne + ns)) b)) s).
      rewrite A2, N2 by auto. apply andb_true_iff. split; [exact E1|]. apply negb_true_iff. exact E2.
  Qed.
  Lemma level_bounds_ok : forall goal fs fuel, Good goal -> fields_in n fs -> (2 ^ n <= fuel)%nat ->
    forall Ys Yj t, Forall Good (Yj :: Ys) ->
    (forall j, (S j < List.length (Yj :: Ys))%nat -> exists s, bitvec n s /\
       evS n (nth (S j) (Yj :: Ys) z0) s = true /\ evS n (nth j (Yj :: Ys) z0) s = false) ->
    exists mm t', level_bounds n fuel orc t goal fs Yj Ys = Ok (mm, t') /\
      List.length mm = List.length Ys /\
      forall j, (j < List.length Ys)%nat ->
        pair_bounds fs (fun s => bitvec n s /\ evS n (nth (S j) (Yj :: Ys) z0) s = true /\
                                 evS n (nth j (Yj :: Ys) z0) s = false)
          (in_set n goal) (nth j mm (0, 0)).
  Proof.
    intros goal fs fuel Hg Hf Hfu. induction Ys as [|Y1 Ys IH]; intros Yj t HG Hd.
    - exists [], t. split; auto. split; auto. intros j Hj. cbn in Hj. lia.
    - inversion HG as [|? ? G0 HG']; subst. inversion HG' as [|? ? G1 HG2]; subst.
      destruct (good_diff Y1 Yj G1 G0) as [GD SD].
      destruct (bounds_pair _ goal fs GD Hg Hf) with (t := t) (fuel := fuel) as (mm & t' & E & B); auto.
      { destruct (Hd 0%nat) as (s & Hs); [cbn; lia|]. exists s. apply SD. exact Hs. }
      destruct (IH Y1 t' HG') as (l & t2 & E2 & L2 & B2).
      { intros j Hj. apply (Hd (S j)). cbn in *. lia. }
      exists (mm :: l), t2. cbn [level_bounds]. rewrite E. cbn [bind snd]. rewrite E2. cbn [bind fst snd].
      split; auto. split; [cbn; lia|]. intros [|j] Hj.
      + cbn [nth]. eapply pair_bounds_ext; [exact SD| |exact B]. intros s. tauto.
      + cbn [List.length] in Hj. apply (B2 j). lia.
  Qed.

  Lemma goal_bounds_ok : forall W fs fuel, Good W -> fields_in n fs -> (2 ^ n <= fuel)%nat ->
    forall sgs R t, Forall Good sgs -> List.length R = List.length sgs ->
    (forall i, (i < List.length sgs)%nat ->
       exists K, List.length (fst (nth i R ([], []))) = S (S K) /\
       (forall j, (j <= S K)%nat -> Good (nth j (fst (nth i R ([], []))) z0)) /\
       forall j, (j < S K)%nat -> exists s, bitvec n s /\
         evS n (nth (S j) (fst (nth i R ([], []))) z0) s = true /\
         evS n (nth j (fst (nth i R ([], []))) z0) s = false) ->
    exists l, goal_bounds n fuel orc t W fs sgs R = Ok l /\ List.length l = List.length sgs /\
      forall i, (i < List.length sgs)%nat ->
        let Ys := fst (nth i R ([], [])) in let mm := nth i l [] in
        S (List.length mm) = List.length Ys /\ nth 0 mm (0, 0) = (0, 0) /\
        forall j, (1 <= j < List.length mm)%nat ->
          pair_bounds fs (fun s => bitvec n s /\ evS n (nth (S j) Ys z0) s = true /\
                                   evS n (nth j Ys z0) s = false)
            (fun s => bitvec n s /\ evS n (nth i sgs z0) s = true /\ evS n W s = true)
            (nth j mm (0, 0)).
  Proof.
    intros W fs fuel HW Hf Hfu. induction sgs as [|sg sgs IH]; intros R t Hsg HR HY.
    - exists []. destruct R; [|discriminate]. split; auto. split; auto. intros i Hi. cbn in Hi. lia.
    - destruct R as [|[Ys Xs] R]; [discriminate|]. inversion Hsg as [|? ? G1 Hsg']; subst.
      cbn [List.length] in HR. injection HR as HR.
      destruct (HY 0%nat) as (K & LY & GY & DY); [cbn; lia|]. cbn [nth fst] in LY, GY, DY.
      destruct Ys as [|Y0 [|Y1 Ys]]; try discriminate. cbn [goal_bounds].
      destruct (good_And ne ns sg W G1 HW) as [GA SA].
      cbn [List.length] in LY. injection LY as LY.
      destruct (level_bounds_ok (bAnd (2 * n) sg W) fs fuel GA Hf Hfu Ys Y1 t) as (mm & t' & E & L & B).
      { apply Forall_forall. intros Y HinY. apply (In_nth _ _ z0) in HinY. destruct HinY as (j & Hj & <-).
        cbn [List.length] in Hj. apply (GY (S j)). lia. }
      { intros j Hj. cbn [List.length] in Hj. apply (DY (S j)). lia. }
      rewrite E. cbn [bind snd].
      destruct (IH R t' Hsg' HR) as (l & E2 & L2 & B2).
      { intros i Hi. apply (HY (S i)). cbn. lia. }
      rewrite E2. cbn [bind fst]. eexists. split; [reflexivity|]. split; [cbn; lia|].
      intros [|i] Hi.
      + cbn [nth fst]. split; [cbn; lia|]. split; auto. intros [|j] Hj; [lia|].
        cbn [List.length] in Hj. assert (Hj' : (j < List.length Ys)%nat) by lia.
        refine (pair_bounds_ext _ _ _ _ _ _ _ _ (B j Hj')); [intros s; reflexivity|].
        intros s. unfold in_set.
        split.
        * intros [Hs Ee]. split; auto.
          change (evS n (bAnd (2 * n) sg W) s) with (den ne ns (bAnd (2 * (ne + ns)) sg W) s) in Ee.
          rewrite SA in Ee by auto. apply andb_true_iff in Ee. exact Ee.
        * intros (Hs & E1 & E3). split; auto.
          change (evS n (bAnd (2 * n) sg W) s) with (den ne ns (bAnd (2 * (ne + ns)) sg W) s).
          rewrite SA by auto. apply andb_true_iff. split; [exact E1|exact E3].
      + apply (B2 i). cbn [List.length] in Hi. lia.
  Qed.
  Lemma goal_bounds_crash : forall W fs fuel sg sgs Y Xs R t,
    goal_bounds n fuel orc t W fs (sg :: sgs) (([Y], Xs) :: R) = Crash.
  Proof. reflexivity. Qed.
End Lev.

(** ** Specifications *)
Section OnSpec.
  Variables (F : fspec) (orc : oracle).
  Hypothesis Hscope : well_scoped F.
  Hypothesis Hbool : all_boolean F.
  Hypothesis Hsg : fs_sgoals F <> [].
  Let ne := List.length (fs_evars F).
  Let ns := List.length (fs_svars F).
  Let n := (ne + ns)%nat.
  Hypothesis Horc : oracle_ok (2 * n) orc.
  Let sp := spec_of F.

  Lemma Forall2_nth' : forall A B (R : A -> B -> Prop) l r da db i, Forall2 R l r -> (i < List.length l)%nat ->
    R (nth i l da) (nth i r db).
  Proof.
    intros A B R l r da db i H. revert i. induction H as [|a b l r Hab H IH]; intros [|i] Hi; cbn in *; auto; try lia.
    apply IH. lia.
  Qed.
  Lemma Forall2_len : forall A B (R : A -> B -> Prop) l r, Forall2 R l r -> List.length l = List.length r.
  Proof. induction 1; cbn; auto. Qed.

  Lemma minmax_ok : forall fs, fields_in n fs ->
    exists N, forall fuel, (N <= fuel)%nat ->
    ((forall s, In s (fs_states F) -> ~ sys_wins (game_of F) s) ->
       compute_minmax sp fuel orc fs = Crash) /\
    ((exists s, In s (fs_states F) /\ sys_wins (game_of F) s) ->
     exists l W, compute_minmax sp fuel orc fs = Ok (Some l) /\
      List.length l = List.length (fs_sgoals F) /\
      (forall s, In s (fs_states F) -> (W s = true <-> sys_wins (game_of F) s)) /\
      forall i, (i < List.length (fs_sgoals F))%nat -> exists K Y X,
        is_ladder (game_of F) (holds F (nth i (fs_sgoals F) FTrue)) W (env_goal F)
          (List.length (egoal_forms F)) K Y X /\
        List.length (nth i l []) = K /\ nth 0 (nth i l []) (0, 0) = (0, 0) /\
        forall j, (1 <= j < K)%nat ->
          pair_bounds fs
            (fun s => In s (fs_states F) /\ Y (S j) s = true /\ Y j s = false)
            (fun s => In s (fs_states F) /\ holds F (nth i (fs_sgoals F) FTrue) s = true /\
                      sys_wins (game_of F) s)
            (nth j (nth i l []) (0, 0))).
  Proof.
    intros fs Hf. destruct (spec_BDDs_ok F Hscope Hbool) as
      (et & st & eg & sg & Hb & Hnp & Hgeg & Hgsg & _ & Hlsg & Hleg & Het & Hst & Heg & Hsgv).
    fold ne ns n in Hnp, Hgeg, Hgsg, Het, Hst, Heg, Hsgv.
    assert (Hk : (0 < List.length sg)%nat).
    { rewrite Hlsg. destruct (fs_sgoals F); simpl; [congruence|lia]. }
    destruct (winning_set_spec F Hscope Hbool Hsg) as (N1 & HN1). fold ne ns n in HN1.
    destruct (HN1 N1 (le_n _)) as (W & HW & HGW & HWs).
    assert (HWc : compute_winning_set_BDD ne ns et st N1 eg sg = Ok W).
    { unfold compute_winning_set in HW. rewrite Hb in HW. cbn [bind] in HW.
      rewrite num_env_eq, num_sys_eq in HW. exact HW. }
    set (G := bgame ne ns et st eg sg).
    destruct (sub_goals_ok ne ns et st Hnp eg sg Hgeg (S (List.length (all_vecs n))) W
                (Nat.lt_succ_diag_r _) HGW sg Hgsg) as (R & HR & HlR & HRi).
    assert (HRc : compute_sublevel_sets ne ns et st (S (List.length (all_vecs n))) W eg sg = Ok (Some R)).
    { unfold compute_sublevel_sets. rewrite HR. cbn [bind]. destruct sg; auto. simpl in Hk. lia. }
    destruct (sublevels_ok ne ns et st Hnp eg sg Hgeg Hgsg Hk Hleg N1 W HWc) as [_ Hlad].
    specialize (Hlad _ _ HRc). destruct Hlad as [_ Hlad]. fold ne ns n in Hlad.
    set (z0 := bZero (2 * n)) in *.
    exists (Nat.max N1 (Nat.max (S (List.length (all_vecs n))) (2 ^ n))). intros fuel Hfu.
    assert (Hmm : compute_minmax sp fuel orc fs = (l <- goal_bounds n fuel orc 0 W fs sg R ;; Ok (Some l))).
    { unfold compute_minmax. unfold sp. rewrite Hb. cbn [bind]. rewrite num_env_eq, num_sys_eq.
      fold ne ns n.
      rewrite (winning_set_mono ne ns et st N1 fuel eg sg W) by (auto; lia). cbn [bind].
      rewrite (sublevel_mono ne ns et st (S (List.length (all_vecs n))) fuel eg W sg (Some R)) by (auto; lia).
      reflexivity. }
    assert (HstG : fs_states F = all_vecs n) by (apply states_eq; auto).
    assert (HenG : fs_envs F = all_vecs ne) by (apply envs_eq; auto).
    assert (Hbv : forall s, In s (fs_states F) <-> bitvec n s).
    { intros s. rewrite HstG. apply all_vecs_spec. }
    assert (HKi : forall i, (i < List.length sg)%nat -> exists K,
       List.length (fst (nth i R ([], []))) = S K /\
       (forall j, (j <= K)%nat -> Good ne ns (nth j (fst (nth i R ([], []))) z0)) /\
       is_ladder G (evS n (nth i sg z0)) (evS n W) (fun r => evS n (nth r eg z0)) (List.length eg)
          K (fun j => evS n (nth j (fst (nth i R ([], []))) z0))
          (fun j r => evS n (nth r (nth j (snd (nth i R ([], []))) []) z0))).
    { intros i Hi. destruct (HRi i Hi) as (K & HL & _). destruct (Hlad i Hi) as (K' & L1 & _ & HL').
      destruct HL as (LY & _ & HY & _).
      assert (K' = K) by (unfold z0, n in *; lia). subst K'. exists K. split; auto. split; auto.
      intros j Hj. apply (HY j Hj). }
    (** levels exist iff some state is winning *)
    assert (HKpos : forall i K, (i < List.length sg)%nat -> List.length (fst (nth i R ([], []))) = S K ->
       ((exists s, In s (fs_states F) /\ sys_wins (game_of F) s) <-> (0 < K)%nat)).
    { intros i K Hi HL. destruct (HKi i Hi) as (K' & L1 & _ & Ld). assert (K' = K) by lia. subst K'.
      destruct Ld as [B T I St _ _ _]. cbn [g_states G bgame] in B, T, I, St. fold ne ns n in B, T, I, St.
      split.
      - intros (s & Hs & Hw). destruct K; [|lia]. apply HWs in Hw; auto. rewrite HstG in Hs.
        rewrite <- T, B in Hw by auto. discriminate.
      - intros HK. destruct (St 0%nat HK) as (s & Hs & _ & H1). exists s. rewrite HstG. split; auto.
        apply HWs; [rewrite HstG; auto|]. rewrite <- T by auto.
        assert (U : forall k, (1 + k <= K)%nat -> evS n (nth (1 + k) (fst (nth i R ([], []))) z0) s = true).
        { induction k as [|k IH]; intros Hk'; [exact H1|]. apply (I (1 + k)%nat s); [lia|exact Hs|apply IH; lia]. }
        pose proof (U (K - 1)%nat) as U'. replace (1 + (K - 1))%nat with K in U' by lia. apply U'. lia. }
    split.
    - intros Hnone. rewrite Hmm.
      destruct sg as [|sg0 sg]; [cbn in Hk; lia|]. destruct R as [|[Ys Xs] R]; [discriminate|].
      destruct (HKi 0%nat) as (K & L & _); [cbn; lia|].
      assert (K = 0%nat).
      { destruct K; auto. exfalso. destruct (proj2 (HKpos 0%nat (S K) Hk L)) as (s & Hs & Hw); [lia|].
        exact (Hnone s Hs Hw). }
      subst K. cbn [nth fst] in L. destruct Ys as [|Y [|? ?]]; try discriminate. reflexivity.
    - intros Hsome. rewrite Hmm.
      destruct (goal_bounds_ok ne ns orc Horc W fs fuel HGW Hf ltac:(fold n; lia) sg R 0%nat Hgsg HlR)
        as (l & El & Ll & Bl).
      { intros i Hi. destruct (HKi i Hi) as (K & L & GY & Ld).
        pose proof (proj1 (HKpos i K Hi L) Hsome) as HK. destruct K as [|K]; [lia|].
        exists K. split; auto. split; [exact GY|].
        intros j Hj. destruct (lad_strict _ _ _ _ _ _ _ _ Ld j Hj) as (s & Hs & H1 & H2).
        cbn [g_states G bgame] in Hs. exists s. split; [apply all_vecs_spec; exact Hs|]. split; auto. }
      fold n z0 in Bl. fold n in El. rewrite El. cbn [bind]. exists l, (evS n W). split; auto. split; [congruence|].
      split; auto. rewrite <- Hlsg. intros i Hi.
      destruct (HKi i Hi) as (K & L & GY & Ld). destruct (Bl i Hi) as (B1 & B2 & B3).
      exists K, (fun j => evS n (nth j (fst (nth i R ([], []))) z0)),
        (fun j r => evS n (nth r (nth j (snd (nth i R ([], []))) []) z0)).
      assert (LK : List.length (nth i l []) = K) by lia.
      split; [|split; [auto|split; [auto|]]].
      + assert (Hlg : List.length (egoal_forms F) = List.length eg) by (eapply Forall2_len; eauto).
        rewrite Hlg.
        apply (ladder_ext G (game_of F)) with (goal := evS n (nth i sg z0)) (W := evS n W)
          (eg := fun r => evS n (nth r eg z0)); auto.
        * intros s e Hs. cbn [G bgame g_states] in Hs. fold n in Hs.
          unfold legal_env. cbn [g_envs g_etr game_of G bgame]. rewrite HenG.
          split; intros [H1 H2]; (split; [exact H1|]).
          -- fold n. rewrite Het; auto using bitvec_zeros; try (apply all_vecs_spec; auto).
          -- fold n in H2. rewrite Het in H2; auto using bitvec_zeros; apply all_vecs_spec; auto.
        * intros s e s' Hs. cbn [G bgame g_states] in Hs. fold n in Hs.
          unfold legal_sys. cbn [g_states g_str g_env game_of G bgame]. rewrite HstG. fold ne ns n.
          split; intros (H1 & H2 & H3); (split; [exact H1|]); (split; [exact H2|]);
            rewrite all_vecs_spec in Hs, H1; [rewrite Hst|rewrite Hst in H3]; auto.
        * intros s Hs. cbn [G bgame g_states] in Hs. fold n in Hs. symmetry. rewrite all_vecs_spec in Hs.
          apply (Forall2_nth' _ _ (fun f d => forall s, bitvec n s -> evS n d s = holds F f s)
                   (fs_sgoals F) sg FTrue z0 i Hsgv); [lia|exact Hs].
        * intros r s Hr Hs. cbn [G bgame g_states] in Hs. fold n in Hs. symmetry. rewrite all_vecs_spec in Hs.
          apply (Forall2_nth' _ _ (fun f d => forall s, bitvec n s -> evS n d s = holds F f s)
                   (egoals1 F) eg FTrue z0 r Heg); [change (egoals1 F) with (egoal_forms F); lia|exact Hs].
      + intros j Hj. eapply pair_bounds_ext; [| |apply (B3 j); lia].
        * intros s. cbn beta. rewrite Hbv. tauto.
        * intros s. cbn beta. rewrite Hbv. split.
          -- intros (Hs & H1 & H2). split; auto. split.
             ++ rewrite <- H1. symmetry.
                apply (Forall2_nth' _ _ (fun f d => forall s, bitvec n s -> evS n d s = holds F f s)
                   (fs_sgoals F) sg FTrue z0 i Hsgv); [lia|exact Hs].
             ++ apply HWs; auto. apply Hbv. auto.
          -- intros (Hs & H1 & H2). split; auto. split.
             ++ rewrite <- H1.
                apply (Forall2_nth' _ _ (fun f d => forall s, bitvec n s -> evS n d s = holds F f s)
                   (fs_sgoals F) sg FTrue z0 i Hsgv); [lia|exact Hs].
             ++ apply HWs; auto. apply Hbv. auto.
  Qed.
End OnSpec.

(** ** The horizon *)
Lemma horiz_loop_ok : forall mm j k h, (k <= j - 2)%nat ->
  let r := horiz_loop mm j k h in
  let P k' := (1 <= k' <= k)%nat /\ fst (nth (j - 1) mm (0, 0)) <= snd (nth (k' - 1) mm (0, 0)) in
  (r = h /\ forall k', ~ P k') \/
  exists k', P k' /\ r = Z.of_nat (j - k') /\ forall k'', P k'' -> (k' <= k'')%nat.
Proof.
  intros mm j. induction k as [|k IH]; intros h Hk; cbn zeta.
  - left. split; auto. intros k' [? _]. lia.
  - cbn [horiz_loop].
    pose proof (Z.geb_spec (snd (nth k mm (0, 0))) (fst (nth (j - 1) mm (0, 0)))) as Hs.
    destruct (IH (if snd (nth k mm (0, 0)) >=? fst (nth (j - 1) mm (0, 0))
               then Z.of_nat j - Z.of_nat (S k) else h) ltac:(lia)) as [[E Hno]|(k' & [Hk1 Hk2] & E & Hmin)].
    + rewrite E. destruct (snd (nth k mm (0, 0)) >=? fst (nth (j - 1) mm (0, 0))); inversion Hs; subst.
      * right. exists (S k). split; [|split].
        -- split; [lia|]. replace (S k - 1)%nat with k by lia. lia.
        -- lia.
        -- intros k'' [H1 H2]. destruct (Nat.eq_dec k'' (S k)) as [|Hn]; [lia|].
           exfalso. apply (Hno k''). split; [lia|auto].
      * left. split; auto. intros k'' [H1 H2]. destruct (Nat.eq_dec k'' (S k)) as [Hn|Hn].
        -- subst k''. replace (S k - 1)%nat with k in H2 by lia. lia.
        -- apply (Hno k''). split; [lia|auto].
    + right. exists k'. split; [split; [lia|auto]|]. split; [exact E|].
      intros k'' [H1 H2]. destruct (Nat.eq_dec k'' (S k)) as [|Hn]; [lia|].
      apply Hmin. split; [lia|auto].
Qed.
Lemma horiz_j_ok : forall mm j, (3 <= j)%nat ->
  (exists d, reaches mm j d /\ horiz_loop mm j (j - 2) 1 = Z.of_nat d) /\
  forall d, reaches mm j d -> Z.of_nat d <= horiz_loop mm j (j - 2) 1.
Proof.
  intros mm j Hj. destruct (horiz_loop_ok mm j (j - 2)%nat 1 (le_n _)) as [[E Hno]|(k & [Hk1 Hk2] & E & Hmin)]; rewrite E.
  - split.
    + exists 1%nat. split; [left|]; auto.
    + intros d [->|(k & H1 & -> & H2)]; [lia|]. exfalso. apply (Hno k). split; auto.
  - split.
    + exists (j - k)%nat. split; auto. right. exists k. auto.
    + intros d [->|(k' & H1 & -> & H2)]; [lia|]. pose proof (Hmin k' (Logic.conj H1 H2)). lia.
Qed.
Definition best (P : Z -> Prop) (h0 h : Z) : Prop :=
  (h = h0 /\ forall d, P d -> d <= h0) \/ (P h /\ h0 <= h /\ forall d, P d -> d <= h).
Lemma best_or : forall P Q h0 h1 h2, best P h0 h1 -> best Q h1 h2 -> best (fun d => P d \/ Q d) h0 h2.
Proof.
  intros P Q h0 h1 h2 [[E1 H1]|(H1 & L1 & U1)] [[E2 H2]|(H2 & L2 & U2)]; unfold best; subst.
  - left. split; auto. intros d [Hd|Hd]; auto.
  - right. split; auto. split; auto. intros d [Hd|Hd]; auto. specialize (H1 d Hd). lia.
  - right. split; auto. split; auto. intros d [Hd|Hd]; auto.
  - right. split; auto. split; [lia|]. intros d [Hd|Hd]; auto. specialize (U1 d Hd). lia.
Qed.
Lemma best_iff : forall (P Q : Z -> Prop) h0 h, (forall d, P d <-> Q d) -> best P h0 h -> best Q h0 h.
Proof.
  intros P Q h0 h H [[E H1]|(H1 & L & U)]; [left|right].
  - split; auto. intros d Hd. apply H1, H, Hd.
  - split; [apply H; auto|]. split; auto. intros d Hd. apply U, H, Hd.
Qed.
Lemma horizon_goal_best : forall mm js h, (forall j, In j js -> (3 <= j)%nat) ->
  best (fun z => exists j d, In j js /\ reaches mm j d /\ z = Z.of_nat d) h (horizon_goal mm js h).
Proof.
  intros mm. induction js as [|j js IH]; intros h Hj; cbn [horizon_goal].
  - left. split; auto. intros z (j & d & [] & _).
  - eapply best_iff; [|eapply best_or; [|apply IH; intros; apply Hj; right; auto]].
    2:{ instantiate (1 := fun z => exists d, reaches mm j d /\ z = Z.of_nat d).
        destruct (horiz_j_ok mm j (Hj j (or_introl eq_refl))) as [(d & Hd & E) U].
        rewrite Z.gtb_ltb. destruct (Z.ltb_spec h (horiz_loop mm j (j - 2) 1)) as [L|L].
        - right. split; [exists d; auto|]. split; [lia|]. intros z (d' & Hd' & ->). apply U; auto.
        - left. split; auto. intros z (d' & Hd' & ->). specialize (U d' Hd'). lia. }
    intros z. split.
    + intros [(d & Hd & E)|(j' & d & Hin & Hd & E)].
      * exists j, d. split; [left|]; auto.
      * exists j', d. split; [right|]; auto.
    + intros (j' & d & [<-|Hin] & Hd & E); [left; exists d|right; exists j', d]; auto.
Qed.
Lemma horizon_loop_best : forall l h,
  best (fun z => exists mm j d, In mm l /\ (3 <= j <= List.length mm)%nat /\ reaches mm j d /\ z = Z.of_nat d)
    h (horizon_loop l h).
Proof.
  induction l as [|mm l IH]; intros h; cbn [horizon_loop].
  - left. split; auto. intros z (mm & j & d & [] & _).
  - eapply best_iff; [|eapply best_or; [apply (horizon_goal_best mm)|apply IH]].
    2:{ intros j Hj. apply in_seq in Hj. lia. }
    intros z. split.
    + intros [(j & d & Hin & Hd & E)|(mm' & j & d & Hin & Hj & Hd & E)].
      * apply in_seq in Hin. exists mm, j, d. split; [left; auto|]. split; [lia|]. auto.
      * exists mm', j, d. split; [right; auto|]. auto.
    + intros (mm' & j & d & [<-|Hin] & Hj & Hd & E).
      * left. exists j, d. split; [apply in_seq; lia|]. auto.
      * right. exists mm', j, d. auto.
Qed.
Lemma horizon_ok : forall l, is_horizon l (horizon_loop l (-1)).
Proof.
  intros l. destruct (horizon_loop_best l (-1)) as [[E H]|((mm & j & d & H1 & H2 & H3 & H4) & L & U)].
  - left. split; auto. intros mm Hin. destruct (le_lt_dec 3 (List.length mm)) as [Hl|Hl]; auto. exfalso.
    enough (Z.of_nat 1 <= -1) by lia. apply H. exists mm, 3%nat, 1%nat. split; auto. split; [lia|].
    split; [left|]; auto.
  - right. split.
    + exists mm, j, d. auto.
    + intros mm' j' d' I1 I2 I3. apply U. exists mm', j', d'. auto.
Qed.
Lemma compute_horizon_ok : forall sp fuel orc txt h, compute_horizon sp fuel orc txt = Ok h ->
  (h = -1 /\ (get_offsets (evar_list sp) (svar_list sp) txt = Ok None \/ exists fs,
     get_offsets (evar_list sp) (svar_list sp) txt = Ok (Some fs) /\
     compute_minmax sp fuel orc fs = Ok None)) \/
  exists fs l, get_offsets (evar_list sp) (svar_list sp) txt = Ok (Some fs) /\
    compute_minmax sp fuel orc fs = Ok (Some l) /\ is_horizon l h.
Proof.
  intros sp fuel orc txt h H. unfold compute_horizon in H.
  destruct (get_offsets (evar_list sp) (svar_list sp) txt) as [[fs|]| |]; cbn [bind] in H; try discriminate.
  - destruct (compute_minmax sp fuel orc fs) as [[l|]| |] eqn:E; cbn [bind] in H; try discriminate.
    + right. exists fs, l. split; auto. split; auto. injection H as <-. apply horizon_ok.
    + left. injection H as <-. split; auto. right. exists fs. auto.
  - left. injection H as <-. auto.
Qed.
