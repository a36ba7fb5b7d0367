(** Set-level facts about the level sets of a reachability game. Proofs only. *)
From Coq Require Import List ZArith Bool Arith Lia.
From Verif Require Import Base Fix Game GameTheory GameSound GameComplete Levels ReachSpec.
Import ListNotations.
Open Scope nat_scope.

Section Sets.
  Context {S E : Type}.
  Variable G : game S E.
  Variable Exit : S -> bool.
  Variable eg : nat -> S -> bool.
  Variable neg K : nat.
  Variable Y : nat -> S -> bool.
  Variable X : nat -> nat -> S -> bool.
  Let st s := In s (g_states G).

  Record rladder : Prop := {
    rl_bottom : forall s, st s -> Y 0 s = Exit s;
    rl_x0 : forall r s, r < neg -> st s -> X 0 r s = false;
    rl_union : forall j s, j < K -> st s ->
      (Y (Datatypes.S j) s = true <->
       Y j s = true \/ exists r, r < neg /\ X (Datatypes.S j) r s = true);
    rl_step : forall j r s, j < K -> r < neg -> st s ->
      (X (Datatypes.S j) r s = true <->
       Exit s = true \/ forces G (Y j) s \/
       (eg r s = false /\ forces G (X (Datatypes.S j) r) s))
  }.
  Hypothesis HL : rladder.

  Definition rkJ (s : S) : nat := least (Datatypes.S K) (fun j => Y j s).
  Definition rkR (s : S) : nat := least neg (fun r => X (rkJ s) r s).

  Lemma Y_incr : forall j j' s, j <= j' -> j' <= K -> st s -> Y j s = true -> Y j' s = true.
  Proof.
    intros j j' s H HK Hs HY. induction H as [|j' H IH]; auto.
    apply (rl_union HL); auto. left. apply IH. lia.
  Qed.
  Lemma rkJ_spec : forall s, st s -> Y K s = true ->
    rkJ s <= K /\ Y (rkJ s) s = true /\ forall j, j < rkJ s -> Y j s = false.
  Proof.
    intros s Hs HK. destruct (least_spec (Datatypes.S K) (fun j => Y j s) K) as (H1 & H2);
      auto. split; [exact H1|]. split; [exact H2|].
    intros j Hj. exact (least_min _ _ _ Hj).
  Qed.
  Lemma rkJ_le : forall j s, j <= K -> st s -> Y j s = true -> rkJ s <= j.
  Proof.
    intros j s Hj Hs H. unfold rkJ.
    apply (least_spec (Datatypes.S K) (fun j => Y j s) j); auto. lia.
  Qed.
  Lemma rkJ_zero : forall s, st s -> Y K s = true -> (rkJ s = 0 <-> Exit s = true).
  Proof.
    intros s Hs HK. destruct (rkJ_spec s Hs HK) as (_ & H2 & _). split.
    - intros H0. rewrite H0, (rl_bottom HL) in H2; auto.
    - intros HE. assert (rkJ s <= 0); [|lia]. apply rkJ_le; auto; [lia|].
      rewrite (rl_bottom HL); auto.
  Qed.
  Lemma X_in_Y : forall j r s, j <= K -> r < neg -> st s -> X j r s = true -> Y j s = true.
  Proof.
    intros [|j] r s Hj Hr Hs H.
    - rewrite (rl_x0 HL) in H; auto. discriminate.
    - apply (rl_union HL); auto. right. eauto.
  Qed.
  Lemma rkR_spec : forall s, st s -> Y K s = true -> Exit s = false ->
    rkR s < neg /\ X (rkJ s) (rkR s) s = true /\
    (forces G (Y (rkJ s - 1)) s \/
     eg (rkR s) s = false /\ forces G (X (rkJ s) (rkR s)) s).
  Proof.
    intros s Hs HK HE. destruct (rkJ_spec s Hs HK) as (H1 & H2 & H3).
    assert (H0 : rkJ s <> 0). { rewrite (rkJ_zero s Hs HK). congruence. }
    destruct (rkJ s) as [|j] eqn:Ej; [lia|].
    apply (rl_union HL) in H2; auto. destruct H2 as [H2 | (r & Hr & HX)].
    { rewrite (H3 j) in H2; [discriminate | lia]. }
    unfold rkR. rewrite Ej.
    destruct (least_spec neg (fun r => X (Datatypes.S j) r s) r) as (H4 & H5); auto.
    split; [lia|]. split; [exact H5|].
    apply (rl_step HL) in H5; auto; [|lia]. replace (Datatypes.S j - 1) with j by lia.
    destruct H5 as [H5 | H5]; [congruence | exact H5].
  Qed.
  Lemma rkR_le : forall s r, r < neg -> X (rkJ s) r s = true -> rkR s <= r.
  Proof.
    intros s r Hr H. unfold rkR.
    apply (least_spec neg (fun r => X (rkJ s) r s) r); auto.
  Qed.

  (** the step goes down, or stays while the environment misses its goal *)
  Definition lowers (s s' : S) : Prop :=
    rkJ s' < rkJ s \/
    rkJ s' = rkJ s /\ (rkR s' < rkR s \/ rkR s' = rkR s /\ eg (rkR s) s = false).

  Lemma lowers_Y : forall s s', st s -> Y K s = true -> Exit s = false -> st s' ->
    Y (rkJ s - 1) s' = true -> lowers s s'.
  Proof.
    intros s s' Hs HK HE Hs' HY. left. destruct (rkJ_spec s Hs HK) as (H1 & _ & _).
    assert (H0 : rkJ s <> 0). { rewrite (rkJ_zero s Hs HK). congruence. }
    assert (rkJ s' <= rkJ s - 1) by (apply rkJ_le; auto; lia). lia.
  Qed.
  Lemma lowers_X : forall s s' r, st s -> Y K s = true -> st s' ->
    r < neg -> r <= rkR s -> eg (rkR s) s = false -> X (rkJ s) r s' = true -> lowers s s'.
  Proof.
    intros s s' r Hs HK Hs' Hr Hle Heg HX. destruct (rkJ_spec s Hs HK) as (H1 & _ & _).
    assert (HJ : rkJ s' <= rkJ s) by (apply rkJ_le; auto; eapply X_in_Y; eauto).
    destruct (Nat.eq_dec (rkJ s') (rkJ s)) as [He|Hne]; [|left; lia].
    right. split; auto. assert (rkR s' <= r) by (apply rkR_le; auto; rewrite He; auto).
    destruct (Nat.eq_dec (rkR s') (rkR s)); [right; auto | left; lia].
  Qed.

  Lemma run_reaches : forall p : nat -> S,
    (forall t, (exists u, Exit (p u) = true) \/
       (st (p t) /\ Y K (p t) = true /\ Exit (p t) = false /\
        lowers (p t) (p (Datatypes.S t)))) ->
    (forall r, r < neg -> infinitely_often (eg r) p) ->
    exists t, Exit (p t) = true.
  Proof.
    intros p Step Hio.
    assert (Main : forall J R t0, rkJ (p t0) = J -> rkR (p t0) = R ->
      exists t, Exit (p t) = true).
    { induction J as [J IHJ] using lt_wf_ind. induction R as [R IHR] using lt_wf_ind.
      intros t0 HJ HR. destruct (Step t0) as [Hx | (Hst & HK & HE & _)]; auto.
      destruct (rkR_spec (p t0) Hst HK HE) as (Hrn & _).
      destruct (Hio _ Hrn t0) as (t1 & Ht1 & Heg).
      assert (Scan : forall d, (exists t, Exit (p t) = true) \/
         (rkJ (p (t0 + d)) = J /\ rkR (p (t0 + d)) = R)).
      { induction d as [|d IHd].
        - right. rewrite Nat.add_0_r. auto.
        - destruct IHd as [Hx | (H1 & H2)]; [left; auto|].
          destruct (Step (t0 + d)) as [Hx | (_ & _ & _ & Hx)]; [left; auto|].
          replace (t0 + Datatypes.S d) with (Datatypes.S (t0 + d)) by lia.
          destruct Hx as [Hx | (Hx & [Hy | (Hy & _)])].
          + left. eapply IHJ with (t0 := Datatypes.S (t0 + d)); [|reflexivity|reflexivity]. lia.
          + left. eapply IHR with (t0 := Datatypes.S (t0 + d)); [| |reflexivity]; lia.
          + right. lia. }
      destruct (Scan (t1 - t0)) as [Hx | (H1 & H2)]; auto.
      replace (t0 + (t1 - t0)) with t1 in * by lia.
      destruct (Step t1) as [Hx | (_ & _ & _ & Hx)]; auto.
      destruct Hx as [Hx | (Hx & [Hy | (_ & Hy)])].
      - eapply IHJ with (t0 := Datatypes.S t1); [|reflexivity|reflexivity]. lia.
      - eapply IHR with (t0 := Datatypes.S t1); [| |reflexivity]; lia.
      - rewrite H2, <- HR in Hy. congruence. }
    eapply (Main _ _ 0); reflexivity.
  Qed.

  (** ** the set kept in Y_i_primed while the moves of one node are handled *)
  Definition cur (s : S) (T : S -> bool) : Prop :=
    (forall u, st u -> T u = true -> Y K u = true) /\
    ((forall u, st u -> T u = Y (rkJ s - 1) u) \/
     ((eg (rkR s) s = false /\ forces G (X (rkJ s) (rkR s)) s) /\
      ((forall u, st u -> T u = true -> Y (rkJ s - 1) u = true) \/
       exists r, r < neg /\ r <= rkR s /\ forall u, st u -> T u = true -> X (rkJ s) r u = true))).
  Definition suc (s : S) (e : E) (T : S -> bool) (s' : S) : Prop :=
    legal_sys G s e s' /\ T s' = true.
  Definition nosuc (s : S) (e : E) (T : S -> bool) : Prop := forall s', ~ suc s e T s'.

  Section At.
    Variable s : S.
    Hypothesis Hs : st s.
    Hypothesis HK : Y K s = true.
    Hypothesis HE : Exit s = false.

    Lemma rkJ_pos : 0 < rkJ s /\ rkJ s <= K.
    Proof.
      destruct (rkJ_spec s Hs HK) as (H1 & _ & _).
      assert (H0 : rkJ s <> 0). { rewrite (rkJ_zero s Hs HK). congruence. } lia.
    Qed.
    Lemma cur_start : cur s (Y (rkJ s - 1)).
    Proof.
      pose proof rkJ_pos. split; [|left; auto]. intros u Hu H1.
      eapply Y_incr; [| |exact Hu|exact H1]; lia.
    Qed.
    Lemma keep_lowers : forall e T s', cur s T -> suc s e T s' -> lowers s s'.
    Proof.
      intros e T s' (_ & [HT | ((H1 & H2) & [HT | (r & Hr & Hle & HT)])]) (Hl & Ht);
        assert (Hs' : st s') by apply Hl.
      - rewrite HT in Ht; auto. apply lowers_Y; auto.
      - apply lowers_Y; auto.
      - eapply lowers_X; eauto.
    Qed.
    (** when the current set fails for a legal move, the node cannot force the level
        below *)
    Lemma fail_stay : forall e T, cur s T -> legal_env G s e -> nosuc s e T ->
      eg (rkR s) s = false /\ forces G (X (rkJ s) (rkR s)) s.
    Proof.
      intros e T (_ & [HT | (H1 & _)]) He Hn; [|exact H1].
      destruct (rkR_spec s Hs HK HE) as (_ & _ & [Hf | H]); [|exact H].
      destruct (Hf e He) as (s' & Hl & Hy). destruct (Hn s'). split; auto.
      rewrite HT; auto. apply Hl.
    Qed.
    Lemma X_le_K : forall j r u, j <= rkJ s -> r < neg -> st u -> X j r u = true -> Y K u = true.
    Proof.
      intros j r u Hj Hr Hu H. pose proof rkJ_pos. eapply Y_incr; [| |exact Hu|].
      2: apply Nat.le_refl. 2: eapply X_in_Y; [|exact Hr|exact Hu|exact H]; lia. lia.
    Qed.
    Lemma row_below : forall e T r s', cur s T -> legal_env G s e -> nosuc s e T ->
      r < neg -> suc s e (X (rkJ s - 1) r) s' ->
      lowers s s' /\ cur s (X (rkJ s - 1) r).
    Proof.
      intros e T r s' Hc He Hn Hr (Hl & Hx). pose proof rkJ_pos.
      assert (HXY : forall u, st u -> X (rkJ s - 1) r u = true -> Y (rkJ s - 1) u = true).
      { intros u Hu. apply X_in_Y; auto. lia. }
      split.
      - apply lowers_Y; auto; try apply Hl. apply HXY; auto. apply Hl.
      - split.
        + intros u Hu. apply X_le_K; auto. lia.
        + right. split; [eapply fail_stay; eauto | left; auto].
    Qed.
    Lemma row_same : forall e T r s', cur s T -> legal_env G s e -> nosuc s e T ->
      r < neg -> (forall r', r' < r -> nosuc s e (X (rkJ s) r')) ->
      suc s e (X (rkJ s) r) s' ->
      lowers s s' /\ cur s (X (rkJ s) r).
    Proof.
      intros e T r s' Hc He Hn Hr Hfirst (Hl & Hx).
      destruct (fail_stay e T Hc He Hn) as (H1 & H2).
      destruct (H2 e He) as (s2 & Hl2 & Hx2).
      assert (Hle : r <= rkR s).
      { destruct (le_lt_dec r (rkR s)); auto. destruct (Hfirst (rkR s) l s2). split; auto. }
      split.
      - eapply lowers_X; eauto. apply Hl.
      - split.
        + intros u Hu. apply X_le_K; auto.
        + right. split; [split; auto|]. right. exists r. auto.
    Qed.
    Lemma row_some : forall e T, cur s T -> legal_env G s e -> nosuc s e T ->
      exists r s', r < neg /\ suc s e (X (rkJ s) r) s'.
    Proof.
      intros e T Hc He Hn. destruct (fail_stay e T Hc He Hn) as (_ & H2).
      destruct (H2 e He) as (s2 & Hl2 & Hx2).
      destruct (rkR_spec s Hs HK HE) as (Hr & _). exists (rkR s), s2. split; auto.
      split; auto.
    Qed.
  End At.
End Sets.

(** ** the level sets are winning *)
Section Sound.
  Context {S E : Type}.
  Variable G : game S E.
  Variable eqE : E -> E -> bool.
  Hypothesis eqE_spec : forall a b, eqE a b = true <-> a = b.
  Variable Exit : S -> bool.
  Variable K : nat.
  Variable Y : nat -> S -> bool.
  Variable X : nat -> nat -> S -> bool.
  Let eg r := nth r (g_egoals G) (fun _ => false).
  Let neg := length (g_egoals G).
  Hypothesis HL : rladder G Exit eg neg K Y X.
  Let J := rkJ K Y.
  Let R := rkR neg K Y X.

  Let fnd (T : S -> bool) (s : S) (e : E) : option S :=
    find (fun s' => eqE (g_env G s') e && g_str G s s' && T s') (g_states G).
  Lemma fnd_some : forall T s e s', fnd T s e = Some s' -> suc G s e T s'.
  Proof.
    intros T s e s' H. apply find_some in H. destruct H as (Hin & H).
    apply andb_true_iff in H. destruct H as (H & HT).
    apply andb_true_iff in H. destruct H as (He & Hs). apply eqE_spec in He.
    split; auto. split; auto.
  Qed.
  Lemma fnd_none : forall T s e, fnd T s e = None -> nosuc G s e T.
  Proof.
    intros T s e H s' ((Hin & He & Hs) & HT). apply find_none with (x := s') in H; auto.
    rewrite (proj2 (eqE_spec _ _) He), Hs, HT in H. discriminate.
  Qed.

  Variable s0 : S.
  Hypothesis Hs0 : In s0 (g_states G).
  Hypothesis HK0 : Y K s0 = true.
  Definition rsg : @strategy S E := fun h e =>
    match h with
    | [] => s0
    | s :: _ => match fnd (Y (J s - 1)) s e with
                | Some s' => s'
                | None => match fnd (X (J s) (R s)) s e with Some s' => s' | None => s end
                end
    end.
  Lemma rsg_ok : forall s h e, In s (g_states G) -> Y K s = true -> Exit s = false ->
    legal_env G s e ->
    legal_sys G s e (rsg (s :: h) e) /\ Y K (rsg (s :: h) e) = true /\
    lowers eg neg K Y X s (rsg (s :: h) e).
  Proof.
    intros s h e Hs HK HE He. simpl.
    pose proof (cur_start G Exit eg neg K Y X HL s Hs HK HE) as Hc.
    destruct (fnd (Y (J s - 1)) s e) as [s'|] eqn:F1.
    - apply fnd_some in F1. split; [apply F1|]. split.
      + apply (proj1 Hc); apply F1.
      + eapply keep_lowers; eauto.
    - apply fnd_none in F1.
      destruct (fail_stay G Exit eg neg K Y X HL s Hs HK HE e _ Hc He F1) as (H1 & H2).
      destruct (rkR_spec G Exit eg neg K Y X HL s Hs HK HE) as (Hr & _).
      destruct (fnd (X (J s) (R s)) s e) as [s'|] eqn:F2.
      + apply fnd_some in F2. destruct F2 as (Hl & Hx). split; auto. split.
        * eapply X_le_K; eauto. apply Hl.
        * eapply lowers_X; eauto. apply Hl.
      + apply fnd_none in F2. destruct (H2 e He) as (s' & Hl & Hx).
        destruct (F2 s'). split; auto.
  Qed.
  Lemma rhist_ok : forall h, rhist G Exit rsg s0 h ->
    exists s h', h = s :: h' /\ In s (g_states G) /\ Y K s = true.
  Proof.
    induction 1 as [|s h e H (s1 & h1 & Heq & Hs & HK) HE He].
    - exists s0, []. auto.
    - injection Heq as <- <-. destruct (rsg_ok s h e Hs HK HE He) as (H1 & H2 & _).
      exists (rsg (s :: h) e), (s :: h). split; auto. split; auto. apply H1.
  Qed.
  Lemma levels_win : reach_wins G Exit s0.
  Proof.
    exists rsg. split.
    - intros s h e Hh HE He. destruct (rhist_ok _ Hh) as (s1 & h1 & Heq & Hs & HK).
      injection Heq as <- <-. apply rsg_ok; auto.
    - intros p (Hp0 & _ & Hp) Hio.
      assert (Hpre : forall t, exists l, prefix p t = p t :: l).
      { intros [|t]; simpl; eauto. }
      assert (Step : forall t, (exists u, Exit (p u) = true) \/
        ((In (p t) (g_states G) /\ Y K (p t) = true) /\
         (forall u, u <= t -> Exit (p u) = false) /\
         lowers eg neg K Y X (p t) (p (Datatypes.S t)))).
      { induction t as [|t IH].
        - destruct (Exit (p 0)) eqn:E0; [left; eauto|]. right.
          assert (H0 : forall u, u <= 0 -> Exit (p u) = false).
          { intros u Hu. assert (u = 0) by lia. subst. auto. }
          destruct (Hp 0 H0) as (e & He & Heq). destruct (Hpre 0) as (l & Hl).
          rewrite Hl in Heq. rewrite Heq. rewrite Hp0 in *. split; [auto|]. split; [auto|].
          apply rsg_ok; auto.
        - destruct IH as [Hx | ((Hst & HK) & Hno & Hlow)]; [left; auto|].
          destruct (Exit (p (Datatypes.S t))) eqn:E0; [left; eauto|]. right.
          assert (H0 : forall u, u <= Datatypes.S t -> Exit (p u) = false).
          { intros u Hu. destruct (Nat.eq_dec u (Datatypes.S t)) as [->|]; auto.
            apply Hno. lia. }
          destruct (Hp t Hno) as (e & He & Heq). destruct (Hpre t) as (l & Hl).
          rewrite Hl in Heq.
          assert (Ht : Exit (p t) = false) by (apply Hno; lia).
          destruct (rsg_ok (p t) l e Hst HK Ht He) as (A1 & A2 & _).
          rewrite <- Heq in A1, A2. assert (A3 : In (p (Datatypes.S t)) (g_states G)) by apply A1.
          split; [auto|]. split; [auto|].
          destruct (Hp (Datatypes.S t) H0) as (e2 & He2 & Heq2).
          destruct (Hpre (Datatypes.S t)) as (l2 & Hl2). rewrite Hl2 in Heq2. rewrite Heq2.
          apply rsg_ok; auto. }
      apply (run_reaches G Exit eg neg K Y X HL).
      + intros t. destruct (Step t) as [Hx | ((H1 & H2) & H3 & H4)]; [left; auto|].
        right. repeat split; auto.
      + intros r Hr. apply Hio, nth_In, Hr.
  Qed.
End Sound.

(** ** a state won by some strategy is in every set closed like the final level *)
Section Complete.
  Context {S E : Type}.
  Variable G : game S E.
  Variable eqE : E -> E -> bool.
  Hypothesis eqE_spec : forall a b, eqE a b = true <-> a = b.
  Variable eqS : S -> S -> bool.
  Hypothesis eqS_spec : forall a b, eqS a b = true <-> a = b.
  Hypothesis Henv : forall s, In s (g_states G) -> In (g_env G s) (g_envs G).
  Variable Exit : S -> bool.
  Variable M : S -> bool.
  Hypothesis HEM : forall s, In s (g_states G) -> Exit s = true -> M s = true.
  Hypothesis HM : forall g (P : S -> bool), In g (g_egoals G) ->
    (forall s, In s (g_states G) -> P s = true ->
       Exit s = true \/ forces G M s \/ (g s = false /\ forces G P s)) ->
    forall s, In s (g_states G) -> P s = true -> M s = true.

  (** the game that stays put once the target is reached *)
  Definition absorbing : game S E := {|
    g_states := g_states G;
    g_envs := g_envs G;
    g_env := g_env G;
    g_etr := fun s e => if Exit s then eqE e (g_env G s) else g_etr G s e;
    g_str := fun s s' => if Exit s then eqS s' s else g_str G s s';
    g_egoals := g_egoals G;
    g_sgoals := [Exit]
  |}.
  Let G' := absorbing.

  Lemma abs_sys_wins : forall s0, In s0 (g_states G) -> reach_wins G Exit s0 -> sys_wins G' s0.
  Proof.
    intros s0 Hs0 (sg & Hsafe & Hlive).
    exists (fun h e => match h with s :: _ => if Exit s then s else sg h e | [] => s0 end).
    set (sg' := fun h e => _).
    assert (Hh : forall h, hist G' sg' s0 h ->
      exists s h', h = s :: h' /\ In s (g_states G) /\ (Exit s = false -> rhist G Exit sg s0 h)).
    { induction 1 as [|s h e H (s1 & h1 & Heq & Hs & Hr) He].
      - exists s0, []. split; auto. split; auto. intros _. constructor.
      - injection Heq as <- <-. unfold sg' at 1. simpl. destruct (Exit s) eqn:Ex.
        + exists s, (s :: h). split; auto. split; auto. congruence.
        + destruct He as (He1 & He2). simpl in He2. rewrite Ex in He2.
          exists (sg (s :: h) e), (s :: h). split; auto. split.
          * apply (Hsafe s h e); auto. split; auto.
          * intros _. constructor; auto. split; auto. }
    split.
    - intros s h e H He. destruct (Hh _ H) as (s1 & h1 & Heq & Hs & Hr).
      injection Heq as <- <-. destruct He as (He1 & He2). simpl in He2. unfold sg'.
      unfold legal_sys. simpl. destruct (Exit s) eqn:Ex.
      + apply eqE_spec in He2. split; auto. split; auto. apply eqS_spec. auto.
      + apply Hsafe; auto. split; auto.
    - intros p (Hp0 & Hp) Hio g [<-|[]].
      assert (Hpre : forall t, exists l, prefix p t = p t :: l).
      { intros [|t]; simpl; eauto. }
      assert (Hstay : forall t d, Exit (p t) = true -> p (t + d) = p t).
      { intros t d Ht. induction d as [|d IH]; [rewrite Nat.add_0_r; auto|].
        rewrite Nat.add_succ_r. destruct (Hp (t + d)) as (e & _ & Heq). rewrite Heq.
        destruct (Hpre (t + d)) as (l & ->). unfold sg'. rewrite IH, Ht. auto. }
      assert (Hin : forall t, In (p t) (g_states G)).
      { intros t. assert (Hhp : hist G' sg' s0 (prefix p t)).
        { clear - Hp Hp0 Hpre. induction t as [|t IH].
          - simpl. rewrite Hp0. constructor.
          - simpl. destruct (Hp t) as (e & He & Heq). rewrite Heq.
            destruct (Hpre t) as (l & Hl). rewrite Hl in *. constructor; auto. }
        destruct (Hh _ Hhp) as (s1 & h1 & Heq & Hs1 & _). destruct (Hpre t) as (l & Hl).
        rewrite Hl in Heq. injection Heq as -> _. auto. }
      destruct (Hlive p) as (t & Ht); auto.
      + split; auto. split; auto. intros t Hno. destruct (Hp t) as (e & (He1 & He2) & Heq).
        assert (Ht : Exit (p t) = false) by (apply Hno; lia).
        simpl in He2. rewrite Ht in He2. exists e. split; [split; auto|].
        destruct (Hpre t) as (l & Hl). rewrite Hl in *. unfold sg' in Heq.
        rewrite Ht in Heq. auto.
      + intros t0. exists (t + t0). split; [lia|]. rewrite Hstay; auto.
  Qed.

  Lemma abs_EX : forall C s, Exit s = false -> EX G' eqE C s = true -> forces G C s.
  Proof.
    intros C s Hs H e (He1 & He2). rewrite (EX_spec G' eqE eqE_spec) in H.
    destruct (H e) as (s' & (H1 & H2 & H3) & HC).
    - split; auto. simpl. rewrite Hs. auto.
    - simpl in H3. rewrite Hs in H3. exists s'. split; auto. split; auto.
  Qed.

  Lemma won_in_M : forall s0, 0 < length (g_egoals G) -> In s0 (g_states G) ->
    reach_wins G Exit s0 -> M s0 = true.
  Proof.
    intros s0 Hne Hs0 Hw. apply abs_sys_wins in Hw; auto.
    assert (H0 : 0 < ngoals G') by (unfold ngoals; simpl; auto).
    pose proof (proj2 (W_exact G' eqE eqE_spec s0 Hne H0 Hs0) Hw) as HW0.
    pose proof (sub_eq_W G' eqE eqE_spec 0 H0) as HW.
    assert (Hle : leP (g_states G') (muY G' eqE (Bw G' eqE 0)) M).
    { apply muY_ind; auto. intros s Hs H. unfold stepY in H. apply existsb_exists in H.
      destruct H as (g & Hg & H).
      apply (HM g (nuX G' eqE (Bw G' eqE 0) g M)); auto.
      intros u Hu Hn. apply nuX_unfold in Hn; auto. unfold PhiB in Hn.
      apply orb_true_iff in Hn. destruct (Exit u) eqn:Eu; auto. right.
      destruct Hn as [Hn | Hn].
      - apply orb_true_iff in Hn. destruct Hn as [Hn | Hn].
        + unfold Bw, sgoal in Hn. simpl in Hn. rewrite Eu in Hn. discriminate.
        + left. apply abs_EX; auto.
      - apply andb_true_iff in Hn. destruct Hn as (Hn & Hg'). right.
        split; [destruct (g u); auto; discriminate | apply abs_EX; auto]. }
    apply Hle; auto. rewrite HW; auto.
  Qed.
End Complete.
