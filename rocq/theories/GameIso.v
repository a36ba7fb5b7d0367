(** Games that agree on a part closed under moves have the same winner there. *)
From Coq Require Import List Bool.
From Verif Require Import Game.
Import ListNotations.

Section Iso.
  Context {S1 E1 S2 E2 : Type}.
  Variable G1 : game S1 E1.
  Variable G2 : game S2 E2.
  Variables (h : S1 -> S2) (h' : S2 -> S1) (k : E1 -> E2) (k' : E2 -> E1).
  Hypothesis Hh : forall s, In s (g_states G1) -> h' (h s) = s.
  Hypothesis Hk : forall e, In e (g_envs G1) -> k' (k e) = e.
  Hypothesis Henv : forall s, In s (g_states G1) -> forall e2,
    legal_env G2 (h s) e2 <-> exists e, e2 = k e /\ legal_env G1 s e.
  Hypothesis Hsys : forall s, In s (g_states G1) -> forall e, legal_env G1 s e -> forall s2,
    legal_sys G2 (h s) (k e) s2 <-> exists s', s2 = h s' /\ legal_sys G1 s e s'.
  Hypothesis Hgr : forall p, (forall t, In (p t) (g_states G1)) ->
    (gr1 G1 p <-> gr1 G2 (fun t => h (p t))).

  Lemma prefix_map : forall (p : nat -> S1) t, prefix (fun t => h (p t)) t = map h (prefix p t).
  Proof. induction t; simpl; auto. f_equal. auto. Qed.
  Lemma prefix_map' : forall (p : nat -> S2) t, prefix (fun t => h' (p t)) t = map h' (prefix p t).
  Proof. induction t; simpl; auto. f_equal. auto. Qed.
  Lemma map_hh : forall l, (forall s, In s l -> In s (g_states G1)) -> map h' (map h l) = l.
  Proof.
    induction l as [|a l IH]; intros H; simpl; auto. rewrite Hh by (apply H; left; auto).
    f_equal. apply IH. intros; apply H; right; auto.
  Qed.
  Lemma prefix_head : forall S (p : nat -> S) t, exists r, prefix p t = p t :: r.
  Proof. intros S p [|t]; simpl; eauto. Qed.
  Lemma prefix_in : forall S (p : nat -> S) t s, In s (prefix p t) -> exists u, s = p u.
  Proof.
    induction t; simpl; intros s [<-|H]; eauto. destruct H.
  Qed.

  (** from the first game to the second *)
  Section Forth.
    Variable sg1 : @strategy S1 E1.
    Variable s0 : S1.
    Hypothesis Hs0 : In s0 (g_states G1).
    Hypothesis Hw : winning G1 sg1 s0.
    Definition sg2 : @strategy S2 E2 := fun l e => h (sg1 (map h' l) (k' e)).
    Lemma hist_forth : forall l, hist G2 sg2 (h s0) l ->
      exists l1, l = map h l1 /\ hist G1 sg1 s0 l1 /\ forall s, In s l1 -> In s (g_states G1).
    Proof.
      induction 1 as [|s h0 e Hh0 IH He].
      - exists [s0]. split; auto. split; [constructor|]. intros s [<-|[]]. auto.
      - destruct IH as (l1 & El & Hl & Hin). destruct l1 as [|s1 l1]; [discriminate|].
        simpl in El. injection El as -> ->.
        assert (Hs1 : In s1 (g_states G1)) by (apply Hin; left; auto).
        apply (Henv s1 Hs1) in He. destruct He as (e1 & -> & He1).
        assert (Hl' := Hw). destruct Hl' as [Hleg _]. specialize (Hleg s1 l1 e1 Hl He1).
        assert (Eq : sg2 (h s1 :: map h l1) (k e1) = h (sg1 (s1 :: l1) e1)).
        { unfold sg2. change (h s1 :: map h l1) with (map h (s1 :: l1)). rewrite map_hh by auto.
          rewrite Hk by apply He1. reflexivity. }
        exists (sg1 (s1 :: l1) e1 :: s1 :: l1). split; [simpl; rewrite Eq; reflexivity|].
        split; [constructor; auto|]. intros s [<-|Hs]; auto. apply Hleg.
    Qed.
    Lemma forth : winning G2 sg2 (h s0).
    Proof.
      split.
      - intros s hs e Hhist He. destruct (hist_forth _ Hhist) as (l1 & El & Hl & Hin).
        destruct l1 as [|s1 l1]; [discriminate|]. simpl in El. injection El as -> ->.
        assert (Hs1 : In s1 (g_states G1)) by (apply Hin; left; auto).
        apply (Henv s1 Hs1) in He. destruct He as (e1 & -> & He1).
        apply (Hsys s1 Hs1 e1 He1). exists (sg1 (s1 :: l1) e1). split.
        + unfold sg2. change (h s1 :: map h l1) with (map h (s1 :: l1)). rewrite map_hh by auto.
          rewrite Hk by apply He1. reflexivity.
        + apply Hw; auto.
      - intros p [Hp0 Hp].
        assert (Hhist : forall t, hist G2 sg2 (h s0) (prefix p t)).
        { induction t; simpl; [rewrite Hp0; constructor|].
          destruct (Hp t) as (e & He & E). rewrite E.
          destruct (prefix_head _ p t) as [r Er]. rewrite Er in *. constructor; auto. }
        assert (Hex : forall t, In (h' (p t)) (g_states G1) /\ h (h' (p t)) = p t).
        { intros t. destruct (hist_forth _ (Hhist t)) as (l1 & El & _ & Hin).
          destruct (prefix_head _ p t) as [r Er]. rewrite Er in El.
          destruct l1 as [|s1 l1]; [discriminate|]. simpl in El. injection El as -> _.
          assert (Hs1 : In s1 (g_states G1)) by (apply Hin; left; auto).
          rewrite Hh by auto. auto. }
        set (q := fun t => h' (p t)).
        assert (Hq : gr1 G1 q).
        { apply Hw. split.
          - unfold q. rewrite Hp0. apply Hh; auto.
          - intros t. destruct (Hp t) as (e & He & E).
            destruct (Hex t) as [Hin Hb]. rewrite <- Hb in He.
            apply (Henv _ Hin) in He. destruct He as (e1 & -> & He1).
            exists e1. split; auto. unfold q at 1. rewrite E. unfold sg2.
            rewrite Hk by apply He1. rewrite <- prefix_map'. fold q.
            apply Hh. assert (Hl := hist_forth _ (Hhist t)).
            destruct Hl as (l1 & El & Hl & Hin1).
            assert (Eq : prefix q t = l1) by (unfold q; rewrite prefix_map', El; apply map_hh; auto).
            destruct (prefix_head _ q t) as [r Er]. rewrite Eq in Er. rewrite Eq, Er in *.
            pose proof (proj1 Hw _ _ _ Hl He1) as Hleg. apply Hleg. }
        apply Hgr in Hq; [|intros t; apply Hex].
        intros He g Hg t. destruct (Hq) with (g := g) (t := t) as (t' & Ht & Hgt); auto.
        + intros g0 Hg0 u. destruct (He g0 Hg0 u) as (u' & Hu & Hgu).
          exists u'. split; auto. unfold q. rewrite (proj2 (Hex u')). auto.
        + exists t'. split; auto. unfold q in Hgt. rewrite (proj2 (Hex t')) in Hgt. auto.
    Qed.
  End Forth.

  Section Back.
    Variable sg2 : @strategy S2 E2.
    Variable s0 : S1.
    Hypothesis Hs0 : In s0 (g_states G1).
    Hypothesis Hw : winning G2 sg2 (h s0).
    Definition sg1 : @strategy S1 E1 := fun l e => h' (sg2 (map h l) (k e)).
    Lemma hist_back : forall l, hist G1 sg1 s0 l ->
      hist G2 sg2 (h s0) (map h l) /\ forall s, In s l -> In s (g_states G1).
    Proof.
      induction 1 as [|s l e Hl IH He].
      - split; [constructor|]. intros s [<-|[]]. auto.
      - destruct IH as [IH Hin]. simpl in IH.
        assert (Hs : In s (g_states G1)) by (apply Hin; left; auto).
        assert (He2 : legal_env G2 (h s) (k e)) by (apply (Henv s Hs); eauto).
        assert (Hleg : legal_sys G2 (h s) (k e) (sg2 (h s :: map h l) (k e))) by (apply Hw; auto).
        apply (Hsys s Hs e He) in Hleg. destruct Hleg as (s' & Es & Hleg).
        assert (E1' : sg1 (s :: l) e = s').
        { unfold sg1. simpl map. rewrite Es. apply Hh. apply Hleg. }
        rewrite E1'. split.
        + simpl. rewrite <- Es. constructor; auto.
        + intros u [<-|Hu]; auto. apply Hleg.
    Qed.
    Lemma back : winning G1 sg1 s0.
    Proof.
      assert (Hstep : forall s l e, hist G1 sg1 s0 (s :: l) -> legal_env G1 s e ->
         legal_sys G1 s e (sg1 (s :: l) e) /\ h (sg1 (s :: l) e) = sg2 (h s :: map h l) (k e)).
      { intros s l e Hl He. destruct (hist_back _ Hl) as [Hl2 Hin]. simpl in Hl2.
        assert (Hs : In s (g_states G1)) by (apply Hin; left; auto).
        assert (He2 : legal_env G2 (h s) (k e)) by (apply (Henv s Hs); eauto).
        assert (Hleg : legal_sys G2 (h s) (k e) (sg2 (h s :: map h l) (k e))) by (apply Hw; auto).
        apply (Hsys s Hs e He) in Hleg. destruct Hleg as (s' & Es & Hleg).
        assert (E1' : sg1 (s :: l) e = s').
        { unfold sg1. simpl map. rewrite Es. apply Hh. apply Hleg. }
        rewrite E1'. auto. }
      split; [intros; apply Hstep; auto|].
      intros p [Hp0 Hp].
      assert (Hhist : forall t, hist G1 sg1 s0 (prefix p t)).
      { induction t; simpl; [rewrite Hp0; constructor|].
        destruct (Hp t) as (e & He & E). rewrite E.
        destruct (prefix_head _ p t) as [r Er]. rewrite Er in *. constructor; auto. }
      assert (Hin : forall t, In (p t) (g_states G1)).
      { intros t. apply (proj2 (hist_back _ (Hhist t))).
        destruct (prefix_head _ p t) as [r Er]. rewrite Er. left; auto. }
      apply Hgr; auto. apply Hw. split; [rewrite Hp0; auto|].
      intros t. destruct (Hp t) as (e & He & E). exists (k e). split.
      - apply (Henv _ (Hin t)). eauto.
      - destruct (prefix_head _ p t) as [r Er]. rewrite prefix_map. rewrite E, Er.
        destruct (Hstep (p t) r e) as [_ Hst]; auto. rewrite <- Er. apply Hhist.
    Qed.
  End Back.

  Lemma iso_wins : forall s, In s (g_states G1) -> (sys_wins G1 s <-> sys_wins G2 (h s)).
  Proof.
    intros s Hs. split; intros [sg Hsg].
    - eexists. apply (forth sg s Hs Hsg).
    - eexists. apply (back sg s Hs Hsg).
  Qed.
End Iso.
