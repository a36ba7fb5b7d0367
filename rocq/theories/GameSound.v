(** Soundness of the fixpoint: from a state of [Wset] the system wins. *)
From Coq Require Import List ZArith Lia Bool Arith Wf_nat.
From Verif Require Import Base Fix Game GameTheory.
Import ListNotations.
Open Scope nat_scope.

(** Progress measure argument: [J], [R] is a lexicographic rank, [A] the event
    to be reached, [N] holds on steps that are not [A]; the rank never
    increases on such steps, and it is constant only while the pursued
    environment goal [R t] is false. *)
Lemma rank_progress : forall (A N : nat -> Prop) (J R : nat -> nat)
    (egv : nat -> nat -> bool) (ne : nat),
  (forall t, R t < ne) ->
  (forall t, A t \/ (N t /\
      (J (S t) < J t \/ (J (S t) = J t /\ R (S t) < R t) \/
       (J (S t) = J t /\ R (S t) = R t /\ egv (R t) t = false)))) ->
  (forall r, r < ne -> forall t, exists t', t <= t' /\ egv r t' = true) ->
  forall t, exists t', t <= t' /\ A t' /\ forall u, t <= u < t' -> N u.
Proof.
  intros A N J R egv ne HR Hstep Hinf.
  assert (Hnext : forall t, N t ->
     (exists t', S t <= t' /\ A t' /\ forall u, S t <= u < t' -> N u) ->
     exists t', t <= t' /\ A t' /\ forall u, t <= u < t' -> N u).
  { intros t HN (t' & Hle & HA & Hu). exists t'. repeat split; auto; try lia.
    intros u Hu'. destruct (Nat.eq_dec u t) as [->|Hne]; auto. apply Hu. lia. }
  assert (Main : forall j r t, J t = j -> R t = r ->
     exists t', t <= t' /\ A t' /\ forall u, t <= u < t' -> N u).
  { induction j as [j IHj] using lt_wf_ind.
    induction r as [r IHr] using lt_wf_ind.
    assert (Inner : forall d t, J t = j -> R t = r -> egv r (t + d) = true ->
       exists t', t <= t' /\ A t' /\ forall u, t <= u < t' -> N u).
    { induction d; intros t Hj Hr He.
      - destruct (Hstep t) as [HA|(HN & Hc)].
        + exists t. repeat split; auto. intros; lia.
        + apply Hnext; auto.
          destruct Hc as [Hc|[(Hc1 & Hc2)|(Hc1 & Hc2 & Hc3)]].
          * apply (IHj (J (S t))) with (r := R (S t)); auto. lia.
          * apply (IHr (R (S t))); auto; lia.
          * rewrite Hr in Hc3. rewrite Nat.add_0_r in He. congruence.
      - destruct (Hstep t) as [HA|(HN & Hc)].
        + exists t. repeat split; auto. intros; lia.
        + apply Hnext; auto.
          destruct Hc as [Hc|[(Hc1 & Hc2)|(Hc1 & Hc2 & Hc3)]].
          * apply (IHj (J (S t))) with (r := R (S t)); auto. lia.
          * apply (IHr (R (S t))); auto; lia.
          * apply IHd; try lia. rewrite <- He. f_equal. lia. }
    intros t Hj Hr. destruct (Hinf r) with (t := t) as (t' & Hle & He).
    { subst r. auto. }
    apply (Inner (t' - t)); auto. rewrite <- He. f_equal. lia. }
  intros t. eapply Main; eauto.
Qed.

(** From "the first advance after any time happens in the current mode and
    moves to the next mode" to "every mode is left infinitely often". *)
Lemma mode_cycle : forall (m : nat -> nat) (A : nat -> Prop) (f : nat -> nat),
  (forall t, A t -> m (S t) = f (m t)) ->
  (forall t, exists t', t <= t' /\ A t' /\ m t' = m t) ->
  forall d t, exists t', t <= t' /\ A t' /\ m t' = iter d f (m t).
Proof.
  intros m A f HA Hp. induction d; intros t.
  - simpl. apply Hp.
  - destruct (IHd t) as (t1 & H1 & H2 & H3).
    destruct (Hp (S t1)) as (t2 & H4 & H5 & H6).
    exists t2. repeat split; auto; [lia|]. rewrite H6, HA, H3; auto.
Qed.

(** least index below [n] satisfying [f] *)
Fixpoint least (n : nat) (f : nat -> bool) : nat :=
  match n with
  | O => O
  | S k => if f O then O else S (least k (fun i => f (S i)))
  end.
Lemma least_spec : forall n f k, k < n -> f k = true ->
  least n f <= k /\ f (least n f) = true.
Proof.
  induction n; intros f k Hk Hf; [lia|]. simpl. destruct (f 0) eqn:E0.
  - split; auto. lia.
  - destruct k; [congruence|]. destruct (IHn (fun i => f (S i)) k) as (H1 & H2); auto; try lia.
    split; auto. lia.
Qed.
Lemma least_min : forall n f k, k < least n f -> f k = false.
Proof.
  induction n; simpl; intros f k H; [lia|]. destruct (f 0) eqn:E0; [lia|].
  destruct k; auto. apply (IHn (fun i => f (S i))). lia.
Qed.

Section Sound.
  Context {S E : Type}.
  Variable G : game S E.
  Variable eqE : E -> E -> bool.
  Hypothesis eqE_spec : forall a b, eqE a b = true <-> a = b.

  Notation states := (g_states G).
  Notation egoals := (g_egoals G).
  Notation EX := (EX G eqE).
  Notation nuX := (nuX G eqE).
  Notation stepY := (stepY G eqE).
  Notation muY := (muY G eqE).
  Notation ngoals := (ngoals G).
  Notation nxt := (nxt G).
  Notation sgoal := (sgoal G).
  Notation lePs := (leP states).

  (** *** Ranks with respect to a base set [B] *)
  Definition Ylev (B : S -> bool) (j : nat) : S -> bool := up (stepY B) j.
  Definition Xlev (B : S -> bool) (j r : nat) : S -> bool :=
    nuX B (nth r egoals (fun _ => false)) (Ylev B (Nat.pred j)).
  Definition rankJ (B : S -> bool) (s : S) : nat :=
    least (Datatypes.S (length states)) (fun j => Ylev B j s).
  Definition rankR (B : S -> bool) (s : S) : nat :=
    least (length egoals) (fun r => Xlev B (rankJ B s) r s).

  Lemma Ylev_mono : forall B j j', j <= j' -> lePs (Ylev B j) (Ylev B j').
  Proof. intros. apply up_mono; auto. apply stepY_mono; auto. Qed.
  Lemma Ylev_le : forall B j, lePs (Ylev B j) (muY B).
  Proof.
    intros. apply up_below_pre; auto. apply stepY_mono; auto.
    apply muY_pre; auto.
  Qed.

  Lemma rankJ_spec : forall B s, In s states -> muY B s = true ->
    0 < rankJ B s <= length states /\ Ylev B (rankJ B s) s = true /\
    forall j, Ylev B j s = true -> rankJ B s <= j.
  Proof.
    intros B s Hs H. unfold muY, mu in H. fold (Ylev B (length states)) in H.
    destruct (least_spec (Datatypes.S (length states)) (fun j => Ylev B j s)
                (length states)) as (H1 & H2); auto; try lia.
    fold (rankJ B s) in H1, H2. repeat split; auto.
    - destruct (rankJ B s) eqn:Er; [|lia]. discriminate.
    - intros j Hj. destruct (le_lt_dec (rankJ B s) j); auto.
      assert (Ylev B j s = false).
      { apply (least_min (Datatypes.S (length states)) (fun j => Ylev B j s)). exact l. }
      congruence.
  Qed.

  Lemma Xlev_exists : forall B s j, Ylev B (Datatypes.S j) s = true ->
    exists r, r < length egoals /\ Xlev B (Datatypes.S j) r s = true.
  Proof.
    intros B s j H. unfold Ylev in H. simpl in H. unfold GameTheory.stepY in H.
    apply existsb_exists in H. destruct H as (eg & Hin & Hx).
    apply In_nth with (d := fun _ => false) in Hin. destruct Hin as (r & Hr & He).
    exists r. split; auto. unfold Xlev. rewrite He. exact Hx.
  Qed.

  Lemma Xlev_in_Ylev : forall B s j r, r < length egoals ->
    Xlev B (Datatypes.S j) r s = true -> Ylev B (Datatypes.S j) s = true.
  Proof.
    intros B s j r Hr H. unfold Ylev. simpl. unfold GameTheory.stepY.
    apply existsb_exists. exists (nth r egoals (fun _ => false)). split; auto.
    apply nth_In; auto.
  Qed.

  Lemma rankR_spec : forall B s, In s states -> muY B s = true ->
    rankR B s < length egoals /\ Xlev B (rankJ B s) (rankR B s) s = true.
  Proof.
    intros B s Hs H. destruct (rankJ_spec B s Hs H) as (H1 & H2 & _).
    destruct (rankJ B s) as [|j] eqn:Ej; [lia|].
    destruct (Xlev_exists B s j H2) as (r & Hr & Hx).
    unfold rankR. rewrite Ej.
    destruct (least_spec (length egoals) (fun r => Xlev B (Datatypes.S j) r s) r Hr Hx)
      as (H3 & H4). split; auto. lia.
  Qed.

  Lemma rankR_min : forall B s r, Xlev B (rankJ B s) r s = true -> rankR B s <= r.
  Proof.
    intros B s r H. destruct (le_lt_dec (rankR B s) r); auto.
    assert (Xlev B (rankJ B s) r s = false).
    { apply (least_min (length egoals) (fun r => Xlev B (rankJ B s) r s)). exact l. }
    congruence.
  Qed.

  (** the three reasons for being in the fixpoint *)
  Lemma rank_cases : forall B s, In s states -> muY B s = true ->
    B s = true \/ EX (Ylev B (Nat.pred (rankJ B s))) s = true \/
    (nth (rankR B s) egoals (fun _ => false) s = false /\
     EX (Xlev B (rankJ B s) (rankR B s)) s = true).
  Proof.
    intros B s Hs H. destruct (rankR_spec B s Hs H) as (H1 & H2).
    unfold Xlev in H2. apply nuX_unfold in H2; auto. unfold PhiB in H2.
    apply orb_true_iff in H2. destruct H2 as [H2|H2].
    - apply orb_true_iff in H2. tauto.
    - apply andb_true_iff in H2. destruct H2 as [H2 H3]. right. right.
      apply negb_true_iff in H3. split; auto.
  Qed.

  (** moving into a lower level lowers the first rank *)
  Lemma rank_down_Y : forall B s s', In s states -> muY B s = true ->
    Ylev B (Nat.pred (rankJ B s)) s' = true -> In s' states ->
    muY B s' = true /\ rankJ B s' < rankJ B s.
  Proof.
    intros B s s' Hs H HY Hs'. assert (muY B s' = true) by (eapply Ylev_le; eauto).
    split; auto.
    destruct (rankJ_spec B s Hs H) as (H1 & _).
    destruct (rankJ_spec B s' Hs' H0) as (_ & _ & H2).
    specialize (H2 _ HY). lia.
  Qed.

  (** moving into the [X] set of index [r] does not raise the rank above (J, r) *)
  Lemma rank_stay_X : forall B s s' r, In s states -> muY B s = true ->
    r < length egoals ->
    Xlev B (rankJ B s) r s' = true -> In s' states ->
    muY B s' = true /\
    (rankJ B s' < rankJ B s \/ (rankJ B s' = rankJ B s /\ rankR B s' <= r)).
  Proof.
    intros B s s' r Hs H Hr HX Hs'.
    destruct (rankJ_spec B s Hs H) as (H1 & _).
    destruct (rankJ B s) as [|j] eqn:Ej; [lia|].
    assert (HY : Ylev B (Datatypes.S j) s' = true) by (eapply Xlev_in_Ylev; eauto).
    assert (HM : muY B s' = true) by (eapply Ylev_le; eauto).
    split; auto.
    destruct (rankJ_spec B s' Hs' HM) as (_ & _ & H2). specialize (H2 _ HY).
    destruct (Nat.eq_dec (rankJ B s') (Datatypes.S j)) as [He|Hne]; [|left; lia].
    right. split; auto. apply rankR_min. rewrite He. auto.
  Qed.

  (** *** The ranking strategy *)
  Definition Bi (i : nat) : S -> bool :=
    Bz G eqE i (fun s' => Zstar G eqE (nxt i, s')).
  Definition target (i : nat) (s : S) : S -> bool :=
    if Bi i s then (fun s' => Zstar G eqE (nxt i, s'))
    else if EX (Ylev (Bi i) (Nat.pred (rankJ (Bi i) s))) s
         then Ylev (Bi i) (Nat.pred (rankJ (Bi i) s))
         else Xlev (Bi i) (rankJ (Bi i) s) (rankR (Bi i) s).
  Definition newmode (i : nat) (s : S) : nat := if Bi i s then nxt i else i.
  Definition pick (i : nat) (s : S) (e : E) : option S :=
    find (fun s' => eqE (g_env G s') e && g_str G s s' && target i s s') states.
  Fixpoint hmode (h : list S) : nat :=
    match h with
    | [] => 0
    | _ :: h' => match h' with [] => 0 | s :: _ => newmode (hmode h') s end
    end.
  Definition sigma (s0 : S) : strategy := fun h e =>
    match h with
    | [] => s0
    | s :: _ => match pick (hmode h) s e with Some s' => s' | None => s end
    end.

  Lemma muY_Bi : forall i s, i < ngoals -> In s states ->
    Zstar G eqE (i, s) = muY (Bi i) s.
  Proof. intros. apply Zstar_unfold; auto. Qed.

  Lemma EX_target : forall i s, i < ngoals -> In s states ->
    Zstar G eqE (i, s) = true -> EX (target i s) s = true.
  Proof.
    intros i s Hi Hs H. rewrite muY_Bi in H; auto. unfold target.
    destruct (Bi i s) eqn:EB.
    - unfold Bi, Bz in EB. apply andb_true_iff in EB. tauto.
    - destruct (EX (Ylev (Bi i) (Nat.pred (rankJ (Bi i) s))) s) eqn:EY; auto.
      destruct (rank_cases (Bi i) s Hs H) as [H1|[H1|[_ H1]]]; congruence.
  Qed.

  Lemma pick_spec : forall i s e, i < ngoals -> In s states ->
    Zstar G eqE (i, s) = true -> legal_env G s e ->
    exists s', pick i s e = Some s' /\ legal_sys G s e s' /\ target i s s' = true.
  Proof.
    intros i s e Hi Hs H He. pose proof (EX_target i s Hi Hs H) as HE.
    apply EX_spec with (e := e) in HE; auto. destruct HE as (s1 & (H1 & H2 & H3) & H4).
    unfold pick. destruct (find _ states) as [s'|] eqn:Ef.
    - apply find_some in Ef. destruct Ef as [Hin Hf]. apply andb_true_iff in Hf.
      destruct Hf as [Hf Ht]. apply andb_true_iff in Hf. destruct Hf as [Hf1 Hf2].
      apply eqE_spec in Hf1. exists s'. repeat split; auto.
    - apply find_none with (x := s1) in Ef; auto. simpl in Ef.
      rewrite (proj2 (eqE_spec _ _) H2), H3, H4 in Ef. discriminate.
  Qed.

  Lemma newmode_lt : forall i s, i < ngoals -> newmode i s < ngoals.
  Proof. intros. unfold newmode. destruct (Bi i s); auto using nxt_lt. Qed.

  Lemma target_inv : forall i s s', i < ngoals -> In s states -> In s' states ->
    Zstar G eqE (i, s) = true -> target i s s' = true ->
    Zstar G eqE (newmode i s, s') = true.
  Proof.
    intros i s s' Hi Hs Hs' H Ht. unfold target in Ht. unfold newmode.
    rewrite muY_Bi in H; auto.
    destruct (Bi i s); auto. rewrite muY_Bi; auto.
    destruct (EX (Ylev (Bi i) (Nat.pred (rankJ (Bi i) s))) s).
    - apply (rank_down_Y (Bi i) s s'); auto.
    - destruct (rankR_spec _ _ Hs H) as [Hr _].
      apply (rank_stay_X (Bi i) s s' _ Hs H Hr); auto.
  Qed.

  Lemma hist_inv : forall s0, 0 < ngoals -> In s0 states -> Wset G eqE s0 = true ->
    forall h, hist G (sigma s0) s0 h -> forall s h', h = s :: h' ->
    In s states /\ hmode h < ngoals /\ Zstar G eqE (hmode h, s) = true.
  Proof.
    intros s0 Hk Hs0 HW h Hh. induction Hh as [|s h e Hh IH He]; intros s1 h1 Heq.
    - inversion Heq; subst. simpl. auto.
    - assert (Hs1 : s1 = sigma s0 (s :: h) e) by congruence. clear Heq.
      destruct (IH s h eq_refl) as (H1 & H2 & H3).
      destruct (pick_spec (hmode (s :: h)) s e) as (s' & Hp & Hl & Ht); auto.
      assert (Hsg : sigma s0 (s :: h) e = s').
      { unfold sigma. rewrite Hp. reflexivity. }
      rewrite Hs1, Hsg. change (hmode (s' :: s :: h)) with (newmode (hmode (s :: h)) s).
      destruct Hl as (Hl1 & Hl2 & Hl3). split; [auto|]. split.
      + apply newmode_lt; auto.
      + apply target_inv; auto.
  Qed.

  Lemma prefix_hist : forall sg s0 p, play_of G sg s0 p -> forall t, hist G sg s0 (prefix p t).
  Proof.
    intros sg s0 p [H0 Hp]. induction t; simpl.
    - rewrite H0. constructor.
    - destruct (Hp t) as (e & He & Heq). rewrite Heq.
      assert (Hpre : exists l, prefix p t = p t :: l).
      { destruct t; simpl; eauto. }
      destruct Hpre as (l & Hl). rewrite Hl in *. constructor; auto.
  Qed.

  Lemma prefix_cons : forall (p : nat -> S) t, exists l, prefix p t = p t :: l.
  Proof. destruct t; simpl; eauto. Qed.

  Theorem W_sound : forall s0, 0 < ngoals -> In s0 states ->
    Wset G eqE s0 = true -> sys_wins G s0.
  Proof.
    intros s0 Hk Hs0 HW. exists (sigma s0). split.
    - intros s h e Hh He. destruct (hist_inv s0 Hk Hs0 HW _ Hh s h eq_refl) as (H1 & H2 & H3).
      destruct (pick_spec (hmode (s :: h)) s e) as (s' & Hp & Hl & Ht); auto.
      assert (Hsg : sigma s0 (s :: h) e = s') by (unfold sigma; rewrite Hp; reflexivity).
      rewrite Hsg. exact Hl.
    - intros p Hplay Henv g Hg.
      set (m := fun t => hmode (prefix p t)).
      assert (Hinv : forall t, In (p t) states /\ m t < ngoals /\
                               Zstar G eqE (m t, p t) = true).
      { intros t. destruct (prefix_cons p t) as (l & Hl).
        apply (hist_inv s0 Hk Hs0 HW (prefix p t) (prefix_hist _ _ _ Hplay t) (p t) l Hl). }
      assert (Hm : forall t, m (Datatypes.S t) = newmode (m t) (p t)).
      { intros t. unfold m. destruct (prefix_cons p t) as (l & Hl).
        change (prefix p (Datatypes.S t)) with (p (Datatypes.S t) :: prefix p t).
        rewrite Hl. reflexivity. }
      assert (Htgt : forall t, target (m t) (p t) (p (Datatypes.S t)) = true).
      { intros t. destruct (Hinv t) as (H1 & H2 & H3).
        destruct Hplay as [_ Hplay]. destruct (Hplay t) as (e & He & Heq).
        destruct (pick_spec (m t) (p t) e) as (s' & Hp & Hl & Ht); auto.
        rewrite Heq. destruct (prefix_cons p t) as (l & Hpl).
        unfold sigma. unfold m in *. rewrite Hpl in *. rewrite Hp. auto. }
      set (A := fun t => Bi (m t) (p t) = true).
      assert (Hprog : forall t, exists t', t <= t' /\ A t' /\
                forall u, t <= u < t' -> m (Datatypes.S u) = m u).
      { apply (rank_progress A (fun u => m (Datatypes.S u) = m u)
                 (fun t => rankJ (Bi (m t)) (p t)) (fun t => rankR (Bi (m t)) (p t))
                 (fun r t => nth r egoals (fun _ => false) (p t)) (length egoals)).
        - intros t. destruct (Hinv t) as (H1 & H2 & H3). rewrite muY_Bi in H3; auto.
          apply rankR_spec; auto.
        - intros t. destruct (Hinv t) as (H1 & H2 & H3).
          destruct (Hinv (Datatypes.S t)) as (H4 & _ & _).
          rewrite muY_Bi in H3; auto. specialize (Htgt t). rewrite Hm.
          unfold target in Htgt. unfold newmode. unfold A.
          destruct (Bi (m t) (p t)) eqn:EB; auto. right. split; auto.
          destruct (EX (Ylev (Bi (m t)) (Nat.pred (rankJ (Bi (m t)) (p t)))) (p t)) eqn:EY.
          + left. apply (rank_down_Y _ _ _ H1 H3 Htgt H4).
          + destruct (rankR_spec _ _ H1 H3) as (H5 & H6).
            destruct (rank_stay_X (Bi (m t)) (p t) (p (Datatypes.S t)) _ H1 H3 H5 Htgt H4)
              as (_ & [H7|(H7 & H8)]); auto.
            right. apply le_lt_eq_dec in H8. destruct H8 as [H8|H8]; [left; auto|].
            right. split; auto. split; auto.
            destruct (rank_cases _ _ H1 H3) as [H9|[H9|[H9 _]]]; congruence.
        - intros r Hr t. apply (Henv (nth r egoals (fun _ => false))). apply nth_In; auto. }
      assert (Hsame : forall t t', t <= t' ->
                (forall u, t <= u < t' -> m (Datatypes.S u) = m u) -> m t' = m t).
      { intros t t' Hle. induction Hle; intros Hu; auto.
        rewrite Hu by lia. apply IHHle. intros; apply Hu; lia. }
      assert (Hcyc : forall d t, exists t', t <= t' /\ A t' /\ m t' = iter d nxt (m t)).
      { apply mode_cycle.
        - intros t HA. rewrite Hm. unfold newmode. rewrite HA. reflexivity.
        - intros t. destruct (Hprog t) as (t' & H1 & H2 & H3).
          exists t'. repeat split; auto. }
      apply In_nth with (d := fun _ => false) in Hg. destruct Hg as (i & Hi & Hgi).
      intros t. destruct (nxt_reach G (m t) i) as (d & Hd).
      { apply (Hinv t). } { exact Hi. }
      destruct (Hcyc d t) as (t' & H1 & H2 & H3). exists t'. split; auto.
      unfold A in H2. rewrite H3, Hd in H2. unfold Bi, Bz in H2.
      apply andb_true_iff in H2. destruct H2 as [H2 _].
      unfold GameTheory.sgoal in H2. rewrite Hgi in H2. exact H2.
  Qed.
End Sound.
