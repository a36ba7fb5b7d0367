(** Completeness of the fixpoint: outside [Wset] the system cannot win. *)
From Coq Require Import List ZArith Lia Bool Arith Wf_nat.
From Verif Require Import Base Fix Game GameTheory GameSound.
Import ListNotations.
Open Scope nat_scope.

(** cyclic successor below [n] *)
Definition cyc (n i : nat) : nat := if i =? n - 1 then 0 else i + 1.

Lemma cyc_lt : forall n i, i < n -> cyc n i < n.
Proof.
  intros n i H. unfold cyc. destruct (i =? n - 1) eqn:E; [lia|].
  apply Nat.eqb_neq in E. lia.
Qed.
Lemma cyc_up : forall n d i, i + d < n -> iter d (cyc n) i = i + d.
Proof.
  induction d; intros i H; simpl; [lia|]. rewrite IHd by lia. unfold cyc.
  destruct (i + d =? n - 1) eqn:Ei; [apply Nat.eqb_eq in Ei; lia|lia].
Qed.
Lemma cyc_reach : forall n i j, i < n -> j < n -> exists d, iter d (cyc n) i = j.
Proof.
  intros n i j Hi Hj. exists (j + (1 + (n - 1 - i))).
  rewrite iter_add, (iter_add _ (cyc n) 1), (cyc_up n (n - 1 - i) i) by lia.
  replace (i + (n - 1 - i)) with (n - 1) by lia.
  assert (H1 : iter 1 (cyc n) (n - 1) = 0).
  { simpl. unfold cyc. rewrite Nat.eqb_refl. reflexivity. }
  rewrite H1, cyc_up by lia. lia.
Qed.

Section Complete.
  Context {S E : Type}.
  Variable G : game S E.
  Variable eqE : E -> E -> bool.
  Hypothesis eqE_spec : forall a b, eqE a b = true <-> a = b.

  Notation states := (g_states G).
  Notation egoals := (g_egoals G).
  Notation EX := (EX G eqE).
  Notation nuX := (nuX G eqE).
  Notation muY := (muY G eqE).
  Notation ngoals := (ngoals G).
  Notation nxt := (nxt G).
  Notation sgoal := (sgoal G).

  Definition egoal (j : nat) : S -> bool := nth j egoals (fun _ => false).
  Definition ne := length egoals.
  Definition N := length states.

  Record mem := { mi : nat; mz : nat; mj : nat; mx : nat }.

  Definition Zk (k i : nat) (s : S) : bool := down (Zop G eqE) k (i, s).
  Definition Bm (i k : nat) : S -> bool := Bz G eqE i (Zk (Nat.pred k) (nxt i)).
  Definition Xk (m : mem) (k : nat) : S -> bool :=
    down (PhiB G eqE (Bm (mi m) (mz m)) (egoal (mj m)) (muY (Bm (mi m) (mz m)))) k.

  (** what the spoiler avoids, and its next memory *)
  Definition avoid (m : mem) (s : S) : (S -> bool) * mem :=
    if sgoal (mi m) s
    then (Zk (Nat.pred (mz m)) (nxt (mi m)),
          {| mi := nxt (mi m); mz := Nat.pred (mz m); mj := 0; mx := N |})
    else if egoal (mj m) s
    then (muY (Bm (mi m) (mz m)),
          {| mi := mi m; mz := mz m; mj := cyc ne (mj m); mx := N |})
    else (Xk m (Nat.pred (mx m)),
          {| mi := mi m; mz := mz m; mj := mj m; mx := Nat.pred (mx m) |}).

  Definition Inv (m : mem) (s : S) : Prop :=
    In s states /\ mi m < ngoals /\ mj m < ne /\ Zk (mz m) (mi m) s = false /\
    Xk m (mx m) s = false.

  Lemma Zk_S : forall k i s, Zk (Datatypes.S k) i s = muY (Bm i (Datatypes.S k)) s.
  Proof. reflexivity. Qed.

  Lemma Inv_pos : forall m s, Inv m s -> 0 < mz m /\ 0 < mx m.
  Proof.
    intros [i k j x] s (_ & _ & _ & H1 & H2). simpl in *. split.
    - destruct k; [discriminate|lia].
    - destruct x; [discriminate|lia].
  Qed.

  Lemma not_muY_not_nuX : forall B s j, In s states -> j < ne ->
    muY B s = false -> nuX B (egoal j) (muY B) s = false.
  Proof.
    intros B s j Hs Hj H. destruct (nuX B (egoal j) (muY B) s) eqn:Ex; auto.
    rewrite <- H. symmetry. apply (nuX_in_muY G eqE eqE_spec B (egoal j)); auto.
    apply nth_In; auto.
  Qed.

  (** the set to be avoided can be avoided *)
  Lemma avoid_EX : forall m s, Inv m s -> EX (fst (avoid m s)) s = false.
  Proof.
    intros m s HI. destruct (Inv_pos _ _ HI) as [Hz Hx].
    destruct HI as (Hs & Hi & Hj & HZ & HX).
    destruct m as [i k j x]; simpl in *. destruct x as [|x]; [lia|].
    unfold Xk in HX. simpl in HX.
    set (F := PhiB G eqE (Bm i k) (egoal j) (muY (Bm i k))) in *.
    change (down F (Datatypes.S x)) with (F (down F x)) in HX.
    assert (HX' := HX). unfold F in HX' at 1. unfold PhiB in HX'.
    apply orb_false_iff in HX'. destruct HX' as [HX1 HX2].
    apply orb_false_iff in HX1. destruct HX1 as [HB HY].
    unfold avoid. simpl. destruct (sgoal i s) eqn:Eg.
    - simpl. unfold Bm, Bz in HB. rewrite Eg in HB. exact HB.
    - destruct (egoal j s) eqn:Ee.
      + exact HY.
      + simpl. simpl in HX2. rewrite andb_true_r in HX2. exact HX2.
  Qed.

  Lemma muY_in_Xk : forall m k s, In s states ->
    muY (Bm (mi m) (mz m)) s = true -> Xk m k s = true.
  Proof.
    intros m k s Hs H. unfold Xk. set (B := Bm (mi m) (mz m)) in *.
    revert s Hs H. change (leP states (muY B)
      (down (PhiB G eqE B (egoal (mj m)) (muY B)) k)).
    apply post_below_down; [apply PhiB_mono; auto|].
    intros s Hs H. apply muY_post in H; auto. unfold stepY in H.
    apply existsb_exists in H. destruct H as (eg & Heg & Hx).
    assert (Hle := nuX_in_muY G eqE eqE_spec B eg Heg).
    apply nuX_unfold in Hx; auto. unfold PhiB in *.
    apply orb_true_iff in Hx. destruct Hx as [Hx|Hx].
    - apply orb_true_iff in Hx. destruct Hx as [Hx|Hx]; rewrite Hx; simpl; auto.
      rewrite orb_true_r. reflexivity.
    - apply andb_true_iff in Hx. destruct Hx as [Hx _].
      rewrite (EX_mono G eqE eqE_spec _ _ Hle s Hx). rewrite orb_true_r. reflexivity.
  Qed.

  (** outside the avoided set the invariant is re-established *)
  Lemma avoid_Inv : forall m s s', 0 < ne -> Inv m s -> In s' states ->
    fst (avoid m s) s' = false -> Inv (snd (avoid m s)) s'.
  Proof.
    intros m s s' Hne HI Hs' Ha. destruct (Inv_pos _ _ HI) as [Hz Hx].
    destruct HI as (Hs & Hi & Hj & HZ & HX).
    destruct m as [i k j x]; simpl in *. unfold avoid in *. simpl in *.
    assert (Hrank : forall i' k' j', j' < ne -> i' < ngoals -> Zk k' i' s' = false ->
              Inv {| mi := i'; mz := k'; mj := j'; mx := N |} s').
    { intros i' k' j' Hj' Hi' Hz'. repeat split; simpl; auto.
      destruct k' as [|k']; [discriminate|]. rewrite Zk_S in Hz'.
      apply (not_muY_not_nuX _ _ j' Hs' Hj' Hz'). }
    destruct (sgoal i s) eqn:Eg; [|destruct (egoal j s) eqn:Ee]; simpl in *.
    - apply Hrank; auto. apply nxt_lt; auto.
    - apply Hrank; auto. apply cyc_lt; auto.
      destruct k; [lia|]. exact Ha.
    - destruct k as [|k]; [lia|].
      repeat split; simpl; auto.
      rewrite Zk_S. destruct (muY (Bm i (Datatypes.S k)) s') eqn:EY; auto.
      rewrite (muY_in_Xk {| mi := i; mz := Datatypes.S k; mj := j; mx := x |}
                 (Nat.pred x) s' Hs' EY) in Ha. discriminate.
  Qed.

  (** *** The spoiler's run against a fixed strategy *)
  Variable sg : @strategy S E.
  Variable s0 : S.

  Definition move (C : S -> bool) (s : S) : option E :=
    find (fun e => g_etr G s e && negb (ans G eqE C s e)) (g_envs G).

  Fixpoint run (t : nat) : option (list S * mem) :=
    match t with
    | O => Some ([s0], {| mi := 0; mz := length (domZ G); mj := 0; mx := N |})
    | Datatypes.S t' =>
        match run t' with
        | Some (s :: h, m) =>
            match move (fst (avoid m s)) s with
            | Some e => Some (sg (s :: h) e :: s :: h, snd (avoid m s))
            | None => None
            end
        | _ => None
        end
    end.

  Lemma move_spec : forall C s, EX C s = false -> exists e, move C s = Some e /\
    legal_env G s e /\ forall s', legal_sys G s e s' -> C s' = false.
  Proof.
    intros C s H. unfold move.
    destruct (find _ (g_envs G)) as [e|] eqn:Ef.
    - apply find_some in Ef. destruct Ef as [Hin Hf]. apply andb_true_iff in Hf.
      destruct Hf as [H1 H2]. exists e. split; auto. split; [split; auto|].
      intros s' Hl. destruct (C s') eqn:EC; auto. apply negb_true_iff in H2.
      assert (ans G eqE C s e = true) by (apply ans_spec; eauto). congruence.
    - exfalso. assert (EX C s = true); [|congruence].
      unfold GameTheory.EX. apply forallb_forall. intros e He.
      apply find_none with (x := e) in Ef; auto. simpl in Ef.
      destruct (g_etr G s e); auto. simpl in *. apply negb_false_iff in Ef. auto.
  Qed.

  Definition rst (t : nat) : S :=
    match run t with Some (s :: _, _) => s | _ => s0 end.
  Definition rmem (t : nat) : mem :=
    match run t with Some (_, m) => m | None => {| mi := 0; mz := 0; mj := 0; mx := 0 |} end.

  Hypothesis Hwin : winning G sg s0.
  Hypothesis Hs0 : In s0 states.
  Hypothesis Hne : 0 < ne.
  Hypothesis Hng : 0 < ngoals.
  Hypothesis HW : Wset G eqE s0 = false.

  Lemma run_spec : forall t, run t = Some (prefix rst t, rmem t) /\
    hist G sg s0 (prefix rst t) /\ Inv (rmem t) (rst t).
  Proof.
    induction t.
    - split; [reflexivity|]. split; [simpl; constructor|].
      unfold rmem, rst. simpl. unfold Inv. simpl. split; [auto|]. split; [auto|].
      split; [auto|]. split; [exact HW|].
      unfold Xk. simpl. apply not_muY_not_nuX; auto.
      unfold Wset in HW. rewrite Zstar_unfold in HW; auto.
      unfold Bm. simpl.
      destruct (length (domZ G)) eqn:EL.
      { exfalso. unfold domZ in EL. rewrite prod_length in EL.
        rewrite seq_length in EL. destruct states; simpl in *; [auto|].
        unfold GameTheory.ngoals in *. lia. }
      simpl. assert (HZ : Zk (Datatypes.S n) 0 s0 = false).
      { unfold Zk. rewrite <- EL. unfold Wset in HW. rewrite <- HW.
        rewrite <- Zstar_unfold; auto. }
      rewrite Zk_S in HZ. exact HZ.
    - destruct IHt as (H1 & H2 & H3).
      destruct (prefix_cons rst t) as (l & Hl).
      destruct (move_spec _ _ (avoid_EX _ _ H3)) as (e & He & Hle & Hav).
      assert (Hrun : run (Datatypes.S t) =
        Some (sg (rst t :: l) e :: rst t :: l, snd (avoid (rmem t) (rst t)))).
      { simpl. rewrite H1, Hl, He. reflexivity. }
      assert (Hr : rst (Datatypes.S t) = sg (rst t :: l) e).
      { unfold rst at 1. rewrite Hrun. reflexivity. }
      assert (Hm : rmem (Datatypes.S t) = snd (avoid (rmem t) (rst t))).
      { unfold rmem at 1. rewrite Hrun. reflexivity. }
      assert (Hpf : prefix rst (Datatypes.S t) = sg (rst t :: l) e :: rst t :: l).
      { change (prefix rst (Datatypes.S t)) with (rst (Datatypes.S t) :: prefix rst t).
        rewrite Hl, Hr. reflexivity. }
      rewrite Hrun, Hpf, Hm. split; [reflexivity|].
      assert (Hh : hist G sg s0 (rst t :: l)) by (rewrite <- Hl; exact H2).
      split; [constructor; auto|].
      destruct Hwin as [Hleg _]. specialize (Hleg _ _ _ Hh Hle).
      rewrite Hr. apply avoid_Inv; auto. apply Hleg.
  Qed.

  Lemma run_mem : forall t, rmem (Datatypes.S t) = snd (avoid (rmem t) (rst t)).
  Proof.
    intros t. destruct (run_spec t) as (H1 & H2 & H3).
    destruct (prefix_cons rst t) as (l & Hl).
    destruct (move_spec _ _ (avoid_EX _ _ H3)) as (e & He & Hle & Hav).
    unfold rmem at 1. simpl. rewrite H1, Hl, He. reflexivity.
  Qed.

  Lemma run_play : play_of G sg s0 rst.
  Proof.
    split; [reflexivity|]. intros t. destruct (run_spec t) as (H1 & H2 & H3).
    destruct (prefix_cons rst t) as (l & Hl).
    destruct (move_spec _ _ (avoid_EX _ _ H3)) as (e & He & Hle & Hav).
    exists e. split; auto. unfold rst at 1. simpl. rewrite H1, Hl, He. reflexivity.
  Qed.

  (** after its last goal change the spoiler serves every environment goal *)
  Lemma tail_io : forall t,
    (forall u, t <= u -> sgoal (mi (rmem u)) (rst u) = false) ->
    forall r, r < ne -> infinitely_often (egoal r) rst.
  Proof.
    intros t Htail r Hr.
    set (j := fun u => mj (rmem (t + u))).
    set (A := fun u => egoal (j u) (rst (t + u)) = true).
    assert (HjA : forall u, A u -> j (Datatypes.S u) = cyc ne (j u)).
    { intros u HA. unfold j at 1. rewrite <- plus_n_Sm, run_mem. unfold avoid.
      rewrite Htail by lia. unfold A, j in HA. rewrite HA. reflexivity. }
    assert (HjN : forall u, ~ A u -> j (Datatypes.S u) = j u /\
        mx (rmem (t + Datatypes.S u)) < mx (rmem (t + u))).
    { intros u HA. unfold j. rewrite <- plus_n_Sm, run_mem. unfold avoid.
      rewrite Htail by lia.
      destruct (egoal (mj (rmem (t + u))) (rst (t + u))) eqn:Ee.
      { exfalso. apply HA. exact Ee. }
      simpl. split; auto. destruct (run_spec (t + u)) as (_ & _ & HI).
      apply Inv_pos in HI. lia. }
    assert (Hprog : forall x u, mx (rmem (t + u)) = x ->
        exists u', u <= u' /\ A u' /\ j u' = j u).
    { induction x as [x IHx] using lt_wf_ind. intros u Hx.
      destruct (egoal (j u) (rst (t + u))) eqn:EA.
      - exists u. repeat split; auto.
      - destruct (HjN u) as [H1 H2]. { unfold A. congruence. }
        destruct (IHx (mx (rmem (t + Datatypes.S u)))) with (u := Datatypes.S u)
          as (u' & H3 & H4 & H5); auto; try lia.
        exists u'. repeat split; auto; [lia|congruence]. }
    assert (Hcyc := mode_cycle j A (cyc ne) HjA (fun u => Hprog _ u eq_refl)).
    intros u. destruct (run_spec (t + u)) as (_ & _ & (_ & _ & Hj & _)).
    destruct (cyc_reach ne (j u) r Hj Hr) as (d & Hd).
    destruct (Hcyc d u) as (u' & H1 & H2 & H3). exists (t + u'). split; [lia|].
    unfold A in H2. rewrite H3, Hd in H2. exact H2.
  Qed.

  Lemma spoiler_contradiction : False.
  Proof.
    assert (Main : forall k t, mz (rmem t) = k -> False).
    { induction k as [k IHk] using lt_wf_ind. intros t Hk.
      assert (Hst : forall d, mz (rmem (t + d)) = k /\ mi (rmem (t + d)) = mi (rmem t) /\
                 sgoal (mi (rmem t)) (rst (t + d)) = false).
      { induction d.
        - rewrite Nat.add_0_r. repeat split; auto.
          destruct (sgoal (mi (rmem t)) (rst t)) eqn:Eg; auto. exfalso.
          apply (IHk (mz (rmem (Datatypes.S t)))) with (t := Datatypes.S t); auto.
          rewrite run_mem. unfold avoid. rewrite Eg. simpl.
          destruct (run_spec t) as (_ & _ & HI). apply Inv_pos in HI. lia.
        - destruct IHd as (H1 & H2 & H3). rewrite <- plus_n_Sm.
          assert (H4 : mz (rmem (Datatypes.S (t + d))) = k /\
                       mi (rmem (Datatypes.S (t + d))) = mi (rmem t)).
          { rewrite run_mem. unfold avoid. rewrite H2, H3.
            destruct (egoal _ _); simpl; auto. }
          destruct H4 as [H4 H5]. repeat split; auto.
          destruct (sgoal (mi (rmem t)) (rst (Datatypes.S (t + d)))) eqn:Eg; auto.
          exfalso.
          apply (IHk (mz (rmem (Datatypes.S (Datatypes.S (t + d))))))
            with (t := Datatypes.S (Datatypes.S (t + d))); auto.
          rewrite run_mem. unfold avoid. rewrite H5, Eg. simpl.
          destruct (run_spec (Datatypes.S (t + d))) as (_ & _ & HI).
          apply Inv_pos in HI. lia. }
      destruct Hwin as [_ Hgr]. specialize (Hgr rst run_play).
      assert (Henv : forall g, In g egoals -> infinitely_often g rst).
      { intros g Hg. apply In_nth with (d := fun _ => false) in Hg.
        destruct Hg as (r & Hr & <-). apply (tail_io t); auto.
        intros u Hu. destruct (Hst (u - t)) as (_ & H2 & H3).
        replace (t + (u - t)) with u in * by lia. rewrite H2. exact H3. }
      specialize (Hgr Henv (sgoal (mi (rmem t)))).
      destruct (run_spec t) as (_ & _ & (_ & Hi & _)).
      destruct Hgr with (t := t) as (t' & Hle & Hg).
      { apply nth_In. exact Hi. }
      destruct (Hst (t' - t)) as (_ & _ & H3).
      replace (t + (t' - t)) with t' in * by lia. congruence. }
    exact (Main _ 0 eq_refl).
  Qed.
End Complete.

Section Determined.
  Context {S E : Type}.
  Variable G : game S E.
  Variable eqE : E -> E -> bool.
  Hypothesis eqE_spec : forall a b, eqE a b = true <-> a = b.

  Theorem W_complete : forall s0, 0 < length (g_egoals G) -> 0 < ngoals G ->
    In s0 (g_states G) -> sys_wins G s0 -> Wset G eqE s0 = true.
  Proof.
    intros s0 He Hn Hs (sg & Hw). destruct (Wset G eqE s0) eqn:EW; auto.
    exfalso. eapply (spoiler_contradiction G eqE eqE_spec sg s0); eauto.
  Qed.

  Theorem W_exact : forall s0, 0 < length (g_egoals G) -> 0 < ngoals G ->
    In s0 (g_states G) -> (Wset G eqE s0 = true <-> sys_wins G s0).
  Proof.
    intros. split; intros.
    - eapply W_sound; eauto.
    - apply W_complete; auto.
  Qed.
End Determined.
