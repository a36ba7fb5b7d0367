(** Following a strategy from a node that seeks goal [d] leads to a node that seeks
    neither [d] nor the goal after it. *)
From Coq Require Import List ZArith Lia Bool Arith.
From Verif Require Import Base Game Bdd Support SupportProofs Ops Strs Ptree Form Solve FSpec Automaton AutProofs Synth SynthSpec
  Reach ReachSpec ReachProofs Nonbool AutIO Lasso Hotswap HotSpec HotProofs HotForm HotSem.
Import ListNotations.
Open Scope nat_scope.

Section Follow.
  Variable F : fspec.
  Let k := length (fs_sgoals F).
  Variable d : nat.
  Hypothesis Hd : d < k.
  Hypothesis Hk3 : 3 <= k.
  Let d1 := after F d.
  Variable A : aut.
  Hypothesis Hco : correct F A.
  Hypothesis Hse : seeks F A.
  Hypothesis Hnoe : fs_evars F = [] -> forall x, In x A -> g_etr (game_of F) (astate x) [] = true.
  Hypothesis Hap : forall x, In x A -> sgoal F d1 (astate x) = true -> sgoal F (after F d1) (astate x) = true -> False.
  Variable target : vec -> bool.
  Definition inside (x : anode) : Prop := amode x = Z.of_nat d \/ amode x = Z.of_nat d1.
  Hypothesis Htg : forall x y, In x A -> In y A -> In (aid y) (atrans x) -> inside x -> ~ inside y -> target (astate y) = true.

  Lemma inside_dec : forall x, {inside x} + {~ inside x}.
  Proof.
    intros x. unfold inside. destruct (Z.eq_dec (amode x) (Z.of_nat d)); [left; auto|].
    destruct (Z.eq_dec (amode x) (Z.of_nat d1)); [left; auto|right; tauto].
  Qed.
  Lemma two_steps : forall c y, In y A -> (forall j, j < c -> sgoal F ((d1 + j) mod k) (astate y) = true) -> c < 2.
  Proof.
    intros c y Hy Hg. destruct (le_lt_dec 2 c) as [Hc|]; auto. exfalso.
    pose proof (d1_lt F d Hd Hk3) as Hd1. fold k d1 in Hd1.
    apply (Hap y).
    - auto.
    - pose proof (Hg 0 ltac:(lia)) as K. rewrite Nat.add_0_r, Nat.mod_small in K by auto. auto.
    - pose proof (Hg 1 ltac:(lia)) as K. rewrite Nat.add_1_r in K. exact K.
  Qed.
  Lemma step_d1 : forall x y, In x A -> In y A -> In (aid y) (atrans x) -> amode x = Z.of_nat d1 -> inside y ->
    amode y = Z.of_nat d1 /\ sgoal F d1 (astate y) = false.
  Proof.
    intros x y Hx Hy Ht Em Hin. destruct (proj2 Hse x y Hx Hy Ht) as (i & c & Hi & Ex & Ey & Hg & Hc). fold k in Hi, Ey, Hg.
    pose proof (d1_lt F d Hd Hk3) as Hd1. fold k d1 in Hd1. pose proof (d1_ne F d Hd Hk3) as Hne. fold k d1 in Hne.
    rewrite Em in Ex. apply Nat2Z.inj in Ex. subst i.
    pose proof (two_steps c y Hy Hg) as H2. destruct c as [|c].
    - rewrite Nat.add_0_r, Nat.mod_small in Ey by auto. split; auto.
      destruct (sgoal F d1 (astate y)) eqn:E; auto. apply proj2 in Hc. specialize (Hc eq_refl). lia.
    - exfalso. assert (c = 0) by lia. subst c. destruct Hin as [Hin|Hin]; rewrite Hin in Ey; apply Nat2Z.inj in Ey.
      + (* d1 + 1 = d: only with two goals *)
        unfold d1, after in Ey. fold k in Ey. rewrite Nat.add_mod_idemp_l in Ey by lia.
        replace (S d + 1) with (d + 2) in Ey by lia. destruct (le_lt_dec k (d + 2)) as [E|E].
        * replace (d + 2) with ((d + 2 - k) + 1 * k) in Ey by lia. rewrite Nat.mod_add, Nat.mod_small in Ey by lia. lia.
        * rewrite Nat.mod_small in Ey by lia. lia.
      + destruct (Nat.eq_dec (d1 + 1) k) as [E|E].
        * rewrite E, Nat.mod_same in Ey by lia. lia.
        * rewrite Nat.mod_small in Ey by lia. lia.
  Qed.
  Lemma step_d : forall x y, In x A -> In y A -> In (aid y) (atrans x) -> amode x = Z.of_nat d -> inside y ->
    (amode y = Z.of_nat d /\ sgoal F d (astate y) = false) \/ amode y = Z.of_nat d1.
  Proof.
    intros x y Hx Hy Ht Em Hin. destruct Hin as [Hin|Hin]; auto. left. split; auto.
    destruct (proj2 Hse x y Hx Hy Ht) as (i & c & Hi & Ex & Ey & Hg & Hc). fold k in Hi, Ey, Hg.
    rewrite Em in Ex. apply Nat2Z.inj in Ex. subst i. rewrite Hin in Ey. apply Nat2Z.inj in Ey.
    destruct (sgoal F d (astate y)) eqn:E; auto. exfalso. apply proj2 in Hc. specialize (Hc eq_refl).
    assert (Hck : k <= c).
    { destruct (le_lt_dec k c); auto. exfalso. destruct (le_lt_dec k (d + c)) as [E1|E1].
      - replace (d + c) with ((d + c - k) + 1 * k) in Ey by lia. rewrite Nat.mod_add, Nat.mod_small in Ey by lia. lia.
      - rewrite Nat.mod_small in Ey by lia. lia. }
    assert (H2 : c - 1 < 2); [|lia].
    apply (two_steps (c - 1) y Hy). intros j Hj. unfold d1, after. fold k. rewrite Nat.add_mod_idemp_l by lia.
    replace (S d + j) with (d + S j) by lia. apply Hg. lia.
  Qed.
  (** a path that stays inside *)
  Lemma no_stay : forall p : nat -> anode,
    (forall t, In (p t) A /\ In (aid (p (S t))) (atrans (p t)) /\ inside (p t)) ->
    (forall g, In g (g_egoals (game_of F)) -> infinitely_often g (fun t => astate (p t))) -> False.
  Proof.
    intros p Hp Hg.
    assert (Hlive : forall i, i < k -> infinitely_often (sgoal F i) (fun t => astate (p t))).
    { intros i Hi. unfold sgoal. apply (co_live _ _ Hco p).
      - intros t. split; apply Hp.
      - intros He t. apply Hnoe; auto. apply Hp.
      - intros g Hgi. apply Hg. apply (in_map (holds F)). auto.
      - apply nth_In. auto. }
    assert (Hd1 : forall t, amode (p t) = Z.of_nat d1 -> False).
    { intros t Et. assert (Hall : forall u, t < u -> amode (p u) = Z.of_nat d1 /\ sgoal F d1 (astate (p u)) = false).
      { intros u Hu. induction Hu as [|u Hu IH].
        - apply (step_d1 (p t) (p (S t))); auto; apply Hp.
        - apply (step_d1 (p u) (p (S u))); try apply Hp. apply IH. }
      destruct (Hlive d1 (d1_lt F d Hd Hk3) (S t)) as (u & Hu & E). destruct (Hall u) as (_ & E'); [lia|]. congruence. }
    assert (Hall : forall t, amode (p t) = Z.of_nat d).
    { intros t. destruct (Hp t) as (_ & _ & [E|E]); auto. exfalso. eauto. }
    destruct (Hlive d Hd 1) as (u & Hu & E). destruct u as [|u]; [lia|].
    destruct (step_d (p u) (p (S u))) as [(_ & E')|E']; auto; try apply Hp; [congruence|]. eauto.
  Qed.

  (** ** The strategy as a function of histories *)
  Variable x0 : anode.
  Hypothesis Hx0 : In x0 A.
  Hypothesis Hin0 : inside x0.
  Definition edge (u y : anode) : bool := memb (aid y) (atrans u).
  Lemma edge_In : forall u y, edge u y = true <-> In (aid y) (atrans u).
  Proof. intros. apply memb_In. Qed.
  Definition veq (a b : vec) : bool := if list_eq_dec Z.eq_dec a b then true else false.
  Lemma veq_eq : forall a b, veq a b = true <-> a = b.
  Proof. intros a b. unfold veq. destruct (list_eq_dec Z.eq_dec a b); split; congruence. Qed.
  Fixpoint track (h : list vec) : anode :=
    match h with
    | [] => x0
    | s :: r => match r with
                | [] => x0
                | _ => match find (fun y => edge (track r) y && veq (astate y) s) A with
                       | Some y => y
                       | None => Node 0 false s 0 0 []
                       end
                end
    end.
  Definition follow (h : list vec) (e : vec) : vec :=
    match find (fun y => edge (track h) y && veq (g_env (game_of F) (astate y)) e) A with
    | Some y => astate y
    | None => []
    end.
  Lemma track_step : forall s h, In (track h) A -> h <> [] ->
    (exists y, In y A /\ In (aid y) (atrans (track h)) /\ astate y = s) ->
    In (track (s :: h)) A /\ In (aid (track (s :: h))) (atrans (track h)) /\ astate (track (s :: h)) = s.
  Proof.
    intros s h Hh Hne (y & Hy & Ht & Es). cbn [track]. destruct h as [|s1 h1]; [congruence|].
    destruct (find _ A) as [z|] eqn:Ef.
    - apply find_some in Ef. destruct Ef as (Hz & Ef). apply andb_true_iff in Ef. destruct Ef as (E1 & E2).
      apply edge_In in E1. apply veq_eq in E2. auto.
    - exfalso. pose proof (find_none _ _ Ef y Hy) as K. cbn beta in K. rewrite (proj2 (edge_In _ _) Ht) in K.
      rewrite (proj2 (veq_eq _ _) Es) in K. discriminate.
  Qed.
  Lemma track_state : forall p t, p 0 = astate x0 -> astate (track (prefix p t)) = p t.
  Proof.
    intros p t H0. destruct t as [|t]; [cbn; auto|]. cbn [prefix track]. destruct (prefix p t) as [|s h] eqn:E.
    - destruct t; discriminate.
    - destruct (find _ A) as [z|] eqn:Ef; auto. apply find_some in Ef. destruct Ef as (_ & Ef).
      apply andb_true_iff in Ef. apply veq_eq. apply Ef.
  Qed.
  Lemma follow_step : forall h e, In (track h) A -> legal_env (game_of F) (astate (track h)) e ->
    exists y, In y A /\ In (aid y) (atrans (track h)) /\ g_env (game_of F) (astate y) = e /\ follow h e = astate y.
  Proof.
    intros h e Hh He. unfold follow. destruct (find _ A) as [z|] eqn:Ef.
    - apply find_some in Ef. destruct Ef as (Hz & Ef). apply andb_true_iff in Ef. destruct Ef as (E1 & E2).
      apply edge_In in E1. apply veq_eq in E2. exists z. auto.
    - exfalso. destruct (co_answer _ _ Hco (track h) e Hh He) as (y & Hy & Ht & Ee).
      pose proof (find_none _ _ Ef y Hy) as K. cbn beta in K. rewrite (proj2 (edge_In _ _) Ht) in K.
      rewrite (proj2 (veq_eq _ _) Ee) in K. discriminate.
  Qed.
  Lemma tracked : forall h, rhist (game_of F) target follow (astate x0) h -> exists s r, h = s :: r /\
    In (track h) A /\ astate (track h) = s /\ (target s = false -> inside (track h)).
  Proof.
    intros h H. induction H as [|s h e H (s1 & r1 & Eh & IH1 & IH2 & IH3) Ht He].
    - exists (astate x0), []. cbn. auto.
    - injection Eh as <- <-. specialize (IH3 Ht). rewrite <- IH2 in He.
      destruct (follow_step (s :: h) e IH1 He) as (y & Hy & Hty & Ey & Ef).
      exists (follow (s :: h) e), (s :: h). split; auto.
      destruct (track_step (follow (s :: h) e) (s :: h)) as (K1 & K2 & K3); auto; [discriminate|exists y; auto|].
      split; auto. split; auto. intros Htf. destruct (inside_dec (track (follow (s :: h) e :: s :: h))) as [|Hno]; auto.
      rewrite <- K3 in Htf. rewrite (Htg _ _ IH1 K1 K2 IH3 Hno) in Htf. discriminate.
  Qed.
  Lemma follow_wins : reach_wins (game_of F) target (astate x0).
  Proof.
    exists follow. split.
    - intros s h e H Ht He. destruct (tracked _ H) as (s1 & r1 & Eh & K1 & K2 & K3). injection Eh as <- <-.
      rewrite <- K2 in He. destruct (follow_step _ e K1 He) as (y & Hy & Hty & Ey & Ef). rewrite Ef.
      split; [apply (co_states _ _ Hco); auto|]. split; auto. rewrite <- K2. apply (co_safe _ _ Hco); auto.
    - intros p (H0 & Hst & Hpl) Hg.
      assert (Hh : forall t, (forall u, u < t -> target (p u) = false) -> rhist (game_of F) target follow (astate x0) (prefix p t)).
      { induction t as [|t IH]; intros Hu; [cbn; rewrite H0; constructor|].
        assert (Hr : rhist (game_of F) target follow (astate x0) (prefix p t)) by (apply IH; intros; apply Hu; lia).
        destruct (Hpl t) as (e & He & Ep); [intros u Hu'; apply Hu; lia|]. cbn [prefix]. rewrite Ep.
        assert (Eh : exists r, prefix p t = p t :: r) by (destruct t; cbn; eauto).
        destruct Eh as (r & Er). rewrite Er in *. constructor; auto. }
      apply (lasso A (fun x y => In (aid y) (atrans x)) (g_egoals (game_of F)) inside no_stay
        (fun t => track (prefix p t)) (fun t => target (p t))).
      + intros t Hno. assert (Hr : rhist (game_of F) target follow (astate x0) (prefix p t)) by (apply Hh; intros; apply Hno; lia).
        destruct (tracked _ Hr) as (s & r & Eh & K1 & K2 & K3). assert (Es : s = p t) by (destruct t; cbn in Eh; congruence).
        rewrite Es in K2, K3, Eh. split; auto. split; [|apply K3; auto].
        destruct (Hpl t Hno) as (e & He & Ep). rewrite <- K2 in He. rewrite Eh in Ep.
        rewrite Eh in K1, He.
        destruct (follow_step _ e K1 He) as (y & Hy & Hty & Ey & Ef).
        change (prefix p (S t)) with (p (S t) :: prefix p t). rewrite Eh.
        apply track_step; auto; [discriminate|]. exists y. repeat split; auto. congruence.
      + intros g Hgi. pose proof (Hg g Hgi) as K. intros t. destruct (K t) as (t' & Hle & E). exists t'. split; auto.
        rewrite track_state; auto.
  Qed.
End Follow.
