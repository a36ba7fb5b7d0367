(** What holds before the first and after the last goal. *)
From Coq Require Import List ZArith Lia Bool Arith.
From Verif Require Import Base Game Bdd Support SupportProofs Ops Strs Ptree Form Solve FSpec
  Automaton AutProofs AutProofs2 Synth SynthSpec ReadState Nonbool AutIO Lasso Hotswap HotSpec HotProofs HotForm HotSem
  Interactive InteractSpec InteractProofs AddMerge AddSem Patch PatchMerge PatchSpec PatchSem.
Import ListNotations.
Open Scope nat_scope.

(** ** The rules after changes *)
Section Rules.
  Variable F : fspec.
  Let after l r := fold_left (fun r c => edit F c r) l r.
  Lemma after_sys : forall l r s s', forallb is_change l = true -> may_sys r s s' = true ->
    (forall c, In c l -> c <> RestrictSys s s' /\ c <> BlockSys (out_of F s')) -> may_sys (after l r) s s' = true.
  Proof.
    induction l as [|c l IH]; intros r s s' Hc Hr Hl; cbn; auto. cbn in Hc. apply andb_true_iff in Hc. destruct Hc as (Hc & Hcs).
    apply IH; auto; [|intros d Hd; apply Hl; right; auto]. destruct (Hl c (or_introl eq_refl)) as (H1 & H2).
    destruct c as [| | | | |s0 e0|s0 s1|s0 e0|s0 s1| |y| | |]; try discriminate; cbn; auto.
    - rewrite Hr. cbn. apply negb_true_iff. destruct (vec_eqb s s0) eqn:E0; auto. destruct (vec_eqb s' s1) eqn:E1; auto.
      apply vec_eqb_iff in E0, E1. subst. congruence.
    - rewrite Hr. auto.
    - rewrite Hr. cbn. apply negb_true_iff. destruct (vec_eqb (out_of F s') y) eqn:E0; auto.
      apply vec_eqb_iff in E0. subst. congruence.
  Qed.
  Lemma after_env : forall l r s e, forallb is_change l = true -> may_env (after l r) s e = true ->
    may_env r s e = true \/ In (RelaxEnv s e) l.
  Proof.
    induction l as [|c l IH]; intros r s e Hc Hr; cbn in Hr |- *; auto. cbn in Hc. apply andb_true_iff in Hc. destruct Hc as (Hc & Hcs).
    apply IH in Hr; auto. destruct Hr as [Hr|Hr]; auto.
    destruct c as [| | | | |s0 e0|s0 s1|s0 e0|s0 s1| |y| | |]; try discriminate; cbn in Hr; auto.
    - apply andb_true_iff in Hr. tauto.
    - apply orb_true_iff in Hr. destruct Hr as [Hr|Hr]; auto. apply andb_true_iff in Hr. destruct Hr as (E0 & E1).
      apply vec_eqb_iff in E0, E1. subst. auto.
  Qed.
End Rules.

(** ** Before *)
Section Init.
  Variables (F : fspec) (N : list vec) (l : list command) (A : aut).
  Let k := length (fs_sgoals F).
  Let n := length (fs_evars F) + length (fs_svars F).
  Let r := changed F l.
  Hypothesis HN : Forall (fun v => length v = n) N.
  Hypothesis Hlen : forall s, In s (fs_states F) -> length s = n.
  Hypothesis Hco : correct F A.
  Hypothesis Hord : in_order F A.
  Hypothesis Hp : patchable F N l A.
  Hypothesis Hch : forallb is_change l = true.
  Hypothesis Hre : fs_evars F = [] -> forall s e, ~ In (RelaxEnv s e) l.
  Variable aff : list (Z * nat).
  Hypothesis Haff : forall x, In x A -> (In (amode x, aid x) aff <-> unfit F A l x).
  Hypothesis Haff1 : forall h a, In (h, a) aff -> exists x, In x A /\ aid x = a /\ amode x = h /\ inN N (astate x) = true.
  Lemma hit_broken : forall h, hit aff h <-> broken F A l h.
  Proof.
    intros h. split.
    - intros (a & Ha). destruct (Haff1 h a Ha) as (x & Hx & <- & <- & _). exists x. split; auto. split; auto. apply Haff; auto.
    - intros (x & Hx & <- & Hu). exists (aid x). apply Haff; auto.
  Qed.
  Lemma in_N : forall x, In x A -> (inN N (astate x) = true <-> In (astate x) N).
  Proof. intros x Hx. apply (inN_iff n); auto. apply Hlen. apply (co_states _ _ Hco). auto. Qed.
  Theorem inv_first : inv F r N aff A 0 A.
  Proof.
    constructor.
    - apply Hco.
    - intros x t Hx Ht. destruct (co_closed _ _ Hco x t Hx Ht) as (y & Hy & <-). apply in_ids. auto.
    - apply Hco.
    - auto.
    - intros p j Hj Hpp Hne Heg _ Hno.
      assert (Hg : In (nth j (fs_sgoals F) FTrue) (fs_sgoals F)) by (apply nth_In; auto).
      destruct (co_live _ _ Hco p Hpp) with (g := nth j (fs_sgoals F) FTrue) (t := 0) as (t & _ & Et); auto.
      + intros He t. specialize (Hne He t). apply after_env in Hne; auto. destruct Hne as [K|K]; auto. destruct (Hre He _ _ K).
      + specialize (Hno t). unfold sgoal in Hno. rewrite Hno in Et. discriminate.
    - intros x Hx Ha. assert (Hu : ~ unfit F A l x).
      { intros K. apply Ha. split; [apply Haff; auto|]. pose proof (proj1 Hord x Hx). lia. }
      split.
      + intros y Hy Ht. destruct (co_safe _ _ Hco x y Hx Hy Ht) as (S1 & S2). split; auto.
        apply after_sys; auto. intros c Hc. split; intros ->; apply Hu; eexists; (split; [exact Hc|]); cbn; eauto.
      + intros e (He & Hm). cbn in He, Hm. apply after_env in Hm; auto. destruct Hm as [K|K].
        { apply (co_answer _ _ Hco x e); auto. split; auto. }
        destruct (existsb (fun y => memb (aid y) (atrans x) && vec_eqb (g_env (game_of F) (astate y)) e) A) eqn:E.
        * apply existsb_exists in E. destruct E as (y & Hy & E). apply andb_true_iff in E. destruct E as (E1 & E2).
          apply memb_In in E1. apply vec_eqb_iff in E2. exists y. auto.
        * exfalso. apply Hu. exists (RelaxEnv (astate x) e). split; auto. cbn. split; auto. intros y Hy Ht Ee.
          assert (K1 : existsb (fun y => memb (aid y) (atrans x) && vec_eqb (g_env (game_of F) (astate y)) e) A = true); [|congruence].
          apply existsb_exists. exists y. split; auto. apply andb_true_iff. split; [apply memb_In; auto|apply vec_eqb_iff; auto].
    - intros h a Ha _. auto.
    - intros x y Hx Hy _. apply (pt_unique _ _ _ _ Hp); auto.
    - intros x Hx _. apply (pt_rgrad _ _ _ _ Hp); auto.
    - intros x y Hx Hy _ Ht Em. destruct (pt_down _ _ _ _ Hp x y Hx Hy Ht Em) as [K|(K1 & K2)]; auto. right. split.
      + intros j Hj. apply K1. apply nth_In. auto.
      + rewrite !in_N by auto. auto.
    - intros x y Hx Hy Ht Em _ HyN Hh. apply in_N in HyN; auto. apply hit_broken in Hh.
      destruct (pt_entered _ _ _ _ Hp x y Hx Hy Ht Em HyN Hh) as (z & Hz & E1 & E2 & E3). exists z. split; auto. split; auto. split; auto.
      destruct (inN N (astate z)) eqn:E; auto. exfalso. apply E2. apply in_N; auto.
    - intros z Hz Hi. exists z. auto.
    - intros x Hx Hi _. exists x. auto.
  Qed.
End Init.

(** ** After *)
(** what never grows does not change for ever *)
Lemma settles : forall (f : nat -> nat), (forall t, f (S t) <= f t) -> ((exists t, forall u, t <= u -> f u = f t) -> False) -> False.
Proof.
  intros f Hf H. assert (Hm : forall t u, t <= u -> f u <= f t).
  { intros t u Hu. induction Hu as [|u Hu IH]; auto. specialize (Hf u). lia. }
  assert (K : forall v t, f t <= v -> False).
  { induction v as [|v IH]; intros t Ht.
    - apply H. exists t. intros u Hu. pose proof (Hm t u Hu). lia.
    - apply (leave (fun u => f u =? f t) t).
      + intros E. apply H. exists t. intros u Hu. apply Nat.eqb_eq. auto.
      + intros (u & Hu & _ & E). apply Nat.eqb_neq in E. pose proof (Hm t u Hu). apply (IH u). lia. }
  apply (K (f 0) 0). auto.
Qed.
Section Final.
  Variables (F : fspec) (r : rules) (N : list vec) (aff : list (Z * nat)) (A0 B : aut).
  Let k := length (fs_sgoals F).
  Hypothesis Hk : 0 < k.
  Hypothesis Hinv : inv F r N aff A0 (Z.of_nat k) B.
  Hypothesis Hmv : env_moves_in F r.
  Lemma fin_ok : forall x, In x B -> node_ok F r B x.
  Proof.
    intros x Hx. apply (iv_sound _ _ _ _ _ _ _ Hinv); auto. intros (_ & K). pose proof (proj1 (iv_order _ _ _ _ _ _ _ Hinv) x Hx).
    fold k in H. lia.
  Qed.
  Lemma step_gap : forall x y j, In x B -> In y B -> In (aid y) (atrans x) -> j < k -> sgoal F j (astate y) = false ->
    gap k (Z.to_nat (amode y)) j <= gap k (Z.to_nat (amode x)) j /\
    (gap k (Z.to_nat (amode y)) j = gap k (Z.to_nat (amode x)) j -> amode y = amode x).
  Proof.
    intros x y j Hx Hy Ht Hj Hno. destruct (proj2 (iv_order _ _ _ _ _ _ _ Hinv) x y Hx Hy Ht) as (i & c & Hi & Ei & Ey & Hg).
    fold k in Hi, Ey, Hg. rewrite Ei, Ey, !Nat2Z.id. pose proof (gap_spec k Hk i j Hi Hj) as Hs.
    assert (Hc : c <= gap k i j).
    { destruct (le_lt_dec c (gap k i j)) as [|K]; auto. specialize (Hg _ K). rewrite Hs in Hg. congruence. }
    pose proof (gap_lt k Hk i j) as Hl.
    assert (He : (i + c) mod k = if i + c <? k then i + c else i + c - k).
    { destruct (Nat.ltb_spec (i + c) k); [apply Nat.mod_small; auto|].
      replace (i + c) with ((i + c - k) + 1 * k) at 1 by lia. rewrite Nat.mod_add by lia. apply Nat.mod_small. lia. }
    assert (He' : (i + c) mod k < k) by (apply Nat.mod_upper_bound; lia).
    rewrite !(gap_val k Hk) in * by auto. rewrite He in *.
    destruct (Nat.ltb_spec (i + c) k); destruct (Nat.leb_spec i j).
    - replace (i + c <=? j) with true by (symmetry; apply Nat.leb_le; lia). split; [lia|]. intros E. f_equal. lia.
    - destruct (Nat.leb_spec (i + c) j); [lia|]. split; [lia|]. intros E. f_equal. lia.
    - lia.
    - destruct (Nat.leb_spec (i + c - k) j); [|lia]. split; [lia|]. intros E. f_equal. lia.
  Qed.
  Lemma fin_live : forall (p : nat -> anode) j, j < k ->
    (forall t, In (p t) B /\ In (aid (p (S t))) (atrans (p t))) ->
    (fs_evars F = [] -> forall t, may_env r (astate (p t)) [] = true) ->
    (forall g, In g (fs_egoals F) -> infinitely_often (holds F g) (fun t => astate (p t))) ->
    (forall t, sgoal F j (astate (p t)) = false) -> False.
  Proof.
    intros p j Hj Hp Hne Heg Hno. set (f := fun t => gap k (Z.to_nat (amode (p t))) j).
    assert (Hst : forall t, f (S t) <= f t /\ (f (S t) = f t -> amode (p (S t)) = amode (p t))).
    { intros t. apply step_gap; auto; apply Hp. }
    apply (settles f); [intros t; apply Hst|]. intros (t & Ht).
    assert (Hm : forall u, amode (p (t + u)) = amode (p t)).
    { induction u as [|u IH]; [f_equal; f_equal; lia|]. replace (t + S u) with (S (t + u)) by lia.
      rewrite (proj2 (Hst (t + u))); auto. rewrite (Ht (S (t + u))), (Ht (t + u)) by lia. auto. }
    apply (iv_lively _ _ _ _ _ _ _ Hinv (fun u => p (t + u)) j); auto.
    - intros u. replace (t + S u) with (S (t + u)) by lia. apply Hp.
    - intros g Hg u. destruct (Heg g Hg (t + u)) as (v & Hv & Ev). exists (v - t). split; [lia|].
      replace (t + (v - t)) with v by lia. auto.
    - intros u. rewrite !Hm. auto.
  Qed.
  Theorem fin_serves : serves F r B.
  Proof.
    constructor.
    - apply Hinv.
    - intros x t Hx Ht. apply ids_in. apply (iv_closed _ _ _ _ _ _ _ Hinv x); auto.
    - apply Hinv.
    - intros x y Hx Hy Ht. destruct (fin_ok x Hx) as (K & _). apply (K y Hy Ht).
    - intros x e Hx He. destruct (fin_ok x Hx) as (_ & K). auto.
    - intros p Hp Hne Heg f Hf t0. apply (In_nth _ _ FTrue) in Hf. destruct Hf as (j & Hj & <-).
      destruct (lasso B (fun y z => In (aid z) (atrans y))
        (map (holds F) (fs_egoals F))
        (fun y => sgoal F j (astate y) = false /\ (fs_evars F = [] -> may_env r (astate y) [] = true)))
        with (q := fun u => p (t0 + u)) (hit := fun u => sgoal F j (astate (p (t0 + u)))) as (u & Hu).
      + intros q Hq Hqe. apply (fin_live q j); auto.
        * intros t. destruct (Hq t) as (H1 & H2 & _). auto.
        * intros He t. apply (Hq t). auto.
        * intros h Hh. apply Hqe. apply in_map. auto.
        * intros t. apply (Hq t).
      + intros u Hu. replace (t0 + S u) with (S (t0 + u)) by lia. destruct (Hp (t0 + u)) as (H1 & H2).
        split; [exact H1|]. split; [exact H2|]. split; [apply (Hu u); auto|]. intros He. apply (Hne He).
      + intros h Hh. apply in_map_iff in Hh. destruct Hh as (h' & <- & Hh).
        intros v. destruct (Heg h' Hh (t0 + v)) as (v' & Hv & Ev). exists (v' - t0). split; [lia|].
        replace (t0 + (v' - t0)) with v' by lia. auto.
      + exists (t0 + u). split; auto. lia.
  Qed.
  Theorem fin_prune : aut_prune_deadends B = Ok B.
  Proof.
    destruct (prune_deadends_exact B) as (keep & E & Hkeep); [apply Hinv|apply Hinv|]. rewrite E. f_equal.
    apply restrict_all; [apply Hinv|]. intros a Ha. apply Hkeep; auto. apply alive_path; auto; [apply Hinv|].
    intros x Hx Et. destruct (Hmv (astate x)) as (e & He); [apply (iv_states _ _ _ _ _ _ _ Hinv); auto|].
    destruct (fin_ok x Hx) as (_ & K). destruct (K e He) as (y & _ & Ht & _). rewrite Et in Ht. destruct Ht.
  Qed.
End Final.
