(** The labels of the strategy add_metric_sysgoal puts together. *)
From Coq Require Import List ZArith Lia ZifyBool Bool Arith.
From Verif Require Import Base Game Bdd Support SupportProofs Ops Strs Ptree Form Solve FSpec Automaton AutProofs Synth SynthSpec
  Reach ReachSpec ReachProofs Nonbool AutIO Lasso Hotswap HotSpec HotProofs HotForm HotSem Metric AddGoal AddSpec AddMerge AddView AddSem AddEnd.
Import ListNotations.
Open Scope nat_scope.

Section Order.
  Variable F : fspec.
  Hypothesis Hbool : all_boolean F.
  Let k := length (fs_sgoals F).
  Variables (g : form) (i0 : nat).
  Hypothesis Hi0 : i0 < k.
  Hypothesis Hk2 : 2 <= k.
  Let i1 := after F i0.
  Let F' := with_goal (S i0) g F.
  Lemma new_len : length (fs_sgoals F') = S k.
  Proof.
    change (fs_sgoals F') with (firstn (S i0) (fs_sgoals F) ++ g :: skipn (S i0) (fs_sgoals F)).
    rewrite app_length, firstn_length. cbn [length]. rewrite skipn_length. fold k. lia.
  Qed.
  Lemma new_at : forall s, sgoal F' (S i0) s = holds F g s.
  Proof.
    intros s. unfold sgoal. change (holds F') with (holds F). f_equal.
    change (fs_sgoals F') with (firstn (S i0) (fs_sgoals F) ++ g :: skipn (S i0) (fs_sgoals F)).
    rewrite app_nth2; rewrite firstn_length; fold k; [|lia]. replace (S i0 - min (S i0) k) with 0 by lia. reflexivity.
  Qed.
  Lemma old_at : forall j s, j < k -> sgoal F' (moved i0 j) s = sgoal F j s.
  Proof.
    intros j s Hj. unfold sgoal. change (holds F') with (holds F). f_equal. unfold moved.
    change (fs_sgoals F') with (firstn (S i0) (fs_sgoals F) ++ g :: skipn (S i0) (fs_sgoals F)).
    rewrite <- (firstn_skipn (S i0) (fs_sgoals F)) at 3. destruct (Nat.leb_spec j i0).
    - rewrite !app_nth1; auto; rewrite firstn_length; fold k; lia.
    - rewrite !app_nth2; rewrite firstn_length; fold k; try lia. replace (S j - min (S i0) k) with (S (j - min (S i0) k)) by lia. reflexivity.
  Qed.
  Lemma moved_lt : forall j, j < k -> moved i0 j < S k /\ moved i0 j <> S i0.
  Proof. intros j Hj. unfold moved. destruct (Nat.leb_spec j i0); lia. Qed.
  Lemma moved_all : forall m, m < S k -> m <> S i0 -> exists j, j < k /\ m = moved i0 j.
  Proof.
    intros m Hm Hn. destruct (le_lt_dec m i0) as [K|K].
    - exists m. unfold moved. destruct (Nat.leb_spec m i0); lia.
    - exists (m - 1). unfold moved. destruct (Nat.leb_spec (m - 1) i0); lia.
  Qed.
  (** a step from the goal with the new number [a] to that with number [b] *)
  Definition step (a b : nat) (s : vec) : Prop := exists c, (a + c) mod S k = b /\
    forall j, j < c -> sgoal F' ((a + j) mod S k) s = true.
  Lemma step_i : forall a b s, a < S k -> b < S k ->
    (gap (S k) a (S i0) < gap (S k) a b -> holds F g s = true) ->
    (forall j, j < k -> gap (S k) a (moved i0 j) < gap (S k) a b -> sgoal F j s = true) -> step a b s.
  Proof.
    intros a b s Ha Hb H1 H2. exists (gap (S k) a b). split; [apply gap_spec; lia|]. intros j Hj.
    set (m := (a + j) mod S k). assert (Hm : m < S k) by (apply Nat.mod_upper_bound; lia).
    pose proof (gap_le (S k) ltac:(lia) a j Ha) as Hle. fold m in Hle.
    destruct (Nat.eq_dec m (S i0)) as [E|E].
    - rewrite E, new_at. apply H1. rewrite E in Hle. lia.
    - destruct (moved_all m Hm E) as (j' & Hj' & Em). rewrite Em, old_at by auto. apply H2; auto. rewrite <- Em. lia.
  Qed.
  Lemma step_same : forall a s, a < S k -> step a a s.
  Proof.
    intros a s Ha. exists 0. rewrite Nat.add_0_r, Nat.mod_small by auto. split; auto. intros j Hj. lia.
  Qed.
  Lemma i1_is : i1 = if S i0 =? k then 0 else S i0.
  Proof. exact (i1_val F i0 Hi0 Hk2). Qed.
  Lemma step_old : forall i e s, i < k -> e < k -> gap k i e <= gap k i i0 ->
    (forall m, m < k -> gap k i m < gap k i e -> sgoal F m s = true) -> step (moved i0 i) (moved i0 e) s.
  Proof.
    intros i e s Hi He Hg H. destruct (moved_lt i Hi) as (Li & _). destruct (moved_lt e He) as (Le & _). apply step_i; auto.
    - intros K. exfalso. clear H. rewrite !gap_val in * by lia. unfold moved in *.
      destruct (Nat.leb_spec i i0); destruct (Nat.leb_spec e i0); destruct (Nat.leb_spec i e);
        repeat match goal with K : context [?a <=? ?b] |- _ => destruct (Nat.leb_spec a b) end; lia.
    - intros j Hj K. apply H; auto. destruct (moved_lt j Hj) as (Lj & _). rewrite !gap_val in * by lia. unfold moved in *.
      destruct (Nat.leb_spec i i0); destruct (Nat.leb_spec e i0); destruct (Nat.leb_spec j i0); destruct (Nat.leb_spec i e);
        destruct (Nat.leb_spec i j);
        repeat match goal with K : context [?a <=? ?b] |- _ => destruct (Nat.leb_spec a b) end; lia.
  Qed.
  Lemma step_enter : forall i s, i < k -> i <> i1 ->
    (forall m, m < k -> gap k i m < gap k i i1 -> sgoal F m s = true) -> step (moved i0 i) (S i0) s.
  Proof.
    intros i s Hi Hd H. destruct (moved_lt i Hi) as (Li & _). assert (Hi1 : i1 < k) by exact (i1_lt F i0 Hi0 Hk2).
    pose proof i1_is as V. apply step_i; [auto|lia| |].
    - intros K. lia.
    - intros j Hj K. apply H; auto. destruct (moved_lt j Hj) as (Lj & _). clear H. rewrite !gap_val in * by lia. unfold moved in *.
      destruct (Nat.eqb_spec (S i0) k); destruct (Nat.leb_spec i i0); destruct (Nat.leb_spec j i0); destruct (Nat.leb_spec i i1);
        destruct (Nat.leb_spec i j);
        repeat match goal with K : context [?a <=? ?b] |- _ => destruct (Nat.leb_spec a b) end; lia.
  Qed.
  Lemma step_new : forall s, holds F g s = true -> step (S i0) (moved i0 i1) s.
  Proof.
    intros s H. assert (Hi1 : i1 < k) by exact (i1_lt F i0 Hi0 Hk2). destruct (moved_lt i1 Hi1) as (Li & _).
    pose proof i1_is as V. apply step_i; [lia|auto|auto|].
    intros j Hj K. exfalso. destruct (moved_lt j Hj) as (Lj & Lj'). rewrite !gap_val in * by lia. unfold moved in *.
    destruct (Nat.eqb_spec (S i0) k); destruct (Nat.leb_spec j i0); destruct (Nat.leb_spec i1 i0);
        repeat match goal with K : context [?a <=? ?b] |- _ => destruct (Nat.leb_spec a b) end; lia.
  Qed.
  Lemma step_back : forall e s, e < k ->
    (forall m, m < k -> gap k i1 m < gap k i1 e -> sgoal F m s = true) -> step (moved i0 i1) (moved i0 e) s.
  Proof.
    intros e s He H. assert (Hi1 : i1 < k) by exact (i1_lt F i0 Hi0 Hk2). apply step_old; auto.
    pose proof i1_is as V. rewrite !gap_val by lia. destruct (Nat.eqb_spec (S i0) k); destruct (Nat.leb_spec i1 e); destruct (Nat.leb_spec i1 i0); lia.
  Qed.

  Variable A : aut.
  Hypothesis Hco : correct F A.
  Hypothesis Hord : in_order F A.
  Hypothesis Hap : forall x, In x A -> sgoal F i0 (astate x) = true -> sgoal F i1 (astate x) = true -> False.
  Let Gi0 := passing (Z.of_nat i0) A.
  Let Gi1 := passing (Z.of_nat i1) A.
  Variables (en0 en1 : vec -> bool) (g1 : list vec).
  Let noenv := match fs_evars F with [] => true | _ => false end.
  Variables C1 C2 H : aut.
  Hypothesis HC1 : reach_strategy (game_of F) (holds F g) en0 noenv C1.
  Hypothesis Hmove : forall c, In c C1 -> exists e, legal_env (game_of F) (astate c) e.
  Variables (N3 : mpairs) (rol : anode -> role).
  Let kz := Z.of_nat k.
  Let iz := Z.of_nat i0.
  Hypothesis HndH : NoDup (ids H).
  Hypothesis Hok : forall z, In z H -> role_ok A C1 C2 (kz + 1) N3 Gi0 z (rol z).
  Hypothesis Hed : forall z t, In z H -> In t (atrans z) -> exists w, In w H /\ aid w = t /\ leads A C1 C2 Gi0 Gi1 (rol z) (rol w).
  Definition new_mode (z : anode) : Z := final_mode kz iz (istar1 kz iz) (amode z).
  Definition label (r : role) : nat :=
    match r with RA x => moved i0 (Z.to_nat (amode x)) | R1 _ => S i0 | R2 _ => moved i0 i1 end.
  Ltac splits := cbv zeta; repeat match goal with |- context [if ?b then _ else _] =>
    lazymatch b with context [if _ then _ else _] => fail | _ => destruct b eqn:? end end.
  Lemma label_ok : forall z, In z H -> new_mode z = Z.of_nat (label (rol z)) /\ label (rol z) < S k.
  Proof.
    intros z Hz. assert (Hi1 : i1 < k) by exact (i1_lt F i0 Hi0 Hk2). pose proof i1_is as V.
    pose proof (Hok z Hz) as K. unfold new_mode, final_mode, istar1. destruct (rol z) as [x|c|c]; cbn [label]; destruct K as (K1 & _ & _ & ->).
    - destruct (mode_nat F i0 Hi0 Hk2 A Hord x K1) as (i & Hi & ->). fold k in Hi. rewrite Nat2Z.id. destruct (moved_lt i Hi) as (Li & _).
      split; auto. unfold moved, kz, iz in *. destruct (Nat.leb_spec i i0); destruct (Z.eqb_spec (Z.of_nat i0) (Z.of_nat k - 1));
        splits; lia.
    - split; [|lia]. unfold kz, iz in *. destruct (Z.eqb_spec (Z.of_nat i0) (Z.of_nat k - 1));
        splits; lia.
    - destruct (moved_lt i1 Hi1) as (Li & _). split; auto. unfold moved, kz, iz in *. destruct (Nat.eqb_spec (S i0) k);
        destruct (Z.eqb_spec (Z.of_nat i0) (Z.of_nat k - 1)); destruct (Nat.leb_spec i1 i0);
        splits; lia.
  Qed.
  Lemma new_order : forall z w, In z H -> In w H -> In (aid w) (atrans z) ->
    (label (rol z) = moved i0 i1 /\ label (rol w) = S i0) \/ step (label (rol z)) (label (rol w)) (astate w).
  Proof.
    intros z w Hz Hw Ht. assert (Hi1 : i1 < k) by exact (i1_lt F i0 Hi0 Hk2).
    destruct (Hed z _ Hz Ht) as (w' & Hw' & E & Hl). assert (w' = w) by (apply (node_unique H); auto). subst w'.
    pose proof (Hok z Hz) as Kz. pose proof (Hok w Hw) as Kw.
    destruct (rol z) as [x|c|c]; destruct (rol w) as [y|d|d]; cbn in Hl; try (destruct Hl; fail);
      destruct Kz as (Kz1 & Kz2 & _ & _); destruct Kw as (Kw1 & Kw2 & -> & _); cbn [label].
    - right. destruct (step_goals F i0 Hi0 Hk2 A Hord x y Kz1 Kw1 Hl) as (i & e & Hi & He & Ei & Ee & Hg). fold k in Hi, He, Hg.
      rewrite Ei, Ee, !Nat2Z.id. apply step_old; auto. destruct (le_lt_dec (gap k i e) (gap k i i0)) as [|K]; auto. exfalso.
      apply Kw2. apply passing_In. exists x, y. repeat (split; auto). rewrite Ei, Ee. apply (passes_gap k); auto; lia.
    - destruct Hl as (y & Hy & Hg0 & Hty & <-).
      pose proof (entry_mode F i0 Hi0 Hk2 A Hco Hord Hap y Hy Hg0) as Em. fold i1 in Em.
      destruct (step_goals F i0 Hi0 Hk2 A Hord x y Kz1 Hy Hty) as (i & e & Hi & He & Ei & Ee & Hg). fold k in Hi, He, Hg.
      rewrite Em in Ee. apply Nat2Z.inj in Ee. subst e. rewrite Ei, Nat2Z.id.
      destruct (Nat.eq_dec i i1) as [->|Hd]; [left; auto|right]. apply step_enter; auto.
    - right. apply step_same. lia.
    - right. destruct Hl as (c' & Hc' & Hct & Et & <-). apply step_new.
      destruct (rs_end _ _ _ _ _ HC1 c' Hc' Et) as [L|L]; auto. exfalso.
      destruct (Hmove c' Hc') as (e & He). apply (L e He).
    - right. destruct Hl as (Hg1' & _). destruct (back_goals F i0 Hi0 Hk2 A Hco Hord y Kw1 Hg1') as (e & He & Ee & _ & Hg).
      fold k i1 in He, Hg. rewrite Ee, Nat2Z.id. apply step_back; auto.
    - right. apply step_same. apply moved_lt. auto.
  Qed.
  Theorem order_ok : forall B, (forall x, In x B -> In x H) ->
    in_order_but F' (moved i0 i1) (S i0) (map (fun x => set_mode (new_mode x) x) B).
  Proof.
    intros B HB. unfold in_order_but. rewrite new_len. split.
    - intros x Hx. apply in_map_iff in Hx. destruct Hx as (z & <- & Hz). cbn [amode set_mode].
      destruct (label_ok z (HB z Hz)) as (-> & L). lia.
    - intros x y Hx Hy Ht. apply in_map_iff in Hx. destruct Hx as (z & <- & Hz). apply in_map_iff in Hy. destruct Hy as (w & <- & Hw).
      cbn [amode set_mode aid atrans astate] in *. apply HB in Hz. apply HB in Hw.
      destruct (label_ok z Hz) as (-> & Lz). destruct (label_ok w Hw) as (-> & Lw).
      destruct (new_order z w Hz Hw Ht) as [(-> & ->)|(c & <- & Hc)]; [left; auto|right]. exists (label (rol z)), c. auto.
  Qed.
End Order.
