(** The strategy add_metric_sysgoal puts together is a strategy for all goals. *)
From Coq Require Import List ZArith Lia Bool Arith.
From Verif Require Import Base Game Bdd Support SupportProofs Ops Strs Ptree Form Solve FSpec Automaton AutProofs Synth SynthSpec
  Reach ReachSpec ReachProofs Nonbool AutIO Lasso Hotswap HotSpec HotProofs HotForm HotSem Metric AddGoal AddSpec AddMerge AddView.
Import ListNotations.
Open Scope nat_scope.

(** ** Passing goals *)
Section Pass.
  Variable k : nat.
  Hypothesis Hk : 0 < k.
  Lemma gap_val : forall i j, i < k -> j < k -> gap k i j = if i <=? j then j - i else j + k - i.
  Proof.
    intros i j Hi Hj. unfold gap. destruct (Nat.leb_spec i j).
    - replace (j + (k - i)) with ((j - i) + 1 * k) by lia. rewrite Nat.mod_add by lia. apply Nat.mod_small. lia.
    - rewrite Nat.mod_small by lia. lia.
  Qed.
  Lemma passes_gap : forall m i j, m < k -> i < k -> j < k ->
    passes (Z.of_nat m) (Z.of_nat i) (Z.of_nat j) = true <-> gap k i m < gap k i j.
  Proof.
    intros m i j Hm Hi Hj. rewrite !gap_val by auto. unfold passes.
    rewrite orb_true_iff, !andb_true_iff, orb_true_iff, !Z.ltb_lt, !Z.leb_le.
    destruct (Nat.leb_spec i m); destruct (Nat.leb_spec i j); lia.
  Qed.
  (** from [i] by [j] to [m] *)
  Lemma gap_add : forall i j m, i < k -> j < k -> m < k -> gap k i j <= gap k i m -> gap k i m = gap k i j + gap k j m.
  Proof.
    intros i j m Hi Hj Hm. rewrite !gap_val by auto.
    destruct (Nat.leb_spec i m); destruct (Nat.leb_spec i j); destruct (Nat.leb_spec j m); lia.
  Qed.
  Lemma gap_self : forall i, i < k -> gap k i i = 0.
  Proof. intros i Hi. rewrite gap_val by auto. rewrite Nat.leb_refl. lia. Qed.
  Lemma gap_zero : forall i j, i < k -> j < k -> gap k i j = 0 -> i = j.
  Proof. intros i j Hi Hj. rewrite gap_val by auto. destruct (Nat.leb_spec i j); lia. Qed.
End Pass.

(** ** Leaving and coming back *)
Lemma leave : forall (P : nat -> bool) t, ((forall u, t <= u -> P u = true) -> False) ->
  ((exists u, t <= u /\ (forall v, t <= v -> v < u -> P v = true) /\ P u = false) -> False) -> False.
Proof.
  intros P t H1 H2. apply H1. assert (H : forall d, forall v, t <= v -> v < t + d -> P v = true).
  { induction d as [|d IH]; intros v Hv Hd; [lia|]. destruct (Nat.eq_dec v (t + d)) as [->|]; [|apply IH; lia].
    destruct (P (t + d)) eqn:E; auto. exfalso. apply H2. exists (t + d). split; [lia|]. split; auto. }
  intros u Hu. apply (H (S (u - t))); lia.
Qed.
Section Switch.
  Variable kd : nat -> nat.
  Hypothesis Hlt : forall u, kd u < 3.
  Hypothesis Hst : forall u, kd (S u) = kd u \/ kd (S u) = S (kd u) mod 3.
  Hypothesis Hnc : forall t, (forall u, t <= u -> kd u = kd t) -> False.
  Lemma switch1 : forall t, ((exists u, t <= u /\ kd u = kd t /\ kd (S u) = S (kd t) mod 3) -> False) -> False.
  Proof.
    intros t H. apply (leave (fun u => kd u =? kd t) t).
    - intros K. apply (Hnc t). intros u Hu. apply Nat.eqb_eq. auto.
    - intros (u & Hu & Hb & E). apply Nat.eqb_neq in E. destruct (Nat.eq_dec u t) as [->|Hne]; [congruence|].
      apply H. exists (u - 1). assert (E1 : kd (u - 1) = kd t) by (apply Nat.eqb_eq; apply Hb; lia).
      split; [lia|]. split; auto. replace (S (u - 1)) with u by lia. specialize (Hst (u - 1)).
      replace (S (u - 1)) with u in Hst by lia. rewrite E1 in Hst. destruct Hst; congruence.
  Qed.
  Lemma switch : forall c t, c < 3 -> ((exists u, t <= u /\ kd u = c /\ kd (S u) = S c mod 3) -> False) -> False.
  Proof.
    intros c t Hc H. apply (switch1 t). intros (u & Hu & E & E').
    destruct (Nat.eq_dec (kd t) c) as [K|K]; [apply H; exists u; split; auto; split; congruence|].
    apply (switch1 (S u)). intros (v & Hv & Ev & Ev').
    destruct (Nat.eq_dec (kd (S u)) c) as [L|L]; [apply H; exists v; split; [lia|]; split; congruence|].
    apply (switch1 (S v)). intros (w & Hw & Ew & Ew').
    apply H. exists w. split; [lia|]. assert (E3 : kd (S v) = c); [|split; congruence].
    rewrite Ev', E'. rewrite E' in L. pose proof (Hlt t). destruct (kd t) as [|[|[|?]]]; cbn in *; lia.
  Qed.
End Switch.

Section Sem.
  Variable F : fspec.
  Hypothesis Hbool : all_boolean F.
  Let k := length (fs_sgoals F).
  Variables (g : form) (i0 : nat).
  Hypothesis Hi0 : i0 < k.
  Hypothesis Hk2 : 2 <= k.
  Let i1 := after F i0.
  Variable A : aut.
  Hypothesis Hco : correct F A.
  Hypothesis Hord : in_order F A.
  Hypothesis Hpro : proceeds F A.
  Hypothesis Hap : forall x, In x A -> sgoal F i0 (astate x) = true -> sgoal F i1 (astate x) = true -> False.
  Hypothesis Hna : forall x, In x A -> holds F g (astate x) = true -> sgoal F i1 (astate x) = true -> False.
  Let Gi0 := passing (Z.of_nat i0) A.
  Let Gi1 := passing (Z.of_nat i1) A.
  Variables (g1 : list vec) (en0 en1 : vec -> bool).
  Hypothesis Hg1 : forall s, In s g1 -> exists x, In x A /\ In (aid x) Gi1 /\ astate x = s.
  Let noenv := match fs_evars F with [] => true | _ => false end.
  Variables C1 C2 H : aut.
  Hypothesis HC1 : reach_strategy (game_of F) (holds F g) en0 noenv C1.
  Hypothesis HC2 : reach_strategy (game_of F) (among g1) en1 noenv C2.
  Variables (N3 : mpairs) (rol : anode -> role).
  Let kz := Z.of_nat k.
  Hypothesis HndH : NoDup (ids H).
  Hypothesis Hok : forall z, In z H -> role_ok A C1 C2 (kz + 1) N3 Gi0 z (rol z).
  Hypothesis Hed : forall z t, In z H -> In t (atrans z) -> exists w, In w H /\ aid w = t /\ leads A C1 C2 Gi0 Gi1 (rol z) (rol w).
  Hypothesis Han : forall z u, In z H -> next_of A C1 C2 (rol z) u -> exists w, In w H /\ In (aid w) (atrans z) /\ astate w = astate u.
  Hypothesis Hen : forall z c, In z H -> rol z = R2 c -> atrans c = [] -> exists c1, In c1 C1 /\ atrans c1 = [] /\ astate c1 = astate c.

  Lemma i1_lt : i1 < k.
  Proof. unfold i1, after. fold k. apply Nat.mod_upper_bound. lia. Qed.
  Lemma i1_val : i1 = if S i0 =? k then 0 else S i0.
  Proof.
    unfold i1, after. fold k. destruct (Nat.eqb_spec (S i0) k) as [E|E]; [rewrite E; apply Nat.mod_same; lia|].
    apply Nat.mod_small. lia.
  Qed.
  (** *** The sets Gi *)
  Lemma passing_In : forall m a, In a (passing m A) <->
    exists x y, In x A /\ In y A /\ aid y = a /\ In (aid y) (atrans x) /\ passes m (amode x) (amode y) = true.
  Proof.
    intros m a. unfold passing. rewrite in_map_iff. split.
    - intros (y & E & Hy). apply filter_In in Hy. destruct Hy as (Hy & He). apply existsb_exists in He.
      destruct He as (x & Hx & He). apply andb_true_iff in He. destruct He as (H1 & H2). apply memb_In in H1. eauto 10.
    - intros (x & y & Hx & Hy & E & Ht & Hp). exists y. split; auto. apply filter_In. split; auto.
      apply existsb_exists. exists x. split; auto. apply andb_true_iff. split; auto. apply memb_In. auto.
  Qed.
  Lemma mode_nat : forall x, In x A -> exists i, i < k /\ amode x = Z.of_nat i.
  Proof. intros x Hx. pose proof (proj1 Hord x Hx) as K. fold k in K. exists (Z.to_nat (amode x)). lia. Qed.
  (** a transition that passes the goals from [i] on, up to [e] *)
  Lemma step_goals : forall x y, In x A -> In y A -> In (aid y) (atrans x) -> exists i e, i < k /\ e < k /\
    amode x = Z.of_nat i /\ amode y = Z.of_nat e /\
    (forall m, m < k -> gap k i m < gap k i e -> sgoal F m (astate y) = true).
  Proof.
    intros x y Hx Hy Ht. destruct (proj2 Hord x y Hx Hy Ht) as (i & c & Hi & Ei & Ev & Hg). fold k in Hi, Ev, Hg.
    exists i, ((i + c) mod k). split; auto. split; [apply Nat.mod_upper_bound; lia|]. split; auto. split; auto.
    intros m Hm Hl. pose proof (gap_le k ltac:(lia) i c Hi) as Hle. rewrite <- (gap_spec k ltac:(lia) i m Hi Hm). apply Hg. lia.
  Qed.
  Lemma passing_goal : forall m y, m < k -> In y A -> In (aid y) (passing (Z.of_nat m) A) -> sgoal F m (astate y) = true.
  Proof.
    intros m y Hm Hy Hp. apply passing_In in Hp. destruct Hp as (x & y' & Hx & Hy' & E & Ht & Hp).
    assert (y' = y) by (apply (node_unique A); auto; apply Hco). subst y'.
    destruct (step_goals x y Hx Hy Ht) as (i & e & Hi & He & Ei & Ee & Hg). rewrite Ei, Ee in Hp.
    apply (passes_gap k) in Hp; try lia. apply Hg; auto.
  Qed.
  (** on entering the old strategy again *)
  Lemma back_goals : forall y, In y A -> In (aid y) Gi1 -> exists e, e < k /\ amode y = Z.of_nat e /\ e <> i1 /\
    forall m, m < k -> gap k i1 m < gap k i1 e -> sgoal F m (astate y) = true.
  Proof.
    intros y Hy Hp. apply passing_In in Hp. destruct Hp as (x & y' & Hx & Hy' & E & Ht & Hp). pose proof i1_lt as Hi1.
    assert (y' = y) by (apply (node_unique A); auto; apply Hco). subst y'.
    destruct (step_goals x y Hx Hy Ht) as (i & e & Hi & He & Ei & Ee & Hg). rewrite Ei, Ee in Hp.
    apply (passes_gap k) in Hp; try lia. exists e. split; auto. split; auto. split; [intros ->; lia|].
    intros m Hm Hl. apply Hg; auto. pose proof (gap_add k ltac:(lia) i i1 e Hi Hi1 He ltac:(lia)) as E1.
    destruct (le_lt_dec (gap k i i1) (gap k i m)) as [K|K]; [|lia].
    pose proof (gap_add k ltac:(lia) i i1 m Hi Hi1 Hm K). lia.
  Qed.
  (** the nodes of Gi[0] seek goal i1 *)
  Lemma entry_mode : forall y, In y A -> In (aid y) Gi0 -> amode y = Z.of_nat i1.
  Proof.
    intros y Hy Hp. apply passing_In in Hp. destruct Hp as (x & y' & Hx & Hy' & E & Ht & Hp). pose proof i1_lt as Hi1.
    assert (y' = y) by (apply (node_unique A); auto; apply Hco). subst y'.
    destruct (step_goals x y Hx Hy Ht) as (i & e & Hi & He & Ei & Ee & Hg). rewrite Ei, Ee in Hp.
    apply (passes_gap k) in Hp; try lia. destruct (Nat.eq_dec e i1) as [->|Hd]; auto. exfalso.
    apply (Hap y); [auto|apply Hg; auto|apply Hg; auto].
    pose proof i1_val as V. clear - Hi1 Hi0 Hi He Hd Hp Hk2 V. rewrite !gap_val in * by lia.
    destruct (Nat.leb_spec i i1); destruct (Nat.leb_spec i i0); destruct (Nat.leb_spec i e);
      destruct (Nat.eqb_spec (S i0) k); lia.
  Qed.
  Lemma stay_behind : forall m e j, m < k -> e < k -> j < k -> m <> i1 -> gap k i1 m <= gap k i1 j ->
    gap k m e <= gap k m i0 -> gap k m e <= gap k m j -> e <> i1 /\ gap k i1 e <= gap k i1 j.
  Proof.
    intros m e j Hm He Hj Hmi H1 H2 H3. pose proof i1_lt as Hi1. pose proof i1_val as V.
    clear - Hm He Hj Hmi H1 H2 H3 Hi1 V Hi0 Hk2. rewrite !gap_val in * by lia.
    destruct (Nat.leb_spec i1 m); destruct (Nat.leb_spec i1 j); destruct (Nat.leb_spec m e); destruct (Nat.leb_spec m i0);
      destruct (Nat.leb_spec m j); destruct (Nat.leb_spec i1 e); destruct (Nat.eqb_spec (S i0) k); lia.
  Qed.
  Lemma round_up : forall m j, m < k -> j < k -> m <> i1 -> gap k i1 m <= gap k i1 j -> gap k m j < gap k m i1.
  Proof.
    intros m j Hm Hj Hmi H1. pose proof i1_lt as Hi1. rewrite !gap_val in * by lia.
    destruct (Nat.leb_spec i1 m); destruct (Nat.leb_spec i1 j); destruct (Nat.leb_spec m j); destruct (Nat.leb_spec m i1); lia.
  Qed.
  Lemma edge_role : forall z w, In z H -> In w H -> In (aid w) (atrans z) -> leads A C1 C2 Gi0 Gi1 (rol z) (rol w).
  Proof.
    intros z w Hz Hw Ht. destruct (Hed z _ Hz Ht) as (w' & Hw' & E & Hl).
    assert (w' = w) by (apply (node_unique H); auto). subst w'. auto.
  Qed.
  Lemma noenv_false : fs_evars F <> [] -> noenv = false.
  Proof. unfold noenv. destruct (fs_evars F); congruence. Qed.

  Lemma env_in : forall s, In s (fs_states F) -> In (g_env (game_of F) s) (fs_envs F).
  Proof.
    intros s Hs. apply (SynthSpec.st_bits F Hbool) in Hs. apply (SynthSpec.en_bits F Hbool). cbn [g_env game_of].
    destruct Hs as (Hl & Hb). split; [rewrite firstn_length; lia|]. rewrite Forall_forall in *. intros b Hi. apply Hb.
    rewrite <- (firstn_skipn (length (fs_evars F)) s). apply in_or_app. auto.
  Qed.
  Lemma H_states : forall z, In z H -> In (astate z) (fs_states F).
  Proof.
    intros z Hz. pose proof (Hok z Hz) as K. destruct (rol z); destruct K as (K1 & _ & -> & _).
    - apply (co_states _ _ Hco). auto.
    - apply (rs_states _ _ _ _ _ HC1). auto.
    - apply (rs_states _ _ _ _ _ HC2). auto.
  Qed.
  Lemma H_safe : forall z w, In z H -> In w H -> In (aid w) (atrans z) ->
    g_str (game_of F) (astate z) (astate w) = true /\
    (fs_evars F <> [] -> g_etr (game_of F) (astate z) (g_env (game_of F) (astate w)) = true).
  Proof.
    intros z w Hz Hw Ht. pose proof (edge_role z w Hz Hw Ht) as Hl. pose proof (Hok z Hz) as Kz. pose proof (Hok w Hw) as Kw.
    destruct (rol z) as [x|c|c]; destruct (rol w) as [u|d|d]; cbn in Hl; try (destruct Hl; fail);
      destruct Kz as (Kz1 & _ & -> & _); destruct Kw as (Kw1 & _ & -> & _).
    - apply (co_safe _ _ Hco); auto.
    - destruct Hl as (y & Hy & _ & Hty & <-). apply (co_safe _ _ Hco); auto.
    - destruct (rs_safe _ _ _ _ _ HC1 c d Kz1 Kw1 Hl) as (_ & H1 & H2). split; auto. intros He. apply (H2 (noenv_false He)).
    - destruct Hl as (c' & Hc' & Hct & _ & <-). destruct (rs_safe _ _ _ _ _ HC1 c c' Kz1 Hc' Hct) as (_ & H1 & H2). split; auto.
      intros He. apply (H2 (noenv_false He)).
    - destruct Hl as (_ & c' & Hc' & Hct & <-). destruct (rs_safe _ _ _ _ _ HC2 c c' Kz1 Hc' Hct) as (_ & H1 & H2). split; auto.
      intros He. apply (H2 (noenv_false He)).
    - destruct (rs_safe _ _ _ _ _ HC2 c d Kz1 Kw1 Hl) as (_ & H1 & H2). split; auto. intros He. apply (H2 (noenv_false He)).
  Qed.
  Lemma not_target1 : forall c, In c C1 -> atrans c <> [] -> holds F g (astate c) = false.
  Proof.
    intros c Hc Ht. destruct (atrans c) as [|t l] eqn:Et; [congruence|]. assert (Hi : In t (atrans c)) by (rewrite Et; left; auto).
    destruct (rs_closed _ _ _ _ _ HC1 c t Hc Hi) as (d & Hd & <-). apply (rs_safe _ _ _ _ _ HC1 c d Hc Hd Hi).
  Qed.
  Lemma not_target2 : forall c, In c C2 -> atrans c <> [] -> among g1 (astate c) = false.
  Proof.
    intros c Hc Ht. destruct (atrans c) as [|t l] eqn:Et; [congruence|]. assert (Hi : In t (atrans c)) by (rewrite Et; left; auto).
    destruct (rs_closed _ _ _ _ _ HC2 c t Hc Hi) as (d & Hd & <-). apply (rs_safe _ _ _ _ _ HC2 c d Hc Hd Hi).
  Qed.
  Lemma H_answer : forall z e, In z H -> legal_env (game_of F) (astate z) e ->
    exists w, In w H /\ In (aid w) (atrans z) /\ g_env (game_of F) (astate w) = e.
  Proof.
    intros z e Hz He. pose proof (Hok z Hz) as K.
    assert (Hgo : forall u, next_of A C1 C2 (rol z) u -> g_env (game_of F) (astate u) = e ->
      exists w, In w H /\ In (aid w) (atrans z) /\ g_env (game_of F) (astate w) = e).
    { intros u Hu E. destruct (Han z u Hz Hu) as (w & Hw & Ht & Es). exists w. rewrite Es. auto. }
    destruct (rol z) as [x|c|c] eqn:Er; destruct K as (K1 & K2 & K3 & _); rewrite K3 in He.
    - destruct (co_answer _ _ Hco x e K1 He) as (u & Hu & Ht & E). apply (Hgo u); auto. cbn. auto.
    - destruct (rs_answer _ _ _ _ _ HC1 c e K1 (not_target1 c K1 K2) He) as (u & Hu & Ht & E & _). apply (Hgo u); auto. cbn. auto.
    - destruct (atrans c) as [|t l] eqn:Et.
      + exfalso. destruct (Hen z c Hz Er Et) as (c1 & Hc1 & Et1 & Es1).
        assert (H2 : among g1 (astate c) = true).
        { destruct (rs_end _ _ _ _ _ HC2 c K1 Et) as [L|L]; auto. exfalso. apply (L e). auto. }
        assert (H1 : holds F g (astate c) = true).
        { rewrite <- Es1 in He |- *. destruct (rs_end _ _ _ _ _ HC1 c1 Hc1 Et1) as [L|L]; auto. exfalso. apply (L e). auto. }
        apply among_In in H2. destruct (Hg1 _ H2) as (y & Hy & Hi & Ey).
        apply (Hna y); auto; [rewrite Ey; auto|]. apply passing_goal; auto. apply i1_lt.
      + assert (Hn : among g1 (astate c) = false) by (apply not_target2; auto; rewrite Et; discriminate).
        destruct (rs_answer _ _ _ _ _ HC2 c e K1 Hn He) as (u & Hu & Ht & E & _). apply (Hgo u); auto. cbn. auto.
  Qed.
  (** *** Runs *)
  Definition kind (r : role) : nat := match r with RA _ => 0 | R1 _ => 1 | R2 _ => 2 end.
  Section Live.
    Variable p : nat -> anode.
    Hypothesis Hp : forall t, In (p t) H /\ In (aid (p (S t))) (atrans (p t)).
    Hypothesis Hne : fs_evars F = [] -> forall t, g_etr (game_of F) (astate (p t)) [] = true.
    Hypothesis Heg : forall f, In f (fs_egoals F) -> infinitely_often (holds F f) (fun t => astate (p t)).
    Let kd t := kind (rol (p t)).
    Lemma r_leads : forall t, leads A C1 C2 Gi0 Gi1 (rol (p t)) (rol (p (S t))).
    Proof. intros t. apply edge_role; try apply Hp. Qed.
    Lemma kd_lt : forall t, kd t < 3.
    Proof. intros t. unfold kd. destruct (rol (p t)); cbn; lia. Qed.
    Lemma kd_step : forall t, kd (S t) = kd t \/ kd (S t) = S (kd t) mod 3.
    Proof.
      intros t. pose proof (r_leads t) as K. unfold kd. destruct (rol (p t)); destruct (rol (p (S t))); cbn in K |- *; tauto.
    Qed.
    Lemma suffix : forall t f, infinitely_often f (fun u => astate (p u)) -> infinitely_often f (fun u => astate (p (t + u))).
    Proof.
      intros t f K u. destruct (K (t + u)) as (u' & Hu & E). exists (u' - t). split; [lia|].
      replace (t + (u' - t)) with u' by lia. auto.
    Qed.
    Definition core (r : role) : anode := match r with RA x => x | R1 c => c | R2 c => c end.
    Lemma core_state : forall t, astate (core (rol (p t))) = astate (p t).
    Proof. intros t. pose proof (Hok (p t) (proj1 (Hp t))) as K. destruct (rol (p t)); cbn; symmetry; apply K. Qed.
    Lemma env_ok : forall t, noenv = true -> g_etr (game_of F) (astate (p t)) (g_env (game_of F) (astate (p t))) = true.
    Proof.
      intros t E. assert (Ee : fs_evars F = []) by (unfold noenv in E; destruct (fs_evars F); [auto|discriminate]).
      cbn [g_env game_of]. rewrite Ee. cbn [length firstn]. apply Hne. auto.
    Qed.
    Lemma io_core : forall t h, In h (g_egoals (game_of F)) -> infinitely_often h (fun u => astate (core (rol (p (t + u))))).
    Proof.
      intros t h Hh. cbn in Hh. apply in_map_iff in Hh. destruct Hh as (f & <- & Hf).
      pose proof (suffix t _ (Heg f Hf)) as K. intros u. destruct (K u) as (u' & Hu & E1).
      exists u'. split; auto. rewrite core_state. auto.
    Qed.
    (** the components are left *)
    Lemma leave1 : forall t, (forall u, t <= u -> kd u = 1) -> False.
    Proof.
      intros t Hc. set (q := fun u => core (rol (p (t + u)))).
      assert (Hq : forall u, In (q u) C1 /\ In (aid (q (S u))) (atrans (q u))).
      { intros u. unfold q. pose proof (Hc (t + u) ltac:(lia)) as K1. pose proof (Hc (S (t + u)) ltac:(lia)) as K2.
        pose proof (r_leads (t + u)) as K. pose proof (Hok (p (t + u)) (proj1 (Hp _))) as L. unfold kd in K1, K2.
        replace (t + S u) with (S (t + u)) by lia.
        destruct (rol (p (t + u))); try discriminate. destruct (rol (p (S (t + u)))); try discriminate. cbn in *. tauto. }
      destruct (rs_live _ _ _ _ _ HC1 q) as (u & Hu).
      - auto.
      - intros He u. unfold q. rewrite core_state. apply env_ok. auto.
      - apply io_core.
      - destruct (Hq u) as (H1 & H3). destruct (Hq (S u)) as (H4 & _).
        destruct (rs_safe _ _ _ _ _ HC1 _ _ H1 H4 H3) as (K & _). congruence.
    Qed.
    Lemma leave2 : forall t, (forall u, t <= u -> kd u = 2) -> False.
    Proof.
      intros t Hc. set (q := fun u => core (rol (p (t + u)))).
      assert (Hq : forall u, In (q u) C2 /\ In (aid (q (S u))) (atrans (q u))).
      { intros u. unfold q. pose proof (Hc (t + u) ltac:(lia)) as K1. pose proof (Hc (S (t + u)) ltac:(lia)) as K2.
        pose proof (r_leads (t + u)) as K. pose proof (Hok (p (t + u)) (proj1 (Hp _))) as L. unfold kd in K1, K2.
        replace (t + S u) with (S (t + u)) by lia.
        destruct (rol (p (t + u))); try discriminate. destruct (rol (p (S (t + u)))); try discriminate. cbn in *. tauto. }
      destruct (rs_live _ _ _ _ _ HC2 q) as (u & Hu).
      - auto.
      - intros He u. unfold q. rewrite core_state. apply env_ok. auto.
      - apply io_core.
      - destruct (Hq u) as (H1 & H3). destruct (Hq (S u)) as (H4 & _).
        destruct (rs_safe _ _ _ _ _ HC2 _ _ H1 H4 H3) as (K & _). congruence.
    Qed.
    (** within the old strategy *)
    Lemma old_step : forall x u, rol x = RA u -> In x H -> forall y v, In y H -> rol y = RA v -> In (aid y) (atrans x) ->
      In u A /\ In v A /\ In (aid v) (atrans u) /\ passes (Z.of_nat i0) (amode u) (amode v) = false.
    Proof.
      intros x u Er Hx y v Hy Er' Ht. pose proof (edge_role x y Hx Hy Ht) as Hl. rewrite Er, Er' in Hl. cbn in Hl.
      pose proof (Hok x Hx) as K. rewrite Er in K. pose proof (Hok y Hy) as L. rewrite Er' in L. cbn in K, L.
      split; [apply K|]. split; [apply L|]. split; auto. destruct (passes _ _ _) eqn:Ep; auto. exfalso. apply L.
      apply passing_In. exists u, v. repeat split; try tauto.
    Qed.
    Lemma step0 : forall u, kd u = 0 -> kd (S u) = 0 -> exists x y i e, rol (p u) = RA x /\ rol (p (S u)) = RA y /\ In x A /\ In y A /\
      i < k /\ e < k /\ amode x = Z.of_nat i /\ amode y = Z.of_nat e /\ gap k i e <= gap k i i0 /\
      (forall m, m < k -> gap k i m < gap k i e -> sgoal F m (astate (p (S u))) = true).
    Proof.
      intros u H1 H2. unfold kd in H1, H2. destruct (rol (p u)) as [x| |] eqn:E1; try discriminate.
      destruct (rol (p (S u))) as [y| |] eqn:E2; try discriminate.
      destruct (old_step _ _ E1 (proj1 (Hp _)) _ _ (proj1 (Hp (S u))) E2 (proj2 (Hp u))) as (Hx & Hy & Ht & Hps).
      destruct (step_goals x y Hx Hy Ht) as (i & e & Hi & He & Ei & Ee & Hg). exists x, y, i, e. repeat (split; auto).
      - destruct (le_lt_dec (gap k i e) (gap k i i0)); auto. exfalso. rewrite Ei, Ee in Hps.
        rewrite (proj2 (passes_gap k ltac:(lia) i0 i e Hi0 Hi He)) in Hps by auto. discriminate.
      - intros m Hm Hl. pose proof (core_state (S u)) as Es. rewrite E2 in Es. cbn in Es. rewrite <- Es. auto.
    Qed.
    Lemma leave0 : forall t, (forall u, t <= u -> kd u = 0) -> False.
    Proof.
      intros t0 Hc0.
      assert (Hm : forall N t x i, t0 <= t -> rol (p t) = RA x -> i < k -> amode x = Z.of_nat i -> gap k i i0 <= N -> False).
      { induction N as [N IH] using (well_founded_induction lt_wf). intros t x i Ht Er Hi Ei Hgap.
        assert (Hc : forall u, exists y, rol (p (t + u)) = RA y /\ In y A /\ amode y = Z.of_nat i).
        { induction u as [|u (y & Ey & HyA & Em)].
          - rewrite Nat.add_0_r. exists x. split; auto. split; auto. pose proof (Hok (p t) (proj1 (Hp t))) as K. rewrite Er in K. apply K.
          - destruct (step0 (t + u)) as (y' & z & j & e & E1 & E2 & Hy' & Hz & Hj & He & Ej & Ee & Hg & _); try (apply Hc0; lia).
            rewrite Ey in E1. injection E1 as <-. rewrite Em in Ej. apply Nat2Z.inj in Ej. subst j.
            replace (t + S u) with (S (t + u)) by lia. destruct (Nat.eq_dec i e) as [->|Hd]; [eauto|]. exfalso.
            pose proof (gap_add k ltac:(lia) i e i0 Hi He Hi0 Hg) as Eg.
            assert (gap k i e <> 0) by (intros K; apply (gap_zero k ltac:(lia)) in K; auto).
            apply (IH (gap k e i0) ltac:(lia) (S (t + u)) z e); auto. lia. }
        set (q := fun u => core (rol (p (t + u)))). apply (Hpro q).
        - intros u. unfold q. destruct (Hc u) as (y & Ey & Hy & _). destruct (Hc (S u)) as (z & Ez & Hz & _). rewrite Ey, Ez. cbn. split; auto.
          pose proof (r_leads (t + u)) as K. replace (t + S u) with (S (t + u)) in Ez by lia. rewrite Ey, Ez in K. exact K.
        - intros He u. unfold q. rewrite core_state. apply Hne. auto.
        - intros f Hf. apply (io_core t (holds F f)). cbn. apply in_map. auto.
        - intros u. unfold q. destruct (Hc u) as (y & Ey & _ & Em). destruct (Hc 0) as (z & Ez & _ & Em0).
          rewrite Ey, Ez. cbn. congruence. }
      pose proof (Hc0 t0 (le_n _)) as K. unfold kd in K. destruct (rol (p t0)) as [x| |] eqn:Er; try discriminate.
      pose proof (Hok (p t0) (proj1 (Hp _))) as L. rewrite Er in L. destruct L as (L & _).
      destruct (mode_nat x L) as (i & Hi & Ei). apply (Hm (gap k i i0) t0 x i); auto.
    Qed.
    Lemma not_const : forall t, (forall u, t <= u -> kd u = kd t) -> False.
    Proof.
      intros t Hc. pose proof (kd_lt t) as K. destruct (kd t) as [|[|[|?]]] eqn:E; try lia.
      - apply (leave0 t). intros u Hu. rewrite Hc; auto.
      - apply (leave1 t). intros u Hu. rewrite Hc; auto.
      - apply (leave2 t). intros u Hu. rewrite Hc; auto.
    Qed.
    (** the new goal is met *)
    Lemma move_at : forall t, exists e, legal_env (game_of F) (astate (p t)) e.
    Proof.
      intros t. assert (Hc : fs_evars F = [] \/ fs_evars F <> []) by (clear; destruct (fs_evars F); [auto|right; discriminate]).
      destruct Hc as [Ee|Ee].
      - exists []. split; [|apply Hne; auto]. cbn [g_envs game_of]. unfold fs_envs. rewrite Ee. cbn. auto.
      - exists (g_env (game_of F) (astate (p (S t)))). split.
        + apply env_in. apply H_states. apply Hp.
        + apply (H_safe (p t) (p (S t))); try apply Hp. auto.
    Qed.
    Lemma meets_new : (forall t, holds F g (astate (p t)) = false) -> False.
    Proof.
      intros Hno. apply (switch kd kd_lt kd_step not_const 1 0); [lia|]. intros (u & _ & E1 & E2). cbn in E2.
      pose proof (r_leads u) as K. unfold kd in E1, E2. destruct (rol (p u)) as [|c|] eqn:Ec; try discriminate.
      destruct (rol (p (S u))) as [| |d] eqn:Ed; try discriminate. destruct K as (c' & Hc' & Hct & Et & Es).
      pose proof (core_state (S u)) as Ecs. rewrite Ed in Ecs. cbn in Ecs.
      destruct (rs_end _ _ _ _ _ HC1 c' Hc' Et) as [L|L].
      - rewrite Es, Ecs, Hno in L. discriminate.
      - destruct (move_at (S u)) as (e & He). apply (L e). rewrite Es, Ecs. auto.
    Qed.
    (** and so are the others *)
    Lemma meets_old : forall j, j < k -> (forall t, sgoal F j (astate (p t)) = false) -> False.
    Proof.
      intros j Hj Hno. pose proof i1_lt as Hi1. apply (switch kd kd_lt kd_step not_const 2 0); [lia|]. intros (u & _ & E1 & E2). cbn in E2.
      apply (leave (fun v => kd v =? 0) (S u)).
      - intros K. apply (leave0 (S u)). intros v Hv. apply Nat.eqb_eq. auto.
      - intros (v & Hv & Hb & Ev). apply Nat.eqb_neq in Ev.
        assert (Hinv : forall w, S u <= w -> w < v -> exists x m, rol (p w) = RA x /\ In x A /\ m < k /\ amode x = Z.of_nat m /\
          m <> i1 /\ gap k i1 m <= gap k i1 j).
        { induction w as [|w IH]; intros Hw Hlt; [lia|]. destruct (Nat.eq_dec w u) as [->|Hne'].
          - pose proof (r_leads u) as K. unfold kd in E1, E2. destruct (rol (p u)) as [| |c]; try discriminate.
            destruct (rol (p (S u))) as [x| |] eqn:Er; try discriminate. destruct K as (Hg & _).
            pose proof (Hok (p (S u)) (proj1 (Hp _))) as L. rewrite Er in L. destruct L as (L & _).
            destruct (back_goals x L Hg) as (e & He & Ee & Hne1 & Hge). exists x, e. split; auto. split; auto. split; auto. split; auto. split; auto.
            destruct (le_lt_dec (gap k i1 e) (gap k i1 j)); auto. pose proof (Hge j Hj ltac:(lia)) as Ks.
            pose proof (core_state (S u)) as Es. rewrite Er in Es. cbn in Es. rewrite Es, Hno in Ks. discriminate.
          - destruct (IH ltac:(lia) ltac:(lia)) as (x & m & Er & Hx & Hm & Em & Hmi & Hgm).
            assert (K1 : kd w = 0) by (apply Nat.eqb_eq; apply Hb; lia). assert (K2 : kd (S w) = 0) by (apply Nat.eqb_eq; apply Hb; lia).
            destruct (step0 w K1 K2) as (x' & y & i & e & Ex & Ey & _ & Hy & Hi & He & Ei & Ee & Hg & Hgo).
            rewrite Er in Ex. injection Ex as <-. rewrite Em in Ei. apply Nat2Z.inj in Ei. subst i.
            exists y, e. split; auto. split; auto. split; auto. split; auto.
            destruct (le_lt_dec (gap k m e) (gap k m j)) as [K|K]; [|pose proof (Hgo j Hj K) as L; rewrite Hno in L; discriminate].
            apply (stay_behind m e j); auto. }
        assert (Hw : S u < v) by (destruct (Nat.eq_dec (S u) v) as [Euv|]; [rewrite <- Euv in Ev; exfalso; apply Ev; exact E2|lia]).
        destruct (Hinv (v - 1) ltac:(lia) ltac:(lia)) as (x & m & Er & Hx & Hm & Em & Hmi & Hgm).
        pose proof (r_leads (v - 1)) as K. replace (S (v - 1)) with v in K by lia. rewrite Er in K. unfold kd in Ev.
        destruct (rol (p v)) as [y|c|c] eqn:Erv; try (exfalso; apply Ev; reflexivity); [|destruct K].
        destruct K as (y & Hy & Hi & Ht & Es). pose proof (core_state v) as Ecs. rewrite Erv in Ecs. cbn in Ecs.
        destruct (step_goals x y Hx Hy Ht) as (m' & e & _ & He & Em' & Ee & Hg). rewrite Em in Em'. apply Nat2Z.inj in Em'. subst m'.
        pose proof (entry_mode y Hy Hi) as Ey. rewrite Ee in Ey. apply Nat2Z.inj in Ey. subst e.
        assert (L : sgoal F j (astate y) = true) by (apply Hg; auto; apply round_up; auto).
        rewrite Es, Ecs, Hno in L. discriminate.
    Qed.
  End Live.
End Sem.
