(** Proofs about simulations of a specification (Sim.v). *)
From Coq Require Import List ZArith Lia Bool Arith String.
From Verif Require Import Base Game GameTheory GameComplete Bdd BGame Support SupportProofs EnumProofs Ops OpsProofs SubProofs
  Strs Ptree Form Solve FSpec SolveProofs Automaton AutProofs2 Synth SynthBdd SynthProg SynthSpec Nonbool Metric MetricSpec
  MetricProofs MetricLevels Sim SimSpec SimProofs SimLoop.
Import ListNotations.
Open Scope list_scope.
Open Scope nat_scope.

Lemma set_dist_ext : forall fs (T T' : vec -> Prop) x d, (forall s, T s <-> T' s) -> set_dist fs T x d -> set_dist fs T' x d.
Proof.
  intros fs T T' x d H ((s & Hs & E) & L). split.
  - exists s. split; auto. apply H. auto.
  - intros y Hy. apply L. apply H. auto.
Qed.

Section Use.
  Variables (F : fspec) (orc : oracle) (alloc : nat -> aut -> nat).
  Hypothesis Hscope : well_scoped F.
  Hypothesis Hbool : all_boolean F.
  Hypothesis Hsg : fs_sgoals F <> [].
  Hypothesis Htools : tools_ok F orc alloc.
  Let ne := List.length (fs_evars F).
  Let ns := List.length (fs_svars F).
  Let n := ne + ns.
  Let sp := spec_of F.
  Let G := game_of F.

  (** the data of the program and what they mean *)
  Record data (fuel : nat) (et st W : dt) (eg sg : list dt) : Prop := {
    dt_bdds : spec_BDDs sp = Ok (et, st, eg, sg);
    dt_win : compute_winning_set_BDD ne ns et st fuel eg sg = Ok W;
    dt_et : no_primed_sys ne ns et;
    dt_W : Good ne ns W;
    dt_sg : Forall (Good ne ns) sg;
    dt_len : List.length sg = List.length (fs_sgoals F);
    dt_wins : forall s, bitvec n s -> (evS n W s = true <-> sys_wins G s);
    dt_mv : forall s e, bitvec n s -> (mv ne ns et s e <-> legal_env G s e);
    dt_ans : forall s e s', bitvec n s -> (ans ne ns W et st s e s' <-> answer F s e s');
    dt_goal : forall i s, i < List.length sg -> bitvec n s ->
      evS n (nth i sg (bZero (2 * n))) s = holds F (nth i (fs_sgoals F) FTrue) s;
    dt_force : forall s e, bitvec n s -> evS n W s = true -> mv ne ns et s e ->
      exists s', ans ne ns W et st s e s'
  }.
  Lemma bits_states : forall s, In s (fs_states F) <-> bitvec n s.
  Proof. intros s. rewrite states_eq by auto. apply all_vecs_spec. Qed.
  Lemma bits_envs : forall e, In e (fs_envs F) <-> bitvec ne e.
  Proof. intros e. rewrite envs_eq by auto. apply all_vecs_spec. Qed.
  Lemma data_ok : exists N, forall fuel, N <= fuel -> exists et st W eg sg, data fuel et st W eg sg.
  Proof.
    destruct (spec_BDDs_ok F Hscope Hbool) as
      (et & st & eg & sg & Hb & Hnp & Hgeg & Hgsg & _ & Hlsg & Hleg & Het & Hst & Heg & Hsgv).
    fold ne ns n in Hnp, Hgeg, Hgsg, Het, Hst, Heg, Hsgv.
    destruct (winning_set_spec F Hscope Hbool Hsg) as (N & HN). fold ne ns n in HN.
    exists N. intros fuel Hf. destruct (HN fuel Hf) as (W & HW & HGW & HWs).
    assert (Hwins : forall s, bitvec n s -> (evS n W s = true <-> sys_wins G s)).
    { intros s Hs. apply HWs. apply bits_states. auto. }
    assert (Hmv : forall s e, bitvec n s -> (mv ne ns et s e <-> legal_env G s e)).
    { intros s e Hs. unfold mv, legal_env. cbn [G game_of g_envs g_etr]. rewrite bits_envs.
      split; intros [H1 H2]; (split; [exact H1|]);
        [rewrite (Het s e (zeros ns)) in H2 by auto using bitvec_zeros; exact H2
        |rewrite (Het s e (zeros ns)) by auto using bitvec_zeros; exact H2]. }
    assert (Hans : forall s e s', bitvec n s -> (ans ne ns W et st s e s' <-> answer F s e s')).
    { intros s e s' Hs. unfold ans, answer. fold G. rewrite Hmv by auto. unfold legal_sys.
      cbn [G game_of g_states g_env g_str]. rewrite bits_states. fold ne n.
      split.
      - intros (H1 & H2 & H3 & H4 & H5). split; auto. split; [split; auto; split; auto|].
        + rewrite Hst in H4 by auto. exact H4.
        + apply Hwins; auto.
      - intros (H1 & (H2 & H3 & H4) & H5). split; auto. split; auto. split; auto. split.
        + rewrite Hst by auto. exact H4.
        + apply Hwins; auto. }
    exists et, st, W, eg, sg. constructor; auto.
    - unfold compute_winning_set in HW. rewrite Hb in HW. cbn [bind] in HW.
      rewrite num_env_eq, num_sys_eq in HW. exact HW.
    - intros i s Hi Hs.
      apply (MetricLevels.Forall2_nth' F _ _ (fun f d => forall s, bitvec n s -> evS n d s = holds F f s)
               (fs_sgoals F) sg FTrue (bZero (2 * n)) i Hsgv); [lia|exact Hs].
    - intros s e Hs Hw Hm. set (B := bgame ne ns et st eg sg).
      assert (Hlen : 0 < List.length (g_sgoals B)).
      { cbn. rewrite map_length, Hlsg. destruct (fs_sgoals F); [congruence|cbn; lia]. }
      assert (Hleg' : 0 < List.length (g_egoals B)) by (cbn; rewrite map_length; auto).
      assert (Hag : forall x, bitvec n x -> (Wset B vec_eqb x = true <-> sys_wins G x)).
      { intros x Hx. unfold G. rewrite <- (game_agree F Hbool et st eg sg Het Hst Heg Hsgv) by (apply all_vecs_spec; auto).
        apply W_exact; auto.
        - apply vec_eqb_eq.
        - apply all_vecs_spec. auto. }
      assert (HE : EX B vec_eqb (Wset B vec_eqb) s = true).
      { apply (W_EX B vec_eqb vec_eqb_eq); auto.
        - cbn. apply all_vecs_spec. auto.
        - apply Hag; auto. apply Hwins; auto. }
      destruct (proj1 (EX_spec B vec_eqb vec_eqb_eq (Wset B vec_eqb) s) HE e) as (s' & (L1 & L2 & L3) & L4).
      + destruct Hm as [H1 H2]. split; [apply all_vecs_spec; auto|exact H2].
      + cbn in L1, L2, L3. apply all_vecs_spec in L1. fold n in L1.
        exists s'. split; auto. split; auto. split; auto. split; auto. apply Hwins; auto. apply Hag; auto.
  Qed.

  Lemma reach_psteps : forall et st W eg sg fuel, data fuel et st W eg sg ->
    forall j x y, bitvec n x -> (psteps ne ns W et st j x y <-> reach_in F j x y).
  Proof.
    intros et st W eg sg fuel D. induction j; intros x y Hx; cbn [psteps reach_in]; [tauto|]. split.
    - intros (z & (e & Hz) & Hp). exists e, z. split; [apply (dt_ans _ _ _ _ _ _ D); auto|].
      apply IHj; auto. apply Hz.
    - intros (e & z & Hz & Hp). apply (dt_ans _ _ _ _ _ _ D) in Hz; auto. exists z. split; [exists e; auto|].
      apply IHj; auto. apply Hz.
  Qed.

  Lemma run_ok : exists N, forall fuel, N <= fuel ->
    forall rand txt fs horizon s0 num_it,
    get_offsets (evar_list sp) (svar_list sp) txt = Ok (Some fs) -> fields_in n fs -> (1 <= horizon)%Z ->
    In s0 (fs_states F) -> sys_wins G s0 ->
    (forall s, In s (fs_states F) -> sys_wins G s -> exists e, legal_env G s e) ->
    let h := Z.to_nat horizon in
    let k := Z.to_nat num_it in
    exists A s e a, simulate sp orc fuel rand alloc txt horizon s0 num_it = Ok (Some A) /\
      s 0 = s0 /\ is_play A k s /\
      (forall i, i < k -> legal_env G (s i) (e i)) /\
      (forall i, i <= k -> In (s i) (fs_states F) /\ sys_wins G (s i)) /\
      (forall i, i < k -> horizon_step F fs h s e a i) /\
      changes s k <= h * 2 ^ n /\
      (h = 1 -> forall i, i < k ->
        ((forall x, ~ unseen F s e i x) /\ s (S i) = s i) \/
        nearest fs (target F s i) (unseen F s e i) (s (S i))).
  Proof.
    destruct data_ok as (N & HN). exists (Nat.max N (2 ^ n)). intros fuel Hf rand txt fs horizon s0 num_it Ho Hfs Hh Hs0 Hw0 Hmv.
    destruct (HN fuel ltac:(lia)) as (et & st & W & eg & sg & D). cbn zeta.
    set (h := Z.to_nat horizon). set (k := Z.to_nat num_it).
    assert (Hh' : 1 <= h) by (unfold h; lia).
    assert (Hf' : 2 ^ (ne + ns) <= fuel) by (fold n; lia).
    destruct Htools as [Horc Hal]. fold ne ns in Horc.
    apply bits_states in Hs0.
    assert (HW0 : evS n W s0 = true) by (apply (dt_wins _ _ _ _ _ _ D); auto).
    assert (Hsg0 : sg <> []).
    { intros E. pose proof (dt_len _ _ _ _ _ _ D) as L. rewrite E in L. destruct (fs_sgoals F); [congruence|discriminate]. }
    assert (Hmoves : forall s, bitvec n s -> evS n W s = true -> exists e, mv ne ns et s e).
    { intros s Hs Hws. destruct (Hmv s) as (e & He); [apply bits_states; auto|apply (dt_wins _ _ _ _ _ _ D); auto|].
      exists e. apply (dt_mv _ _ _ _ _ _ D); auto. }
    pose proof (start_ok ne ns fuel alloc Hf' W et st sg (dt_sg _ _ _ _ _ _ D) Hsg0 h Hh' s0 Hs0 HW0 0) as Hq0.
    destruct (loop_ok ne ns orc fuel rand alloc Horc Hf' Hal W et st sg fs (dt_W _ _ _ _ _ _ D) (dt_et _ _ _ _ _ _ D)
      Hfs (dt_sg _ _ _ _ _ _ D) Hsg0 (dt_force _ _ _ _ _ _ D) h Hh' Hmoves k _ Hq0) as (f & e & a & F0 & F1 & F2 & F3).
    exists (si_play (f k)), (fun i => si_state (f i)), e, a. cbn beta.
    assert (Hb : forall i, i <= k -> bitvec n (si_state (f i))) by (intros i Hi; apply (qi_bits _ _ _ _ _ _ _ _ (F1 i Hi))).
    assert (Hgi : forall i, i < k -> si_goal (f i) < List.length sg) by (intros i Hi; apply (qi_goal _ _ _ _ _ _ _ _ (F1 i ltac:(lia)))).
    assert (Hgoal : forall i, i < k -> gidx ne ns sg (f i) = goal_at F (fun i => si_state (f i)) i).
    { induction i; intros Hi; unfold gidx; cbn [goal_at]; fold n.
      - rewrite (dt_goal _ _ _ _ _ _ D) by (auto; apply Hb; lia). rewrite (dt_len _ _ _ _ _ _ D). rewrite F0. reflexivity.
      - rewrite (dt_goal _ _ _ _ _ _ D) by (auto; apply Hb; lia). rewrite (dt_len _ _ _ _ _ _ D).
        pose proof (sl_goal _ _ _ _ _ _ _ _ _ _ _ _ _ (F2 i ltac:(lia))) as E. rewrite E, IHi by lia. reflexivity. }
    assert (Htar : forall i x, i < k -> (gset ne ns W sg (gidx ne ns sg (f i)) x <-> target F (fun i => si_state (f i)) i x)).
    { intros i x Hi. unfold gset, target. rewrite bits_states, <- Hgoal by auto. fold n G.
      pose proof (gidx_lt ne ns sg (dt_sg _ _ _ _ _ _ D) Hsg0 (f i) (Hgi i Hi)) as Hl.
      split; intros (H1 & H2 & H3); (split; [auto|]).
      - rewrite (dt_goal _ _ _ _ _ _ D) in H2 by auto. split; auto. apply (dt_wins _ _ _ _ _ _ D); auto.
      - rewrite (dt_goal _ _ _ _ _ _ D) by auto. split; auto. apply (dt_wins _ _ _ _ _ _ D); auto. }
    split.
    { unfold simulate. rewrite (dt_bdds _ _ _ _ _ _ D). cbn [bind]. unfold sp at 1 2. rewrite num_env_eq, num_sys_eq. fold ne ns.
      rewrite (dt_win _ _ _ _ _ _ D). cbn [bind]. unfold sim_rhc.
      destruct (Z.ltb_spec horizon 1) as [|_]; [lia|]. rewrite Ho. cbn [bind]. unfold sp. rewrite num_env_eq, num_sys_eq. exact F3. }
    split; [rewrite F0; auto|].
    split.
    { destruct (run_play ne ns fuel alloc Hf' Hal W et st sg fs h Hh' s0 k 0 f e a F0 F2 k (le_n _)) as (ids & Hi & Ep).
      exists ids. split; auto. }
    assert (Hst : forall j, bitvec n (si_state (f j)) -> forall e0 x, ans ne ns W et st (si_state (f j)) e0 x <-> answer F (si_state (f j)) e0 x).
    { intros j Hj e0 x. apply (dt_ans _ _ _ _ _ _ D). auto. }
    split; [intros i Hi; apply (dt_mv _ _ _ _ _ _ D); [apply Hb; lia|]; apply (sl_mv _ _ _ _ _ _ _ _ _ _ _ _ _ (F2 i Hi))|].
    split.
    { intros i Hi. split; [apply bits_states; auto|]. apply (dt_wins _ _ _ _ _ _ D); [auto|].
      apply (qi_win _ _ _ _ _ _ _ _ (F1 i Hi)). }
    split.
    { intros i Hi. unfold horizon_step.
      assert (Hwi : forall i' d x, i' <= k -> (SimSpec.within F (fun i => si_state (f i)) e i' d x <-> SimLoop.within ne ns W et st f e i' d x)).
      { intros i' d x Hi'. unfold SimSpec.within, SimLoop.within. split; intros (j & z & m' & Hj & Hz & Hm & Hr); exists j, z, m'.
        - apply (dt_ans _ _ _ _ _ _ D) in Hz; [|apply Hb; lia]. split; auto. split; auto. split; auto.
          apply (reach_psteps _ _ _ _ _ _ D); auto. apply Hz.
        - split; auto. split; [apply (dt_ans _ _ _ _ _ _ D) in Hz; auto; apply Hb; lia|]. split; auto.
          apply (reach_psteps _ _ _ _ _ _ D) in Hr; auto. apply Hz. }
      assert (Hre : forall l, l < k -> (~ reached F (fun i => si_state (f i)) l <->
                evS n (nth (si_goal (f l)) sg (bZero (2 * n))) (si_state (f l)) = false)).
      { intros l Hl. unfold reached. rewrite (dt_goal _ _ _ _ _ _ D) by (auto; apply Hb; lia).
        assert (Eg : si_goal (f l) = match l with O => 0 | S l' => goal_at F (fun i => si_state (f i)) l' end).
        { destruct l as [|l]; [rewrite F0; auto|]. pose proof (sl_goal _ _ _ _ _ _ _ _ _ _ _ _ _ (F2 l ltac:(lia))) as E.
          rewrite E. apply Hgoal. lia. }
        rewrite Eg. apply not_true_iff_false. }
      assert (HC : forall x, closer F h (fun i => si_state (f i)) e i x /\ ~ tried F (fun i => si_state (f i)) a i x <->
                cand ne ns W et st sg h f e a i x).
      { intros x. unfold cand, closer, tried. split; intros (H1 & H2); split.
        - destruct H1 as (d & Hd & H3 & H4). exists d. split; auto.
          rewrite <- (Hwi (S i)), <- (Hwi i) by lia. auto.
        - intros (j & Hj & H3 & H4 & H5). apply H2. exists j. split; auto. split; auto. split; auto.
          intros l Hl. apply Hre; [lia|]. apply H5. auto.
        - destruct H1 as (d & Hd & H3 & H4). exists d. split; auto.
          rewrite (Hwi (S i)), (Hwi i) by lia. auto.
        - intros (j & Hj & H3 & H4 & H5). apply H2. exists j. split; auto. split; auto. split; auto.
          intros l Hl. apply Hre; [lia|]. apply H5. auto. }
      destruct (run_step ne ns fuel rand alloc Hf' W et st sg fs h Hh' s0 k 0 f e a F0 F1 F2 i Hi) as [(H1 & H2 & H3)|(H1 & H2 & (j & Hj & H3) & H4)].
      - left. split; [|split; auto]. intros x Hx. apply (H1 x). apply HC. exact Hx.
      - right. split; [|split].
        + split; [apply HC; exact H1|]. intros y dx dy Hy Hx Hdy. apply (H4 y dx dy).
          * apply HC. exact Hy.
          * eapply set_dist_ext; [|exact Hx]. intros s. symmetry. apply Htar. auto.
          * eapply set_dist_ext; [|exact Hdy]. intros s. symmetry. apply Htar. auto.
        + apply (dt_ans _ _ _ _ _ _ D) in H2; auto. apply Hb. lia.
        + exists j. split; auto. apply (reach_psteps _ _ _ _ _ _ D) in H3; auto. }
    split.
    { refine (Nat.le_trans _ _ _ _ (run_moved ne ns fuel alloc Hf' W et st sg fs h Hh' k f e a F1 F2)).
      clear. induction k as [|k' IH]; cbn [changes moved]; [lia|]. apply Nat.add_le_mono_r. exact IH. }
    intros E1 i Hi. destruct (run_one ne ns fuel alloc Hf' W et st sg fs h Hh' s0 k 0 f e a F0 F1 F2 E1 i Hi) as [(H1 & H2)|(H1 & H2)].
    - left. split; auto. intros x (U1 & U2). apply (H1 x). split; [apply (dt_ans _ _ _ _ _ _ D); auto; apply Hb; lia|].
      intros j Hj Hx. apply (U2 j Hj). apply (dt_ans _ _ _ _ _ _ D) in Hx; auto. apply Hb. lia.
    - right.
      assert (HU : forall x, unseen F (fun i => si_state (f i)) e i x <->
         ans ne ns W et st (si_state (f i)) (e i) x /\ forall j, j < i -> ~ ans ne ns W et st (si_state (f j)) (e j) x).
      { intros x. unfold unseen. rewrite (dt_ans _ _ _ _ _ _ D) by (apply Hb; lia).
        split; intros (U1 & U2); (split; [exact U1|]); intros j Hj Hx; apply (U2 j Hj).
        - apply (dt_ans _ _ _ _ _ _ D) in Hx; auto. apply Hb. lia.
        - apply (dt_ans _ _ _ _ _ _ D); auto. apply Hb. lia. }
      split; [apply HU; exact H1|]. intros y dx dy Hy Hx Hdy. apply (H2 y dx dy).
      + apply HU. exact Hy.
      + eapply set_dist_ext; [|exact Hx]. intros s. symmetry. apply Htar. auto.
      + eapply set_dist_ext; [|exact Hdy]. intros s. symmetry. apply Htar. auto.
  Qed.

  (** a state where the environment cannot move *)
  Lemma stuck_ok : exists N, forall fuel, N <= fuel ->
    forall rand txt fs horizon s0 num_it,
    get_offsets (evar_list sp) (svar_list sp) txt = Ok (Some fs) -> (1 <= horizon)%Z -> (1 <= num_it)%Z ->
    In s0 (fs_states F) -> (forall e, ~ legal_env G s0 e) ->
    simulate sp orc fuel rand alloc txt horizon s0 num_it = Crash.
  Proof.
    destruct data_ok as (N & HN). exists (Nat.max N (2 ^ n)). intros fuel Hf rand txt fs horizon s0 num_it Ho Hh Hi Hs0 Hno.
    destruct (HN fuel ltac:(lia)) as (et & st & W & eg & sg & D).
    destruct Htools as [Horc Hal]. fold ne ns in Horc. apply bits_states in Hs0.
    unfold simulate. rewrite (dt_bdds _ _ _ _ _ _ D). cbn [bind]. unfold sp at 1 2. rewrite num_env_eq, num_sys_eq. fold ne ns.
    rewrite (dt_win _ _ _ _ _ _ D). cbn [bind]. unfold sim_rhc.
    destruct (Z.ltb_spec horizon 1) as [|_]; [lia|]. rewrite Ho. cbn [bind]. unfold sp. rewrite num_env_eq, num_sys_eq.
    destruct (Z.to_nat num_it) as [|k] eqn:Ek; [lia|]. cbn [sim_loop]. unfold sim_step, next_goal.
    cbn [sim_start si_goal si_state si_t si_mem si_it]. fold ne ns.
    assert (Hsg0 : exists g r, sg = g :: r).
    { pose proof (dt_len _ _ _ _ _ _ D) as L. destruct sg; eauto. destruct (fs_sgoals F); [congruence|discriminate]. }
    destruct Hsg0 as (g & r & Esg). 
    assert (H0 : nth_error sg 0 = Some g) by (rewrite Esg; reflexivity). rewrite H0.
    destruct (env_moves_ok ne ns orc fuel Horc ltac:(fold n; lia) et (dt_et _ _ _ _ _ _ D) 0 s0 Hs0) as (l & El & _ & Hl).
    assert (l = []). { destruct l as [|e l]; auto. exfalso. apply (Hno e). apply (dt_mv _ _ _ _ _ _ D); auto. apply Hl. left. auto. }
    subst l.
    assert (Hm : (0 + 1) mod List.length sg < List.length sg) by (apply Nat.mod_upper_bound; rewrite Esg; discriminate).
    destruct (nth_error sg ((0 + 1) mod List.length sg)) as [g1|] eqn:E1; [|apply nth_error_None in E1; lia].
    destruct (eval_at ne ns g s0); cbn [bind]; [rewrite E1|rewrite H0]; rewrite El; reflexivity.
  Qed.
End Use.

Lemma refused_ok : forall sp orc fuel rand alloc t W et st sgoals txt horizon s0 num_it,
  (horizon < 1)%Z \/ get_offsets (evar_list sp) (svar_list sp) txt = Ok None ->
  sim_rhc sp orc fuel rand alloc t W et st sgoals txt horizon s0 num_it = Ok None.
Proof.
  intros. unfold sim_rhc. destruct (Z.ltb_spec horizon 1); auto. destruct H as [H|H]; [lia|]. rewrite H. reflexivity.
Qed.
