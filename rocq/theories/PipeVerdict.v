(** Verdicts of the whole chain: preparation, then check_realizable. *)
From Coq Require Import List ZArith Lia Bool Arith String.
From Verif Require Import Base Strs Game Bdd Support Ops Ptree Form Solve FSpec Nonbool RSpec
  PtreeProofs ExpProofs SolveProofs RealProofs NonboolProofs EncProofs PipeProofs.
Import ListNotations.
Open Scope string_scope.
Open Scope list_scope.
Open Scope Z_scope.

Section Verdict.
  Variable R : rspec.
  Hypothesis HT : well_typed R.
  Hypothesis HN : NoDup (names (rs_vars R)).
  Hypothesis HB : bits_distinct (rs_vars R).
  Let F := fspec_of R.
  Let vs := rs_vars R.
  Let es := rs_evars R.

  (** preparation answers, with a specification for which check_realizable answers
      as [P] says *)
  Definition chain_gives (flags : init_flags_t) (P : Prop) : Prop :=
    exists N, forall fuel, (N <= fuel)%nat -> exists sp nb,
      prepare fuel flags (raw_of R) = Ok (Some (sp, nb)) /\
      (exists N', forall fuel', (N' <= fuel')%nat -> exists r, check_realizable sp fuel' flags = Ok r) /\
      (forall fuel' r, check_realizable sp fuel' flags = Ok r -> (r <> None <-> P)).
  Lemma chain_intro : forall flags P,
    (forall fuel r, check_realizable (spec_of (solver_spec (-1) flags R)) fuel flags = Ok r -> (r <> None <-> P)) ->
    chain_gives flags P.
  Proof.
    intros flags P H. destruct (prepared flags R HT) as [N HNN]. exists N. intros fuel Hf.
    destruct (HNN fuel Hf) as (sp & nb & Hp & Hc). exists sp, nb. split; auto. split.
    - destruct (prepared_total flags R HT HN) as [N' HN']. exists N'. intros. rewrite Hc. auto.
    - intros fuel' r Hr. rewrite Hc in Hr. eapply H; eauto.
  Qed.
  Lemma enc_inj : forall s s', In s (fs_states F) -> In s' (fs_states F) -> enc vs s = enc vs s' -> s = s'.
  Proof.
    intros s s' H1 H2 E. rewrite <- (dec_enc vs s), <- (dec_enc vs s'); [congruence| |];
      apply (state_repr R); auto.
  Qed.
  Lemma int_all_init : chain_gives ALL_INIT
    ((exists s, initial F s) /\ forall s, initial F s -> sys_wins (game_of F) s).
  Proof.
    apply chain_intro. intros fuel r Hr.
    pose proof (F'_scoped ALL_INIT R HT HN) as S1. pose proof (F'_boolean ALL_INIT R HT HN) as S2.
    pose proof (F'_has_goal ALL_INIT R) as S3.
    rewrite (all_init_verdict _ S1 S2 S3 _ _ Hr).
    assert (HI := initial_ok ALL_INIT R HT HN HB ltac:(discriminate)). fold F vs in HI.
    assert (HW := wins_ok ALL_INIT R HT HN HB). fold F vs in HW.
    split.
    - intros [(t & Ht) H]. split.
      + apply HI in Ht. destruct Ht as (s & _ & Hs). eauto.
      + intros s Hs. apply HW; [apply Hs|]. apply H. apply HI. eauto.
    - intros [(s & Hs) H]. split.
      + exists (enc vs s). apply HI. eauto.
      + intros t Ht. apply HI in Ht. destruct Ht as (s' & -> & Hs'). apply HW; [apply Hs'|]. auto.
  Qed.
  Lemma int_aes : chain_gives ALL_ENV_EXIST_SYS_INIT
    (forall s, initial F s -> exists s', initial F s' /\
        g_env (game_of F) s' = g_env (game_of F) s /\ sys_wins (game_of F) s').
  Proof.
    apply chain_intro. intros fuel r Hr. set (fl := ALL_ENV_EXIST_SYS_INIT) in *.
    pose proof (F'_scoped fl R HT HN) as S1. pose proof (F'_boolean fl R HT HN) as S2.
    pose proof (F'_has_goal fl R) as S3.
    rewrite (aes_verdict _ S1 S2 S3 _ _ Hr).
    assert (HI := initial_ok fl R HT HN HB ltac:(discriminate)). fold F vs in HI.
    assert (HW := wins_ok fl R HT HN HB). fold F vs in HW.
    assert (HG := genv' fl R). fold F vs in HG.
    assert (HRp := state_repr R). fold F vs in HRp.
    assert (Hes : forall s s', In s (fs_states F) -> In s' (fs_states F) ->
      (g_env (game_of (solver_spec (-1) fl R)) (enc vs s') = g_env (game_of (solver_spec (-1) fl R)) (enc vs s) <->
       g_env (game_of F) s' = g_env (game_of F) s)).
    { intros s s' Hs Hs'. rewrite !HG by auto. split; [|congruence]. intros E.
      rewrite <- (dec_enc (rs_evars R) (g_env (game_of F) s')), <- (dec_enc (rs_evars R) (g_env (game_of F) s));
        [congruence| |]; apply (repr_firstn R); auto. }
    split.
    - intros H s Hs. destruct (H (enc vs s)) as (t & Ht & He & Hw); [apply HI; eauto|].
      apply HI in Ht. destruct Ht as (s' & -> & Hs'). exists s'. split; auto.
      split; [apply Hes; auto; [apply Hs|apply Hs']|]. apply HW; auto. apply Hs'.
    - intros H t Ht. apply HI in Ht. destruct Ht as (s & -> & Hs).
      destruct (H s Hs) as (s' & Hs' & He & Hw). exists (enc vs s'). split; [apply HI; eauto|].
      split; [apply Hes; auto; [apply Hs|apply Hs']|]. apply HW; auto. apply Hs'.
  Qed.
  Lemma int_one_side : chain_gives ONE_SIDE_INIT
    (match rs_sinit R with
     | None => forall s, In s (fs_states F) -> holds_opt F (rs_einit R) s = true -> sys_wins (game_of F) s
     | Some f => exists s, In s (fs_states F) /\ holds F f s = true /\ sys_wins (game_of F) s
     end).
  Proof.
    apply chain_intro. intros fuel r Hr. set (fl := ONE_SIDE_INIT) in *.
    pose proof (F'_scoped fl R HT HN) as S1. pose proof (F'_boolean fl R HT HN) as S2.
    pose proof (F'_has_goal fl R) as S3.
    rewrite (one_side_verdict _ S1 S2 S3 _ _ Hr).
    assert (HI := one_side_ok fl R HT HN HB eq_refl). fold F vs in HI.
    assert (HW := wins_ok fl R HT HN HB). fold F vs in HW.
    destruct (rs_sinit R) as [f|].
    - destruct HI as (f' & -> & HI). split.
      + intros (t & H1 & H2 & H3). destruct (proj1 (HI t)) as (s & -> & Hs & Hh); auto.
        exists s. split; auto. split; auto. apply HW; auto.
      + intros (s & H1 & H2 & H3). exists (enc vs s).
        destruct (proj2 (HI (enc vs s))) as [H4 H5]; [eauto|]. split; auto. split; auto. apply HW; auto.
    - destruct HI as (-> & HI). split.
      + intros H s H1 H2. apply HW; auto. destruct (proj2 (HI (enc vs s))) as [H4 H5]; [eauto|]. apply H; auto.
      + intros H t H1 H2. destruct (proj1 (HI t)) as (s & -> & Hs & Hh); auto. apply HW; auto.
  Qed.
  (** separated initial conditions: the environment condition speaks of environment
      variables only, the system condition of system variables only *)
  Lemma int_aes_separated :
    opt_all (fun f => incl (fvars f) (names (rs_evars R))) (rs_einit R) ->
    opt_all (fun f => incl (fvars f) (names (rs_svars R))) (rs_sinit R) ->
    (exists s, In s (fs_states F) /\ holds_opt F (rs_sinit R) s = true) ->
    chain_gives ALL_ENV_EXIST_SYS_INIT
    (forall e, In e (fs_envs F) -> holds_env F (rs_einit R) e = true ->
       exists s, In s (fs_states F) /\ g_env (game_of F) s = e /\
         holds_opt F (rs_sinit R) s = true /\ sys_wins (game_of F) s).
  Proof.
    intros He Hs (s0 & Hs0 & Hh0).
    assert (Hch := int_aes). destruct Hch as [N Hch]. exists N. intros fuel Hf.
    destruct (Hch fuel Hf) as (sp & nb & Hp & Ht & Hv). exists sp, nb. split; auto. split; auto.
    intros fuel' r Hr. rewrite (Hv fuel' r Hr). clear - He Hs Hs0 Hh0 HT HN HB.
    assert (HT' := HT). destruct HT' as (_ & [St1 St2] & _).
    set (ne := List.length (rs_evars R)).
    assert (Hnx : forall f, state_typed R f -> fnexts f = []).
    { intros f (_ & A & B). destruct (fnexts f) as [|y l] eqn:E; auto. exfalso.
      assert (Hy : In y (fnexts f)) by (rewrite E; left; auto). apply fnexts_split in Hy.
      rewrite A, B in Hy. destruct Hy as [[]|[]]. }
    assert (Hsplit : forall s, In s (fs_states F) -> s = firstn ne s ++ skipn ne s /\
        List.length (firstn ne s) = ne /\ In (firstn ne s) (fs_envs F)).
    { intros s H. split; [symmetry; apply firstn_skipn|]. split.
      - pose proof (repr_len _ _ (state_repr R s H)) as Hl. rewrite firstn_length, Hl.
        unfold rs_vars. rewrite app_length. fold ne. lia.
      - apply (genv_in R HN HB s H). }
    assert (Hjoin : forall e w, In e (fs_envs F) -> (exists e', In (e' ++ w) (fs_states F) /\ List.length e' = ne) ->
      In (e ++ w) (fs_states F) /\ firstn ne (e ++ w) = e).
    { intros e w H1 (e' & H2 & Hl'). unfold fs_envs, fs_states in *. rewrite dvecs_In in *.
      pose proof (in_doms_len _ _ H1) as Hl. unfold doms in Hl. rewrite map_length in Hl.
      unfold fs_vars, doms in *. rewrite map_app in *.
      change (fs_evars F) with (rs_evars R) in *. change (fs_svars F) with (rs_svars R) in *.
      apply in_doms_app in H2; [|rewrite map_length; auto].
      split; [apply in_doms_app; [rewrite map_length; auto|]; tauto|]. apply firstn_app_len. auto. }
    assert (Heq : forall s, In s (fs_states F) -> holds_opt F (rs_einit R) s = holds_env F (rs_einit R) (firstn ne s)).
    { intros s H. destruct (Hsplit s H) as (E & Hl & _). unfold holds_opt, holds_env, opt_all in *.
      destruct (rs_einit R) as [f|]; auto. unfold holds.
      apply sem_ext; [|rewrite (Hnx f St1); intros x []].
      intros x Hx. unfold val, eval. change (fs_vars F) with (rs_evars R ++ rs_svars R).
      change (fs_evars F) with (rs_evars R). unfold names. rewrite map_app. rewrite E at 1.
      apply EncProofs.lookup_app_l; [rewrite map_length; auto|]. apply He; auto. }
    assert (Hsq : forall e e' w, List.length e = ne -> List.length e' = ne ->
       holds_opt F (rs_sinit R) (e ++ w) = holds_opt F (rs_sinit R) (e' ++ w)).
    { intros e e' w Hl Hl'. unfold holds_opt, opt_all in *. destruct (rs_sinit R) as [f|]; auto. unfold holds.
      apply sem_ext; [|rewrite (Hnx f St2); intros x []].
      intros x Hx. apply Hs in Hx. unfold val. change (fs_vars F) with (rs_evars R ++ rs_svars R).
      unfold names, rs_vars in *. rewrite map_app in *.
      assert (~ In x (map fst (rs_evars R))) by (intros Hin; exact (NoDup_disj _ _ _ _ HN Hin Hx)).
      rewrite !EncProofs.lookup_app_r; auto; rewrite map_length; auto. }
    split.
    - intros H e H1 H2. destruct (Hsplit s0 Hs0) as (E0 & Hl0 & _).
      destruct (Hjoin e (skipn ne s0) H1) as [H3 H4]; [exists (firstn ne s0); rewrite <- E0; auto|].
      assert (Hle : List.length e = ne).
      { unfold fs_envs in H1. rewrite dvecs_In in H1. apply in_doms_len in H1. unfold doms in H1. rewrite map_length in H1. auto. }
      assert (Hi : initial F (e ++ skipn ne s0)).
      { split; auto. change (fs_einit F) with (rs_einit R). change (fs_sinit F) with (rs_sinit R).
        rewrite Heq, H4 by auto. split; auto. rewrite (Hsq e (firstn ne s0)) by auto. rewrite <- E0. auto. }
      destruct (H _ Hi) as (s' & (Hs1 & _ & Hs3) & Hg & Hw). exists s'. split; auto.
      split; [|auto]. rewrite Hg. exact H4.
    - intros H s (H1 & H2 & H3). change (fs_einit F) with (rs_einit R) in H2. change (fs_sinit F) with (rs_sinit R) in H3.
      rewrite Heq in H2 by auto. destruct (Hsplit s H1) as (E & Hl & Hin).
      destruct (H _ Hin H2) as (s' & K1 & K2 & K3 & K4). exists s'. split; [|split; auto].
      split; auto. change (fs_einit F) with (rs_einit R). change (fs_sinit F) with (rs_sinit R). split; auto.
      rewrite Heq by auto. change (g_env (game_of F) s') with (firstn ne s') in K2. rewrite K2. auto.
  Qed.
End Verdict.
