(** What rg hands to the reachability solver: the specification that gr1c would prepare,
    with the goal, or "false" if there is none. *)
From Coq Require Import List ZArith Lia Bool Arith String.
From Verif Require Import Base Strs Game Bdd Support EnumProofs Ptree Form Solve FSpec Nonbool RSpec
  PtreeProofs ExpProofs SolveProofs RealProofs Automaton AutProofs Synth SynthSpec NonboolProofs EncProofs
  Main MainSpec Reach ReachSpec ReachProofs Options Program Rg.
Import ListNotations.
Open Scope string_scope.
Open Scope list_scope.
Open Scope Z_scope.

Definition set_sgoals (l : list form) (R : rspec) : rspec := {|
  rs_evars := rs_evars R; rs_svars := rs_svars R; rs_einit := rs_einit R; rs_sinit := rs_sinit R;
  rs_etrans := rs_etrans R; rs_strans := rs_strans R; rs_egoals := rs_egoals R; rs_sgoals := l |}.
Definition one_goal (R : rspec) : rspec := match rs_sgoals R with [] => set_sgoals [FFalse] R | _ => R end.
Lemma one_goal_eq : forall R, one_goal R = set_sgoals (match rs_sgoals R with [] => [FFalse] | l => l end) R.
Proof. intros [ev sv ei si et st eg [|g sg]]; reflexivity. Qed.
Lemma fblock_env_set : forall l flags x d R, fblock_env flags x d (set_sgoals l R) = set_sgoals l (fblock_env flags x d R).
Proof. intros. unfold fblock_env. destruct (d <? _); auto. Qed.
Lemma fblock_sys_set : forall l flags x d R, fblock_sys flags x d (set_sgoals l R) = set_sgoals l (fblock_sys flags x d R).
Proof. intros. unfold fblock_sys. destruct (d <? _); auto. Qed.
Lemma fblock_all_set : forall l blk, (forall x d R, blk x d (set_sgoals l R) = set_sgoals l (blk x d R)) ->
  forall vs R, fblock_all blk vs (set_sgoals l R) = set_sgoals l (fblock_all blk vs R).
Proof.
  intros l blk H. induction vs as [|[x d] vs IH]; intros R; auto.
  unfold fblock_all in *. cbn [fold_left fst snd]. destruct (d =? -1); rewrite ?H; apply IH.
Qed.
Lemma fblocked_set : forall l flags R, fblocked flags (set_sgoals l R) = set_sgoals l (fblocked flags R).
Proof.
  intros. unfold fblocked. cbn [set_sgoals rs_svars rs_evars].
  rewrite (fblock_all_set l _ (fblock_env_set l flags)). apply (fblock_all_set l _ (fblock_sys_set l flags)).
Qed.
Lemma fblocked_sgoals : forall flags R, rs_sgoals (fblocked flags R) = rs_sgoals R.
Proof.
  intros. unfold fblocked. apply (fblock_all_inv (fun Q => rs_sgoals Q = rs_sgoals R)).
  - apply (fblock_all_inv (fun Q => rs_sgoals Q = rs_sgoals R)); auto.
    intros x d Q _ _ H. unfold fblock_env. destruct (d <? _); auto.
  - intros x d Q _ _ H. unfold fblock_sys. destruct (d <? _); auto.
Qed.
Definition rdefaults (R : rspec) : rspec := set_sgoals (rs_sgoals R) (fdefaults R).
Lemma rg_defaults_raw : forall R, rg_defaults (raw_of R) = raw_of (rdefaults R).
Proof.
  intros [ev sv ei si et st eg sg]. unfold rg_defaults, raw_of, rdefaults, fdefaults, set_sgoals. simpl.
  destruct et, st; reflexivity.
Qed.
(** the specification handed to the solver *)
Definition rg_spec (b : Z) (flags : init_flags_t) (R : rspec) : fspec :=
  let F := solver_spec b flags R in
  {| fs_evars := fs_evars F; fs_svars := fs_svars F; fs_einit := fs_einit F; fs_sinit := fs_sinit F;
     fs_etrans := fs_etrans F; fs_strans := fs_strans F; fs_egoals := fs_egoals F;
     fs_sgoals := map (expandS (rs_vars R)) (rs_sgoals R) |}.

Lemma rg_prepare_ok : forall flags R,
  (forall x d, In (x, d) (rs_vars R) -> 0 <= d -> forall f, In f (all_forms R) -> bad_ne x d f = false) ->
  exists N, forall fuel, (N <= fuel)%nat ->
  rg_prepare fuel flags (raw_of R) =
  Ok (Some (spec_of (rg_spec 0 flags R), vlist (filter (fun v => 0 <=? snd v) (rs_vars R)))).
Proof.
  intros flags R Hb.
  set (R1 := rdefaults R). set (R2 := fblocked flags R1).
  destruct (fblocked_vars flags R1) as [V1 V2]. fold R2 in V1, V2.
  assert (ER2 : R2 = set_sgoals (rs_sgoals R) (fblocked flags (fdefaults R))) by apply fblocked_set.
  destruct (expand_vars_ok (rs_vars R) R2) as [N HN].
  { intros x d Hin Hd. apply fblocked_hered; auto.
    - intros f g Hf Hg. simpl. rewrite Hf, Hg. reflexivity.
    - intros y e _. split; apply blocker_bad.
    - intros f Hf. unfold R1, rdefaults, all_forms in Hf. cbn [set_sgoals rs_sgoals rs_sinit rs_einit rs_etrans rs_strans rs_egoals] in Hf.
      rewrite !in_app_iff in Hf.
      assert (Hfd : In f (all_forms (fdefaults R)) \/ In f (rs_sgoals R)).
      { unfold all_forms. rewrite !in_app_iff. tauto. }
      destruct Hfd as [Hfd|Hfd].
      + revert f Hfd Hf. intros f Hfd _. revert f Hfd. apply fdefaults_hered; auto.
      + apply Hb; auto. unfold all_forms. rewrite !in_app_iff. tauto. }
  exists N. intros fuel Hf. unfold rg_prepare, expand_nonbool_GR1.
  rewrite rg_defaults_raw. fold R1. cbn [raw_of r_evars].
  rewrite (block_all_raw _ (fblock_env flags)) by apply block_env_raw. cbn [bind].
  cbn [raw_of r_svars].
  destruct (fblock_all_vars _ (fblock_env_vars flags) (rs_evars R1) R1) as [W1 W2]. rewrite W2.
  rewrite (block_all_raw _ (fblock_sys flags)) by apply block_sys_raw. cbn [bind].
  change (fblock_all (fblock_sys flags) (rs_svars R1) (fblock_all (fblock_env flags) (rs_evars R1) R1)) with R2.
  cbn [raw_of r_evars r_svars]. rewrite V1, V2, link_vlist.
  change (rs_evars R1 ++ rs_svars R1) with (rs_vars R).
  fold (raw_of R2). unfold raw_of in HN. cbn [rs_evars rs_svars rs_einit rs_sinit rs_etrans rs_strans rs_egoals rs_sgoals] in HN.
  rewrite V1, V2 in HN. unfold obind. unfold raw_of. rewrite V1, V2, HN by auto. cbn [bind].
  cbn [r_evars r_svars rs_evars rs_svars map_forms]. rewrite V1, V2.
  unfold expand_nonbool_variables. rewrite !expand_items_ok. cbn [bind]. rewrite link_vlist, nonbool_items_ok.
  cbn [r_etrans r_strans map_forms rs_etrans rs_strans].
  destruct (fblocked_ne flags R1) as [Ne1 Ne2].
  { unfold R1, rdefaults, fdefaults. cbn [set_sgoals rs_etrans rs_strans]. destruct (rs_etrans R), (rs_strans R); split; discriminate. }
  fold R2 in Ne1, Ne2. unfold rg_spec, solver_spec.
  assert (G1 : rs_etrans (fblocked flags (fdefaults R)) = rs_etrans R2) by (rewrite ER2; reflexivity).
  assert (G2 : rs_strans (fblocked flags (fdefaults R)) = rs_strans R2) by (rewrite ER2; reflexivity).
  assert (G3 : rs_egoals (fblocked flags (fdefaults R)) = rs_egoals R2) by (rewrite ER2; reflexivity).
  assert (G4 : rs_einit (fblocked flags (fdefaults R)) = rs_einit R2) by (rewrite ER2; reflexivity).
  assert (G5 : rs_sinit (fblocked flags (fdefaults R)) = rs_sinit R2) by (rewrite ER2; reflexivity).
  assert (G6 : rs_sgoals R = rs_sgoals R2) by (rewrite ER2; reflexivity).
  cbn [map_forms fs_evars fs_svars fs_einit fs_sinit fs_etrans fs_strans fs_egoals fs_sgoals rs_etrans rs_strans rs_einit rs_sinit rs_egoals rs_sgoals].
  rewrite G1, G2, G3, G4, G5, G6.
  destruct (rs_etrans R2) as [|f1 l1] eqn:E1; [congruence|].
  destruct (rs_strans R2) as [|f2 l2] eqn:E2; [congruence|].
  cbn [map]. do 3 f_equal. unfold spec_of. cbn [map_forms fs_evars fs_svars fs_einit fs_sinit fs_etrans fs_strans fs_egoals fs_sgoals rs_etrans rs_strans rs_einit rs_sinit rs_egoals rs_sgoals].
  cbn [map and_all]. rewrite <- !merge_and. reflexivity.
Qed.

Lemma same_rg : forall F F', same_but_domains F F' -> forall orc alloc fuel,
  rg_synthesize (spec_of F) orc alloc fuel = rg_synthesize (spec_of F') orc alloc fuel.
Proof.
  intros F F' H orc alloc fuel. unfold rg_synthesize.
  rewrite (same_spec_BDDs F F' H), (same_num_env F F' H), (same_num_sys F F' H), !(same_init_BDD F F' H).
  cbn [spec_of env_init sys_init]. destruct H as (_ & _ & H1 & H2 & _). rewrite H1, H2. reflexivity.
Qed.
Lemma expandS_false : forall vs, expandS vs FFalse = FFalse.
Proof. induction vs as [|[x d] vs IH]; auto. rewrite expandS_cons. destruct (0 <=? d); auto. Qed.
Lemma not_one : forall m, bNot m (bOne m) = bZero m.
Proof. intros m. apply mk_ext. intros v Hv. unfold bOne. rewrite ev_mk by auto. reflexivity. Qed.
Lemma rg_no_goal : forall F, fs_sgoals F = [] -> forall orc alloc fuel,
  rg_synthesize (spec_of F) orc alloc fuel =
  rg_synthesize (spec_of {| fs_evars := fs_evars F; fs_svars := fs_svars F; fs_einit := fs_einit F;
    fs_sinit := fs_sinit F; fs_etrans := fs_etrans F; fs_strans := fs_strans F; fs_egoals := fs_egoals F;
    fs_sgoals := [FFalse] |}) orc alloc fuel.
Proof.
  intros [ev sv ei si et st eg sg] E orc alloc fuel. cbn [fs_sgoals] in E. subst sg.
  cbn [fs_evars fs_svars fs_einit fs_sinit fs_etrans fs_strans fs_egoals fs_sgoals].
  set (F1 := {| fs_evars := ev; fs_svars := sv; fs_einit := ei; fs_sinit := si; fs_etrans := et; fs_strans := st;
    fs_egoals := eg; fs_sgoals := [] |}).
  set (F2 := {| fs_evars := ev; fs_svars := sv; fs_einit := ei; fs_sinit := si; fs_etrans := et; fs_strans := st;
    fs_egoals := eg; fs_sgoals := [FFalse] |}).
  unfold rg_synthesize.
  change (init_BDD (spec_of F2)) with (init_BDD (spec_of F1)).
  change (env_init (spec_of F2)) with (env_init (spec_of F1)).
  change (sys_init (spec_of F2)) with (sys_init (spec_of F1)).
  change (num_env (spec_of F2)) with (num_env (spec_of F1)).
  change (num_sys (spec_of F2)) with (num_sys (spec_of F1)).
  destruct (init_BDD (spec_of F1) (env_init (spec_of F1))) as [bi| |]; auto. cbn [bind].
  destruct (init_BDD (spec_of F1) (sys_init (spec_of F1))) as [bs| |]; auto. cbn [bind].
  unfold spec_BDDs.
  change (to_BDD (spec_of F2)) with (to_BDD (spec_of F1)).
  change (env_trans (spec_of F2)) with (env_trans (spec_of F1)).
  change (sys_trans (spec_of F2)) with (sys_trans (spec_of F1)).
  change (env_goals' (spec_of F2)) with (env_goals' (spec_of F1)).
  destruct (to_BDD (spec_of F1) (env_trans (spec_of F1))) as [b1| |]; auto. cbn [bind].
  destruct (to_BDD (spec_of F1) (sys_trans (spec_of F1))) as [b2| |]; auto. cbn [bind].
  destruct (map_out (to_BDD (spec_of F1)) (env_goals' (spec_of F1))) as [b3| |]; auto. cbn [bind].
  change (sys_goals (spec_of F1)) with ([] : list ptree).
  change (sys_goals (spec_of F2)) with [leaf_const 0]. cbn [map_out].
  change (to_BDD (spec_of F1) (leaf_const 0)) with
    (Ok (bNot (nvars (spec_of F1)) (bOne (nvars (spec_of F1))))). rewrite not_one. reflexivity.
Qed.
Lemma rg_one : forall flags R orc alloc fuel,
  rg_synthesize (spec_of (rg_spec 0 flags R)) orc alloc fuel =
  rg_synthesize (spec_of (solver_spec (-1) flags (one_goal R))) orc alloc fuel.
Proof.
  intros. rewrite <- (same_rg _ _ (solver_spec_same 0 (-1) flags (one_goal R))).
  destruct (rs_sgoals R) as [|g l] eqn:E.
  - assert (E1 : one_goal R = set_sgoals [FFalse] R) by (unfold one_goal; rewrite E; reflexivity).
    rewrite E1.
    assert (E2 : fdefaults (set_sgoals [FFalse] R) = set_sgoals [FFalse] (fdefaults R)) by reflexivity.
    unfold solver_spec. rewrite E2, fblocked_set. unfold rg_spec, solver_spec. rewrite E.
    cbn [map_forms set_sgoals fs_evars fs_svars fs_einit fs_sinit fs_etrans fs_strans fs_egoals fs_sgoals rs_evars rs_svars rs_etrans rs_strans rs_einit rs_sinit rs_egoals rs_sgoals map].
    change (rs_vars (set_sgoals [FFalse] R)) with (rs_vars R). rewrite expandS_false.
    rewrite rg_no_goal by reflexivity. reflexivity.
  - assert (E1 : one_goal R = R) by (unfold one_goal; rewrite E; reflexivity). rewrite E1.
    assert (E2 : rg_spec 0 flags R = solver_spec 0 flags R); [|rewrite E2; reflexivity].
    unfold rg_spec, solver_spec. cbn [map_forms fs_evars fs_svars fs_einit fs_sinit fs_etrans fs_strans fs_egoals fs_sgoals rs_sgoals].
    rewrite fblocked_sgoals. cbn [fdefaults rs_sgoals]. rewrite E. reflexivity.
Qed.
