(** What gr1c-patch hands to the functions that patch: lemmas about the parts of
    patch_run (GrPatch.v). *)
From Coq Require Import List ZArith Bool Arith Ascii String Lia.
From Verif Require Import Base Game Strs Bdd Ptree Form Support EnumProofs Solve SolveProofs FSpec RealProofs EncProofs Automaton AutProofs
  SynthSpec PtreeProofs Nonbool NonboolProofs RSpec ExpProofs PipeProofs NbStateProofs NbProps Main MainSpec FormCheck ListSpec ListProofs AutIO AutIOSpec AutIOProofs
  Lex LexSpec Parse Syntax ParseProofs FileSpec TextSpec TextProofs Output JsonSpec FormatSpec
  Options OptSpec Program ProgramSpec Metric MetricSpec MetricProofs MetricNames HotSpec AddSpec Hotswap AddGoal HotInt IntPatch GrPatch GrPatchSpec.
Import ListNotations.
Open Scope string_scope.
Open Scope list_scope.
Open Scope Z_scope.

Definition expanded_raw (flags : init_flags_t) (R : rspec) : rspec := map_forms (expandS (rs_vars R)) (fblocked flags (fdefaults R)).
Lemma merge_one : forall l, l <> [] -> merge_ptrees (map tree_of l) PT_AND = tree_of (and_all l).
Proof. intros [|f l] H; [congruence|]. exact (merge_and f l). Qed.
Lemma patch_prepare_ok : forall R, well_typed R -> exists N, forall fuel, (N <= fuel)%nat ->
  patch_prepare fuel (raw_of R) =
  Ok (Some (raw_of (expanded_raw ALL_ENV_EXIST_SYS_INIT R), spec_of (solver_spec 0 ALL_ENV_EXIST_SYS_INIT R), vlist (NbStateProofs.ints (rs_vars R)))).
Proof.
  intros R HT. set (flags := ALL_ENV_EXIST_SYS_INIT).
  set (R1 := fdefaults R). set (R2 := fblocked flags R1).
  destruct (fblocked_vars flags R1) as [V1 V2]. fold R2 in V1, V2.
  pose proof (no_bad R HT) as Hb.
  destruct (expand_vars_ok (rs_vars R) R2) as [N HN].
  { intros x d Hin Hd. apply fblocked_hered; auto.
    - intros f g Hf Hg. simpl. rewrite Hf, Hg. reflexivity.
    - intros y e _. split; apply blocker_bad.
    - apply fdefaults_hered; auto. }
  exists N. intros fuel Hf. unfold patch_prepare, expand_nonbool_GR1. fold flags.
  rewrite with_defaults_raw. fold R1. cbn [raw_of r_evars].
  rewrite (block_all_raw _ (fblock_env flags)) by apply block_env_raw. cbn [bind].
  cbn [raw_of r_svars].
  destruct (fblock_all_vars _ (fblock_env_vars flags) (rs_evars R1) R1) as [W1 W2]. rewrite W2.
  rewrite (block_all_raw _ (fblock_sys flags)) by apply block_sys_raw. cbn [bind].
  change (fblock_all (fblock_sys flags) (rs_svars R1) (fblock_all (fblock_env flags) (rs_evars R1) R1)) with R2.
  cbn [raw_of r_evars r_svars]. rewrite V1, V2, link_vlist.
  change (rs_evars R1 ++ rs_svars R1) with (rs_vars R).
  fold (raw_of R2). unfold raw_of in HN. cbn [rs_evars rs_svars rs_einit rs_sinit rs_etrans rs_strans rs_egoals rs_sgoals] in HN.
  rewrite V1, V2 in HN. unfold obind. unfold raw_of. rewrite V1, V2, HN by auto. cbn [bind].
  cbn [r_evars r_svars rs_evars rs_svars map_forms]. rewrite V1, V2.
  unfold expand_nonbool_variables. rewrite !expand_items_ok. cbn [bind]. rewrite link_vlist, nonbool_items_ok.
  destruct (fblocked_ne flags R1) as [Ne1 Ne2].
  { unfold R1, fdefaults. cbn [rs_etrans rs_strans]. destruct (rs_etrans R), (rs_strans R); split; discriminate. }
  fold R2 in Ne1, Ne2. unfold solver_spec, expanded_raw. fold R1. fold R2.
  cbn [r_etrans r_strans r_einit r_sinit r_egoals r_sgoals map_forms rs_evars rs_svars rs_etrans rs_strans rs_einit rs_sinit rs_egoals rs_sgoals].
  rewrite !merge_one.
  2:{ destruct (rs_strans R2); [congruence|discriminate]. }
  2:{ destruct (rs_etrans R2); [congruence|discriminate]. }
  rewrite V1, V2. reflexivity.
Qed.

(** the formula given with -f *)
Lemma expand_clf_ok : forall us g, (forall x d, In (x, d) us -> 0 <= d -> bad_ne x d g = false) ->
  exists N, forall fuel, (N <= fuel)%nat ->
  expand_clf fuel (vlist (NbStateProofs.ints us)) (tree_of g) = Ok (tree_of (expandS us g)).
Proof.
  induction us as [|[x d] us IH]; intros g H.
  - exists O. intros. reflexivity.
  - unfold NbStateProofs.ints, expandS. cbn [filter fold_left fst snd]. destruct (0 <=? d) eqn:E.
    + apply Z.leb_le in E. destruct (IH (expand1 x d g)) as [N HN].
      { intros y e Hy He. apply bad_ne_expand1; auto. apply H; auto. right; auto. }
      exists (Nat.max N (fuel_for d g)). intros fuel Hf. cbn [vlist expand_clf].
      rewrite (etb_ok x d E g) by (first [lia|apply H; [left; auto|auto]]).
      pose proof (tree_of_nn g) as Hn. destruct (tree_of g); [congruence|]. cbn [bind]. apply HN. lia.
    + destruct (IH g) as [N HN]; [intros; apply (H x0 d0); auto; right; auto|].
      exists N. intros fuel Hf. apply HN. auto.
Qed.
Lemma goal_no_bad : forall R g, no_ne0 R g -> forall x d, In (x, d) (rs_vars R) -> 0 <= d -> bad_ne x d g = false.
Proof.
  intros R g H x d Hin Hd. rewrite bad_ne_eq. destruct (Z.eqb_spec d 0) as [->|]; [|apply andb_false_r].
  rewrite andb_true_r. apply H. auto.
Qed.
Lemma no_clf : forall fuel nb, (forall x, In x nb -> True) -> expand_clf fuel (vlist nb) NULL = Ok NULL.
Proof. intros fuel nb _. induction nb as [|[x d] nb IH]; auto. Qed.

Lemma clf_given : forall broken s g, formula_means s g -> clf_parse broken (Some s) = Ok (tree_of g).
Proof.
  intros broken s g (ys & H & Hr). apply text_symbols_iff in H. destruct H as (ts & H & <-).
  unfold clf_parse. rewrite H. cbn [bind]. unfold clf_tokens.
  pose proof (formula_complete false LIff (symbols ts) g NULL [] Hr) as HC. cbn [ends] in HC. specialize (HC ltac:(auto)).
  rewrite app_nil_r, attach_nil in HC.
  destruct (symbols ts) as [|k r] eqn:Es.
  { exfalso. clear - Hr. assert (X : forall l ys f, reads false l ys f -> ys <> []).
    { induction 1; try discriminate; auto; try (intros Q; apply app_eq_nil in Q; destruct Q; discriminate).
      inversion H; subst; discriminate. }
    exact (X _ _ _ Hr eq_refl). }
  assert (Hs : starts_formula k = true).
  { assert (X : forall l ys f, reads false l ys f -> match ys with [] => False | k :: _ => starts_formula k = true end).
    { clear. induction 1; auto;
        try (match goal with H : reads _ _ ?a _, IH : match ?a with _ => _ end |- match ?a ++ _ with _ => _ end => destruct a; [contradiction|exact IH] end).
      inversion H; subst; reflexivity. }
    exact (X _ _ _ Hr). }
  rewrite Hs, HC. reflexivity.
Qed.

(** the check of its variables *)
Lemma clf_list_raw : forall R, clf_list (raw_of R) = vlist (rs_svars R ++ rs_evars R).
Proof.
  intros R. unfold clf_list. cbn [raw_of r_evars r_svars]. destruct (rs_svars R) as [|v l] eqn:E; [reflexivity|].
  rewrite <- link_vlist. destruct v. reflexivity.
Qed.
Lemma check_null : forall l, check_vars NULL l NULL = Ok None.
Proof. intros l. reflexivity. Qed.
Lemma typed_fvars : forall vs p f, uses vs p f -> incl (if p then fnexts f else fvars f) (names vs).
Proof.
  intros vs p f [H1 H2] x Hx.
  assert (K : In x (bares p f) \/ In x (cmps p f)).
  { clear H1 H2. destruct p; induction f; cbn in Hx |- *; try contradiction; auto;
      try (match goal with b : bool |- _ => destruct b; cbn in Hx |- *; auto; contradiction end);
      rewrite !in_app_iff in *; tauto. }
  unfold names. destruct K as [K|K].
  - apply in_map_iff. exists (x, -1). auto.
  - destruct (H2 x K) as (d & _ & Hd). apply in_map_iff. exists (x, d). auto.
Qed.

(** the variables given with -m *)
Lemma spaced_empty : forall xs, spaced xs "" -> (forall x, In x xs -> is_word x) -> xs = [].
Proof.
  intros xs H Hw. remember "" as m eqn:Em. destruct H as [|xs s H|x|x xs s H]; auto; try discriminate Em.
  - exfalso. destruct (Hw x (or_introl eq_refl)) as [Q _]. apply Q. exact Em.
  - destruct x; discriminate Em.
Qed.
Lemma metric_given : forall flags R l xs, NoDup (names (rs_vars R)) -> bits_distinct (rs_vars R) -> int_domains (rs_vars R) -> measured R l xs ->
  exists fs, metric_offsets (spec_of (solver_spec 0 flags R)) (the_metric l) = Ok fs /\ (fs = [] <-> xs = []) /\
    fields_in (total_bits (rs_vars R)) fs /\
    forall s r, In s (dvecs (doms (rs_vars R))) -> In r (dvecs (doms (rs_vars R))) ->
      dist fs (enc (rs_vars R) s) (enc (rs_vars R) r) = value_dist (rs_vars R) xs s r.
Proof.
  intros flags R l xs HN HB HD (Hm & Hx).
  assert (Hw : forall x, In x xs -> is_word x) by (intros x Hi; apply (Hx x Hi)).
  assert (K0 : exists fs : list (Z * Z), fs = [] /\ (fs = [] <-> ([] : list string) = []) /\ fields_in (total_bits (rs_vars R)) fs /\
    forall s r, In s (dvecs (doms (rs_vars R))) -> In r (dvecs (doms (rs_vars R))) ->
      dist fs (enc (rs_vars R) s) (enc (rs_vars R) r) = value_dist (rs_vars R) [] s r).
  { exists []. split; auto. split; [tauto|]. split; [intros o w []|reflexivity]. }
  destruct (the_metric l) as [m|].
  2:{ subst xs. destruct K0 as (fs & -> & K). exists []. split; [reflexivity|exact K]. }
  destruct xs as [|x0 xs0] eqn:Exs.
  { destruct K0 as (fs & -> & K). exists []. split; [|exact K]. unfold metric_offsets. destruct m as [|c m]; [reflexivity|].
    unfold get_offsets. rewrite (strtok_spaced [] _ Hm) by constructor. reflexivity. }
  rewrite <- Exs in *. assert (Hne : xs <> []) by (rewrite Exs; discriminate).
  destruct (token_offsets_ok (rs_evars R) (rs_svars R) HN HB HD xs) as (fs & E & I & V).
  { intros x Hi. apply (Hx x Hi). }
  exists fs. split; [|split; [|split]].
  - unfold metric_offsets. destruct m as [|c m]; [exfalso; apply Hne; apply spaced_empty; auto|].
    unfold get_offsets. rewrite (strtok_spaced xs _ Hm) by (apply Forall_forall; auto).
    cbn [spec_of evar_list svar_list solver_spec fs_evars fs_svars]. rewrite Exs in E |- *. rewrite E. reflexivity.
  - split; [|congruence]. intros ->.
    (* as many fields as names *)
    assert (L : List.length ([] : list (Z * Z)) = List.length xs).
    { clear - E. assert (Q : forall ts ev sv l, token_offsets ev sv ts = Ok (Some l) -> List.length l = List.length ts).
      { induction ts as [|t ts IH]; intros ev sv l H; cbn in H; [injection H as <-; auto|].
        apply bind_ok in H. destruct H as ([[k more]|] & _ & H); [|discriminate H]. unfold obind in H. apply bind_ok in H.
        destruct H as ([l'|] & H1 & H2); [|discriminate H2]. injection H2 as <-. cbn. rewrite (IH _ _ _ H1). reflexivity. }
      exact (Q _ _ _ _ E). }
    destruct xs; [reflexivity|discriminate L].
  - exact I.
  - intros s r Hs Hr. apply dist_values; auto.
Qed.

(** where the goal is put *)
Section Place.
  Variables (flags : init_flags_t) (R : rspec).
  Hypothesis HT : well_typed R.
  Hypothesis HN : NoDup (names (rs_vars R)).
  Hypothesis HB : bits_distinct (rs_vars R).
  Hypothesis Hgoals : rs_sgoals R <> [].
  Hypothesis Hfull : full_domains R.
  Let F := fspec_of R.
  Let F' := solver_spec (-1) flags R.
  Lemma full_repr : forall s, repr (rs_vars R) s -> In s (fs_states F).
  Proof.
    intros s H. unfold F, fs_states. cbn [fspec_of fs_evars fs_svars]. apply dvecs_In. unfold repr in H.
    replace (map wide (doms (rs_vars R))) with (doms (rs_vars R)) in H; [exact H|].
    unfold doms. rewrite map_map. apply map_ext_in. intros [x d] Hin. cbn [snd]. unfold wide.
    destruct (Z.ltb_spec d 0) as [|Hd]; auto. rewrite nbits_width by auto. specialize (Hfull x d Hin Hd). lia.
  Qed.
  Lemma dist_int : forall fs xs f g x, (forall s r, In s (dvecs (doms (rs_vars R))) -> In r (dvecs (doms (rs_vars R))) ->
      dist fs (enc (rs_vars R) s) (enc (rs_vars R) r) = value_dist (rs_vars R) xs s r) ->
    typed R [] f -> typed R [] g ->
    goal_dist fs F' (expandS (rs_vars R) f) (expandS (rs_vars R) g) x -> value_goal_dist xs R f g x.
  Proof.
    intros fs xs f g x HV Hf Hg [H1 H2]. unfold value_goal_dist. fold F.
    assert (K : forall p : vec * vec, In (fst p) (fs_states F) -> In (snd p) (fs_states F) ->
      let q := (enc (rs_vars R) (fst p), enc (rs_vars R) (snd p)) in
      (In (fst q) (fs_states F') /\ In (snd q) (fs_states F') /\
       holds F' (expandS (rs_vars R) f) (fst q) = holds F f (fst p) /\ holds F' (expandS (rs_vars R) g) (snd q) = holds F g (snd p)) /\
      dist fs (snd q) (fst q) = value_dist (rs_vars R) xs (snd p) (fst p)).
    { intros p P1 P2 q. cbn [q fst snd]. split; [split; [|split; [|split]]|].
      - apply enc_state; auto. apply (state_repr R). exact P1.
      - apply enc_state; auto. apply (state_repr R). exact P2.
      - exact (holds_enc flags R HN HB (fst p) f P1 Hf).
      - exact (holds_enc flags R HN HB (snd p) g P2 Hg).
      - apply HV; auto. }
    assert (L : forall q : vec * vec, In (fst q) (fs_states F') -> In (snd q) (fs_states F') -> exists p : vec * vec,
      In (fst p) (fs_states F) /\ In (snd p) (fs_states F) /\ q = (enc (rs_vars R) (fst p), enc (rs_vars R) (snd p))).
    { intros [q1 q2] Q1 Q2. cbn [fst snd] in *. destruct (dec_state flags R HT q1 Q1) as [E1 D1]. destruct (dec_state flags R HT q2 Q2) as [E2 D2].
      exists (dec (rs_vars R) q1, dec (rs_vars R) q2). cbn [fst snd]. rewrite E1, E2.
      split; [apply full_repr; auto|]. split; [apply full_repr; auto|reflexivity]. }
    split.
    - intros (p & P1 & P2 & P3 & P4). destruct H1 as [(q & (Q1 & Q2 & Q3 & Q4) & Q5) Hmin].
      { exists (enc (rs_vars R) (fst p), enc (rs_vars R) (snd p)). destruct (K p P1 P2) as ((X1 & X2 & X3 & X4) & _).
        split; [exact X1|]. split; [exact X2|]. split; [exact (eq_trans X3 P3)|exact (eq_trans X4 P4)]. }
      destruct (L q Q1 Q2) as (p' & P1' & P2' & ->). destruct (K p' P1' P2') as ((X1 & X2 & X3 & X4) & X5). split.
      + exists p'. split; [|rewrite <- X5; exact Q5]. split; [exact P1'|]. split; [exact P2'|].
        split; [rewrite <- X3; exact Q3|rewrite <- X4; exact Q4].
      + intros p0 (Y1 & Y2 & Y3 & Y4). destruct (K p0 Y1 Y2) as ((Z1 & Z2 & Z3 & Z4) & Z5). rewrite <- Z5. apply Hmin.
        split; [exact Z1|]. split; [exact Z2|]. split; [exact (eq_trans Z3 Y3)|exact (eq_trans Z4 Y4)].
    - intros Hno. apply H2. intros q (Q1 & Q2 & Q3 & Q4). destruct (L q Q1 Q2) as (p & P1 & P2 & ->).
      destruct (K p P1 P2) as ((X1 & X2 & X3 & X4) & _). apply (Hno p). split; [exact P1|]. split; [exact P2|].
      split; [rewrite <- X3; exact Q3|rewrite <- X4; exact Q4].
  Qed.
End Place.
Lemma place_int : forall flags R fs xs g i, well_typed R -> NoDup (names (rs_vars R)) -> bits_distinct (rs_vars R) -> rs_sgoals R <> [] ->
  (fs = [] <-> xs = []) ->
  (forall s r, In s (dvecs (doms (rs_vars R))) -> In r (dvecs (doms (rs_vars R))) ->
      dist fs (enc (rs_vars R) s) (enc (rs_vars R) r) = value_dist (rs_vars R) xs s r) ->
  typed R [] g -> place fs (solver_spec (-1) flags R) (expandS (rs_vars R) g) i -> comes_behind xs R g i.
Proof.
  intros flags R fs xs g i HT HN HB Hgoals Hiff HV Hg (H1 & H2 & H3). rewrite (goals_len flags R Hgoals) in *.
  split; [exact H1|]. split; [intros E; apply H2; apply Hiff; exact E|].
  intros Hne Hfull. destruct H3 as (d & D1 & D2 & D3); [rewrite Hiff; exact Hne|].
  exists d. split; [|split; [exact D2|exact D3]]. intros j Hj. specialize (D1 j Hj).
  assert (Hin : In (nth j (rs_sgoals R) FTrue) (rs_sgoals R)) by (apply nth_In; exact Hj).
  apply (dist_int flags R HT HN HB Hfull fs xs _ g (d j) HV (sgoal_typed R HT _ Hin) Hg).
  rewrite (sgoals_eq flags R Hgoals) in D1. cbn [regoal fs_sgoals] in D1.
  rewrite (nth_indep _ FTrue (expandS (rs_vars R) FTrue)) in D1 by (rewrite map_length; exact Hj).
  rewrite map_nth in D1. exact D1.
Qed.
