(** The whole chain for specifications with integer variables: preparation,
    decision, synthesis and compaction. *)
From Coq Require Import List ZArith Lia Bool Arith String.
From Verif Require Import Base Strs Game Bdd Support EnumProofs Ptree Form Solve FSpec Nonbool RSpec
  PtreeProofs ExpProofs SolveProofs RealProofs Automaton AutProofs Synth SynthSpec NonboolProofs EncProofs
  PipeProofs PipeVerdict NbStateProofs NbProps SynthFindings Main MainSpec.
Import ListNotations.
Open Scope string_scope.
Open Scope list_scope.
Open Scope Z_scope.

(** a condition on environment variables only *)
Lemma opt_env : forall F o s, opt_form (fun f => fnexts f = []) o ->
  opt_form (fun f => incl (fvars f) (names (fs_evars F))) o ->
  List.length s = List.length (fs_vars F) ->
  holds_opt F o s = holds_env F o (firstn (List.length (fs_evars F)) s).
Proof.
  intros F [f|] s Hn Hi Hl; auto. cbn [opt_form holds_opt holds_env] in *. unfold holds.
  apply sem_ext; [|rewrite Hn; intros x []].
  intros x Hx. unfold val, eval, fs_vars, names. rewrite map_app.
  rewrite <- (firstn_skipn (List.length (fs_evars F)) s) at 1.
  apply EncProofs.lookup_app_l; [|apply Hi; auto].
  rewrite map_length, firstn_length, Hl. unfold fs_vars. rewrite app_length.
  symmetry. apply Nat.min_l. apply Nat.le_add_r.
Qed.

Section Main.
  Variable flags : init_flags_t.
  Variable R : rspec.
  Hypothesis HT : well_typed R.
  Hypothesis HN : NoDup (names (rs_vars R)).
  Hypothesis HB : bits_distinct (rs_vars R).
  Let vs := rs_vars R.
  Let es := rs_evars R.
  Let ss := rs_svars R.
  Let F := fspec_of R.
  Let F' := solver_spec (-1) flags R.
  Notation GF := (game_of F).
  Notation GF' := (game_of F').

  (** *** separated initial conditions stay separated *)
  Definition seps : Prop :=
    opt_all (fun f => incl (fvars f) (names (rs_evars R))) (rs_einit R) /\
    opt_all (fun f => incl (fvars f) (names (rs_svars R))) (rs_sinit R).
  Lemma blocker_fvars : forall x d y, In y (fvars (blocker x d false)) -> y = x.
  Proof.
    intros x d y Hy. destruct (unreach_scope x false (d + 1) (maxbitval d - 1)) as (B1 & B2 & C1 & C2 & _).
    fold (blocker x d false) in *. apply fvars_split in Hy. rewrite B1 in Hy. destruct Hy as [[]|Hy].
    apply C2 in Hy. destruct Hy as [->|[]]. reflexivity.
  Qed.
  Lemma fvars_expandS : forall ws f, incl ws vs -> (forall y, In y (bares false f) -> In (y, -1) vs) ->
    incl (fvars f) (names ws) -> boolean (expandS vs f) = true ->
    incl (fvars (expandS vs f)) (bnames ws).
  Proof.
    intros ws f Hws Hb Hi Hbo y Hy. apply fvars_split in Hy.
    assert (Hin : forall x d, In (x, d) vs -> In x (fvars f) -> In (x, d) ws).
    { intros x d H1 H2. apply Hi in H2. apply in_map_iff in H2. destruct H2 as ([x' d'] & E & H2).
      cbn [fst] in E. subst x'. assert (d' = d); [|subst; auto].
      apply (NoDup_names_inj vs x); auto. }
    assert (Hc : cmps false (expandS vs f) = []) by (apply boolean_cmp_nil; auto).
    rewrite Hc in Hy. destruct Hy as [Hy|[]].
    apply expandS_bares in Hy. destruct Hy as [Hy|(x & d & H1 & H2 & H3 & H4)].
    - apply (bnames_In ws y (-1)); [|left; reflexivity]. apply Hin; auto. apply fvars_split; auto.
    - apply (bnames_In ws x d); [apply Hin; auto; apply fvars_split; auto|].
      unfold dnames. cbn [fst snd]. rewrite (proj2 (Z.leb_le 0 d)) by auto. exact H4.
  Qed.
  Lemma seps' : flags = ALL_ENV_EXIST_SYS_INIT -> seps -> separated F'.
  Proof.
    intros Hf [He Hs]. split; [unfold F'; rewrite (names' flags R); apply (bnames_nodup R HB)|].
    set (R1 := fdefaults R).
    assert (HP : (forall f, In f (opt_list (rs_einit (fblocked flags R1))) -> incl (fvars f) (names es)) /\
                 (forall f, In f (opt_list (rs_sinit (fblocked flags R1))) -> incl (fvars f) (names ss))).
    { assert (Hot : forall (ws : list vdecl) o x d, In (x, d) ws ->
        (forall f, In f (opt_list o) -> incl (fvars f) (names ws)) ->
        incl (fvars (FAnd (f_or_true o) (blocker x d false))) (names ws)).
      { intros ws o x d Hin Ho y Hy. cbn [fvars] in Hy. apply in_app_or in Hy. destruct Hy as [Hy|Hy].
        - destruct o as [g|]; [|destruct Hy]. apply (Ho g); [left; auto|auto].
        - apply blocker_fvars in Hy. subst y. exact (in_map (@fst string Z) _ _ Hin). }
      unfold fblocked.
      apply (fblock_all_inv (fun Q => (forall f, In f (opt_list (rs_einit Q)) -> incl (fvars f) (names es)) /\
                 (forall f, In f (opt_list (rs_sinit Q)) -> incl (fvars f) (names ss)))).
      - apply (fblock_all_inv (fun Q => (forall f, In f (opt_list (rs_einit Q)) -> incl (fvars f) (names es)) /\
                 (forall f, In f (opt_list (rs_sinit Q)) -> incl (fvars f) (names ss)))).
        + cbn [R1 fdefaults rs_einit rs_sinit]. unfold opt_all in *.
          split; intros f Hin; [destruct (rs_einit R)|destruct (rs_sinit R)]; try destruct Hin as [<-|[]]; auto;
            destruct Hin.
        + intros x d Q Hin Hd [H1 H2]. unfold fblock_env. rewrite Hf. cbn [is_one_side andb].
          destruct (d <? maxbitval d - 1); [|split; auto]. cbn [rs_einit rs_sinit]. split; auto.
          intros f [<-|[]]. apply Hot; auto.
      - intros x d Q Hin Hd [H1 H2]. unfold fblock_sys. rewrite Hf. cbn [is_one_side andb].
        destruct (d <? maxbitval d - 1); [|split; auto]. cbn [rs_einit rs_sinit]. split; auto.
        intros f [<-|[]]. apply Hot; auto. }
    destruct HP as [H1 H2]. destruct (typedR2 flags R HT) as (Ty & _).
    fold R1 in Ty. cbv zeta in Ty.
    assert (Hgen : forall (ws : list vdecl) o, incl ws vs ->
      (forall f, In f (opt_list o) -> typed R [] f /\ incl (fvars f) (names ws)) ->
      opt_form (fun f => incl (fvars f) (bnames ws)) (option_map (expandS vs) o)).
    { intros ws [f|] Hi Ho; [|exact I]. cbn [option_map opt_form].
      destruct (Ho f) as [Hty Hv]; [left; auto|].
      apply fvars_expandS; auto.
      - apply Hty.
      - apply (typed_scope R HN [] f); auto. intros z []. }
    split.
    - change (fs_einit F') with (option_map (expandS vs) (rs_einit (fblocked flags R1))).
      change (fs_evars F') with (bit_decls (-1) es). rewrite bit_decls_bnames. apply Hgen; [apply incl_es|].
      intros f Hin. split; [apply Ty; rewrite !in_app_iff; tauto|apply H1; auto].
    - change (fs_sinit F') with (option_map (expandS vs) (rs_sinit (fblocked flags R1))).
      change (fs_svars F') with (bit_decls (-1) ss). rewrite bit_decls_bnames. apply Hgen; [apply incl_ss|].
      intros f Hin. split; [apply Ty; rewrite !in_app_iff; tauto|apply H2; auto].
  Qed.

  (** *** moves and starts *)
  Lemma dvecs_ex : forall ds, exists w, In w (dvecs ds).
  Proof.
    induction ds as [|d ds [w IH]]; [exists []; left; auto|]. exists (0 :: w).
    apply dvecs_In. apply dvecs_In in IH. constructor; auto.
    destruct (Z.lt_ge_cases d 0) as [H|H]; [apply dom_bool; auto|apply dom_int; lia].
  Qed.
  Lemma evars' : fs_evars F' = [] <-> es = [].
  Proof.
    change (fs_evars F') with (bit_decls (-1) es). split; [|intros ->; reflexivity].
    intros H. destruct es as [|[x d] l] eqn:E; auto. exfalso.
    unfold bit_decls in H. cbn [flat_map fst snd] in H. apply app_eq_nil in H. destruct H as [H _].
    destruct (Z.leb_spec 0 d) as [Hd|Hd]; [|discriminate].
    apply map_eq_nil in H. unfold bit_names in H. apply map_eq_nil in H.
    apply (f_equal (@List.length Z)) in H. rewrite zseq_len in H. pose proof (nbits_pos d). cbn in H. lia.
  Qed.
  Lemma genv_nil : es = [] -> forall s, g_env GF s = [].
  Proof. intros H s. cbn [game_of g_env]. change (fs_evars F) with es. rewrite H. reflexivity. Qed.
  Lemma move_ok : forall s t, In s (fs_states F) -> In t (fs_states F') ->
    g_str GF' (enc vs s) t = true ->
    (fs_evars F' <> [] -> g_etr GF' (enc vs s) (g_env GF' t) = true) ->
    exists s', t = enc vs s' /\ In s' (fs_states F) /\ g_str GF s s' = true /\
      (es <> [] -> legal_env GF s (g_env GF s')).
  Proof.
    intros s t Hs Ht Hst Het. destruct (dec_state flags R HT t Ht) as [Ed Hr]. fold vs in Ed, Hr.
    destruct es as [|v0 es0] eqn:Ees.
    - exists (dec vs t). split; auto. rewrite <- Ed in Hst.
      apply (str_ok flags R HT HN HB) in Hst; auto.
      + destruct Hst as [H1 H2]. split; auto. split; auto. congruence.
      + fold F. rewrite genv_nil by auto. unfold fs_envs. change (fs_evars F) with es. rewrite Ees. left. auto.
    - assert (Hne : es <> []) by (rewrite Ees; discriminate). rewrite <- Ees in *.
      assert (Hle : legal_env GF' (enc vs s) (g_env GF' t)).
      { split; [|apply Het; rewrite evars'; auto]. cbn [game_of g_envs]. rewrite <- Ed.
        unfold F'. rewrite (genv' flags R) by auto. apply (enc_env flags R HT).
        apply (repr_firstn R); auto. }
      apply (env_ok flags R HT HN HB s Hs) in Hle. destruct Hle as (e & Ee & He).
      destruct (proj1 (sys_ok flags R HT HN HB s Hs e He t)) as (s' & E & H1 & H2 & H3).
      { split; [exact Ht|]. split; auto. }
      exists s'. split; auto. split; auto. split; auto. intros _. fold F in H2. rewrite H2. exact He.
  Qed.
  Lemma repr_inj : forall s s', repr vs s -> repr vs s' -> enc vs s = enc vs s' -> s = s'.
  Proof. intros s s' H1 H2 E. rewrite <- (dec_enc vs s), <- (dec_enc vs s') by auto. congruence. Qed.

  Lemma einit_F' : forall s, In s (fs_states F) ->
    holds_opt F' (fs_einit F') (enc vs s) = holds_opt F (rs_einit R) s /\
    holds_opt F' (fs_sinit F') (enc vs s) = holds_opt F (rs_sinit R) s.
  Proof.
    intros s Hs. destruct (typed_inits R HT) as [T1 T2].
    destruct (init_T flags R (val F' (enc vs s)) (fun _ => 0)) as (E1 & E2 & _).
    cbv zeta in E1, E2.
    destruct (init_blockers flags R HT HN HB s (state_repr R s Hs)) as [B1 B2].
    assert (Di : indom vs (val F s)).
    { apply (state_indom R HN s (state_repr R s Hs)). exact Hs. }
    apply (indom_split R) in Di. destruct Di as [D1 D2].
    apply B1 in D1. apply B2 in D2. cbv zeta in D1, D2.
    change (fs_einit F') with (option_map (expandS vs) (rs_einit (fblocked flags (fdefaults R)))).
    change (fs_sinit F') with (option_map (expandS vs) (rs_sinit (fblocked flags (fdefaults R)))).
    unfold F', vs. rewrite !opt_holds'. fold vs. fold F'. rewrite E1, E2.
    unfold vs, F' in *. rewrite D1, D2. 
    assert (HI : forall b : bool, (if b then true else true) = true) by (intros []; auto).
    rewrite !HI, !andb_true_r.
    rewrite !(opt_ok flags R HN HB) by auto. auto.
  Qed.
  Lemma st_nonext : forall o, (forall f, In f (opt_list o) -> typed R [] f) -> opt_form (fun f => fnexts f = []) o.
  Proof.
    intros [f|] H; [|exact I]. destruct (H f) as [_ [H1 H2]]; [left; auto|]. cbn [opt_form].
    destruct (fnexts f) as [|y l] eqn:E; auto. exfalso.
    assert (Hy : In y (fnexts f)) by (rewrite E; left; auto). apply fnexts_split in Hy.
    destruct Hy as [Hy|Hy]; [destruct (H1 y Hy)|destruct (H2 y Hy) as (? & _ & [])].
  Qed.
  Lemma scoped_nonext : opt_form (fun f => fnexts f = []) (fs_einit F').
  Proof.
    destruct (F'_scoped flags R HT HN) as (H & _). fold F' in H.
    unfold opt_form in *. destruct (fs_einit F'); auto. apply H.
  Qed.
  Lemma states_len : forall G s, In s (fs_states G) -> List.length s = List.length (fs_vars G).
  Proof.
    intros G s H. apply dvecs_In in H. apply in_doms_len in H. unfold doms in H.
    rewrite map_length in H. exact H.
  Qed.
  Definition sep_if : Prop := flags = ALL_ENV_EXIST_SYS_INIT -> seps.
  Lemma flags_cases : flags = UNDEFINED_INIT \/ flags = ALL_ENV_EXIST_SYS_INIT \/ flags = ALL_INIT \/ flags = ONE_SIDE_INIT.
  Proof. destruct flags; auto. Qed.
  Lemma start_ok : sep_if -> forall t, start F' flags t <-> exists s, t = enc vs s /\ start F flags s.
  Proof.
    intros Hsep t. destruct (typed_inits R HT) as [T1 T2]. unfold sep_if in Hsep.
    destruct flags_cases as [Ef|[Ef|[Ef|Ef]]]; unfold start; rewrite Ef.
    - split; [intros []|intros (s & _ & [])].
    - specialize (Hsep Ef). pose proof (seps' Ef Hsep) as (_ & Hse' & _). destruct Hsep as [Hse Hss].
      assert (Hi' : In t (fs_states F') ->
        holds_env F' (fs_einit F') (g_env GF' t) = holds_opt F' (fs_einit F') t).
      { intros Ht. symmetry. apply (opt_env F' (fs_einit F') t scoped_nonext Hse'). apply states_len. auto. }
      assert (Hi : forall s, In s (fs_states F) ->
        holds_env F (fs_einit F) (g_env GF s) = holds_opt F (fs_einit F) s).
      { intros s Hs. symmetry. apply (opt_env F (fs_einit F) s); [apply st_nonext; auto| |apply states_len; auto].
        change (fs_einit F) with (rs_einit R). unfold opt_all, opt_form in *. destruct (rs_einit R); auto. }
      pose proof (initial_ok flags R HT HN HB ltac:(congruence) t) as HI. fold F F' vs in HI.
      unfold initial in HI. split.
      + intros (H1 & H2 & H3). destruct (proj1 HI) as (s & -> & Hs1 & Hs2 & Hs3).
        { split; auto. split; auto. rewrite <- Hi'; auto. }
        exists s. split; auto. split; auto. split; auto. rewrite Hi; auto.
      + intros (s & -> & H1 & H2 & H3). destruct (proj2 HI) as (K1 & K2 & K3).
        { exists s. split; auto. split; auto. split; auto. rewrite <- Hi; auto. }
        split; auto. split; auto. rewrite Hi'; auto.
    - apply (initial_ok flags R HT HN HB). congruence.
    - pose proof (one_side_ok flags R HT HN HB Ef) as H. fold F F' vs in H.
      change (fs_sinit F) with (rs_sinit R). change (fs_einit F) with (rs_einit R).
      destruct (rs_sinit R) as [f|].
      + destruct H as (f' & -> & H). apply H.
      + destruct H as (-> & H). apply H.
  Qed.
  Lemma start_state : forall s, start F flags s -> In s (fs_states F).
  Proof. intros s H. unfold start, initial in H.
    destruct flags_cases as [Ef|[Ef|[Ef|Ef]]]; rewrite Ef in H; try tauto; apply H. Qed.
  Lemma reached_ok : sep_if -> forall t, reached F' (start F' flags) t ->
    exists s, t = enc vs s /\ In s (fs_states F) /\ reached F (start F flags) s.
  Proof.
    intros Hsep t H. induction H as [t H|t t' H IH (L1 & L2 & L3) H2].
    - apply start_ok in H; auto. destruct H as (s & -> & H). exists s. split; auto.
      split; [apply start_state; auto|apply reached0; auto].
    - destruct IH as (s & -> & Hs & Hr).
      destruct (move_ok s t' Hs) as (s' & -> & K1 & K2 & K3); auto.
      { intros Hne. apply H2. auto. }
      exists s'. split; auto. split; auto. apply (reached1 F _ s s'); auto. split; auto.
  Qed.

  (** *** the strategy on integers *)
  Section Strategy.
  Variables (orc : oracle) (alloc : nat -> aut -> nat).
  Hypothesis Horc : oracle_ok (2 * List.length (all_bits vs)) orc.
  Hypothesis Halloc : forall t A, ~ In (alloc t A) (ids A).
  Hypothesis Hsep : sep_if.

  Lemma all_bits_len : List.length (all_bits vs) = total_bits vs.
  Proof.
    rewrite <- bnames_len. unfold bnames, all_bits.
    assert (H : forall v, In v vs -> dnames v = var_bits v)
      by (intros [x d] Hin; apply (dnames_bits vs); auto).
    clear - H. induction vs as [|v l IH]; auto. cbn [flat_map]. rewrite H by (left; auto).
    rewrite !app_length. f_equal. apply IH. intros; apply H; right; auto.
  Qed.
  Lemma Horc' : oracle_ok (2 * (List.length (fs_evars F') + List.length (fs_svars F'))) orc.
  Proof.
    cbn [F' solver_spec fs_evars fs_svars]. rewrite !bit_decls_len.
    rewrite <- total_app. change (rs_evars R ++ rs_svars R) with vs. rewrite <- all_bits_len. exact Horc.
  Qed.
  Let S1 := F'_scoped flags R HT HN.
  Let S2 := F'_boolean flags R HT HN.
  Let S3 := F'_has_goal flags R.

  Section Result.
  Variables (fuel : nat) (A' : aut).
  Hypothesis HA' : synthesize (spec_of F') orc alloc fuel flags = Ok A'.
  Hypothesis Hne' : A' <> [].
  Let A := with_states (dec vs) A'.

  Lemma node_dom : forall x', In x' A' -> exists s, astate x' = enc vs s /\ In s (fs_states F) /\ reached F (start F flags) s.
  Proof.
    intros x' Hx. apply (reached_ok Hsep).
    refine (r_reach F' S1 S2 S3 orc alloc Horc' Halloc fuel flags A' _ HA' x' Hx).
    intros Hf. apply seps'; auto.
  Qed.
  Lemma node_out : forall x, In x A -> exists x', In x' A' /\ astate x' = enc vs (astate x) /\
    aid x' = aid x /\ atrans x' = atrans x /\ amode x' = amode x /\
    In (astate x) (fs_states F) /\ reached F (start F flags) (astate x).
  Proof.
    intros x Hx. unfold A, with_states in Hx. apply in_map_iff in Hx. destruct Hx as (x' & <- & Hx').
    exists x'. destruct (node_dom x' Hx') as (s & E & Hs & Hr). rewrite set_state_state, E.
    unfold vs. rewrite dec_enc by (apply (state_repr R); auto). fold vs. destruct x'. repeat split; auto.
  Qed.
  Lemma node_in : forall x', In x' A' -> exists x, In x A /\ astate x' = enc vs (astate x) /\
    aid x' = aid x /\ atrans x' = atrans x /\ amode x' = amode x.
  Proof.
    intros x' Hx'. exists (set_state (dec vs (astate x')) x'). split; [apply in_map_iff; eauto|].
    destruct (node_dom x' Hx') as (s & E & Hs & _). rewrite set_state_state, E.
    unfold vs. rewrite dec_enc by (apply (state_repr R); auto). destruct x'. repeat split; auto.
  Qed.
  Lemma back : A' = with_states (enc vs) A.
  Proof.
    unfold A, with_states. rewrite map_map. rewrite <- (map_id A') at 1. apply map_ext_in.
    intros x Hx. rewrite set_state_state, set_state_set.
    destruct (node_dom x Hx) as (s & E & Hs & _). rewrite E.
    unfold vs. rewrite dec_enc by (apply (state_repr R); auto). fold vs. rewrite <- E. symmetry. apply set_state_id.
  Qed.
  Lemma ids_eq : ids A = ids A'.
  Proof.
    unfold ids, A, with_states. rewrite map_map. apply map_ext. intros x. destruct x; reflexivity.
  Qed.
  Lemma A_implements : implements R A.
  Proof.
    pose proof (state_repr R) as SR. fold F in SR.
    constructor; fold F.
    - rewrite ids_eq. exact (r_ids F' S1 S2 S3 orc alloc Horc' Halloc fuel flags A' HA').
    - intros x t Hx Ht. destruct (node_out x Hx) as (x' & Hx' & _ & _ & Et & _).
      rewrite <- Et in Ht.
      destruct (r_closed F' S1 S2 S3 orc alloc Horc' Halloc fuel flags A' HA' x' t Hx' Ht) as (y' & Hy' & Ey).
      destruct (node_in y' Hy') as (y & Hy & _ & Ea & _). exists y. split; auto. congruence.
    - intros x Hx. destruct (node_out x Hx) as (x' & _ & _ & _ & _ & _ & H & _). auto.
    - intros x y Hx Hy Ht.
      destruct (node_out x Hx) as (x' & Hx' & Ex & _ & Et & _ & Hsx & _).
      destruct (node_out y Hy) as (y' & Hy' & Ey & Ei & _ & _ & Hsy & _).
      assert (Ht' : In (aid y') (atrans x')) by congruence.
      destruct (r_safe F' S1 S2 S3 orc alloc Horc' Halloc fuel flags A' HA' x' y' Hx' Hy' Ht') as [K1 K2].
      rewrite Ex, Ey in *.
      assert (Hin : In (enc vs (astate y)) (fs_states F')).
      { rewrite <- Ey. exact (proj1 (r_wf F' S1 S2 S3 orc alloc Horc' Halloc fuel flags A' HA' y' Hy')). }
      destruct (move_ok (astate x) _ Hsx Hin K1 K2) as (s' & E & H1 & H2 & H3).
      apply repr_inj in E; [|apply SR; auto|apply SR; auto]. subst s'.
      split; auto. intros Hes. apply H3. exact Hes.
    - intros x e Hx He. destruct (node_out x Hx) as (x' & Hx' & Ex & _ & Et & _ & Hsx & _).
      assert (He' : legal_env GF' (astate x') (enc es e)).
      { rewrite Ex. apply (env_ok flags R HT HN HB (astate x) Hsx). exists e. auto. }
      destruct (r_answer F' S1 S2 S3 orc alloc Horc' Halloc fuel flags A' HA' x' _ Hx' He') as (y' & Hy' & Ht' & Eg).
      destruct (node_in y' Hy') as (y & Hy & Ey & Ei & _). exists y. split; auto. split; [congruence|].
      assert (Hsy : In (astate y) (fs_states F)) by (destruct (node_out y Hy) as (_ & _ & _ & _ & _ & _ & H & _); auto).
      rewrite Ey in Eg. unfold F', vs in Eg. rewrite (genv' flags R) in Eg by (apply SR; auto).
      fold F es in Eg. rewrite <- (dec_enc es (g_env GF (astate y))), <- (dec_enc es e); [congruence| |].
      + apply (env_repr R). apply He.
      + apply (env_repr R). apply (genv_in R HN HB). auto.
    - intros p Hp Hd.
      assert (Hpath : forall t, exists x', In x' A' /\ astate x' = enc vs (astate (p t)) /\
        aid x' = aid (p t) /\ atrans x' = atrans (p t) /\ In (astate (p t)) (fs_states F)).
      { intros t. destruct (Hp t) as [Hx _]. destruct (node_out _ Hx) as (x' & H1 & H2 & H3 & H4 & _ & H5 & _).
        exists x'. auto. }
      assert (Hst : forall t, In (astate (p t)) (fs_states F)) by (intros t; destruct (Hpath t) as (x' & H); apply H).
      set (p' := fun t => set_state (enc vs (astate (p t))) (p t)).
      assert (Hp' : forall t, In (p' t) A' /\ In (aid (p' (S t))) (atrans (p' t))).
      { intros t. split.
        - rewrite back. unfold with_states, p'. apply in_map_iff. exists (p t). split; auto. apply Hp.
        - unfold p'. pose proof (proj2 (Hp t)) as Ht. destruct (p t), (p (S t)). exact Ht. }
      assert (Es : forall t, astate (p' t) = enc vs (astate (p t))) by (intros t; apply set_state_state).
      assert (Hg : gr1 GF' (fun t => astate (p' t))).
      { apply (r_live F' S1 S2 S3 orc alloc Horc' Halloc fuel flags A' HA' p' Hp').
        intros He t. apply evars' in He. rewrite Es.
        assert (Hl : legal_env GF' (enc vs (astate (p t))) (enc es [])).
        { apply (env_ok flags R HT HN HB _ (Hst t)). exists []. split; auto. split.
          - cbn [game_of g_envs]. unfold fs_envs. change (fs_evars (fspec_of R)) with es. rewrite He. left. auto.
          - apply Hd. exact He. }
        destruct Hl as [_ Hl]. rewrite He in Hl. exact Hl. }
      apply (gr1_forms F). fold F. apply (gr1_ok flags R HT HN HB); auto.
    - intros x Hx. destruct (node_out x Hx) as (x' & Hx' & Ex & _ & _ & _ & Hsx & _).
      apply (wins_ok flags R HT HN HB); auto. fold vs F'. rewrite <- Ex.
      exact (r_wins F' S1 S2 S3 orc alloc Horc' Halloc fuel flags A' HA' x' Hx').
  Qed.
  Lemma node_of : forall s, In s (fs_states F) -> SynthSpec.has_node F' A' (enc vs s) -> exists x, In x A /\ astate x = s.
  Proof.
    intros s Hs (x' & c & Hx' & Ex & _). destruct (node_in x' Hx') as (x & Hx & Ex2 & _).
    exists x. split; auto. destruct (node_out x Hx) as (_ & _ & _ & _ & _ & _ & H & _).
    apply repr_inj; [apply (state_repr R); auto|apply (state_repr R); auto|congruence].
  Qed.
  Lemma some_env : forall e, In e (fs_envs F) -> exists s, In s (fs_states F) /\ g_env GF s = e.
  Proof.
    intros e He. destruct (dvecs_ex (doms ss)) as [w Hw]. exists (e ++ w).
    unfold fs_envs, fs_states in *. apply dvecs_In in Hw. apply dvecs_In in He.
    assert (Hl : List.length e = List.length es).
    { apply in_doms_len in He. unfold doms in He. rewrite map_length in He. exact He. }
    split.
    - apply dvecs_In. unfold fs_vars, doms. rewrite map_app. apply Forall2_app; auto.
    - cbn [game_of g_env]. change (fs_evars F) with es. apply firstn_app_len. auto.
  Qed.
  Lemma A_marks : forall x, In x A -> ainit x = true -> start F flags (astate x).
  Proof.
    intros x Hx Hi. destruct (node_out x Hx) as (_ & _ & _ & _ & _ & _ & Hsx & Hr).
    assert (Hx' : exists x', In x' A' /\ ainit x' = true /\ astate x' = enc vs (astate x)).
    { pose proof Hx as Hy. unfold A, with_states in Hy. apply in_map_iff in Hy. destruct Hy as (x' & <- & Hx').
      exists x'. split; auto. split; [destruct x'; exact Hi|]. destruct (node_dom x' Hx') as (s & E & Hs & _).
      rewrite set_state_state, E. unfold vs. rewrite dec_enc by (apply (state_repr R); auto). reflexivity. }
    destruct Hx' as (x' & Hx' & Hi' & Ex).
    assert (Hs' : In (astate x') (fs_states F')).
    { exact (proj1 (r_wf F' S1 S2 S3 orc alloc Horc' Halloc fuel flags A' HA' x' Hx')). }
    assert (Hst : start F' flags (astate x')).
    { destruct flags_cases as [Ef|[Ef|[Ef|Ef]]].
      - exfalso. clear - Hr Ef. rewrite Ef in Hr. induction Hr; auto.
      - pose proof HA' as HA1. rewrite Ef in HA1.
        destruct (r_aes F' S1 S2 S3 orc alloc Horc' Halloc ltac:(apply seps'; auto) fuel A' HA1 Hne') as [_ K].
        unfold start. rewrite Ef. split; auto.
      - unfold start. rewrite Ef.
        apply (r_all_init F' S1 S2 S3 orc alloc Horc' Halloc fuel flags A' HA' Ef Hne'); auto.
      - unfold start. rewrite Ef. split; auto.
        pose proof (r_one_side F' S1 S2 S3 orc alloc Horc' Halloc fuel flags A' HA' Ef Hne') as K.
        destruct (fs_sinit F'); apply K; auto. }
    apply start_ok in Hst; auto. destruct Hst as (s & E & Hs).
    assert (s = astate x); [|subst s; exact Hs].
    apply repr_inj; [apply (state_repr R); apply start_state; auto|apply (state_repr R); auto|unfold vs in *; congruence].
  Qed.
  Lemma A_starts : starts R flags A.
  Proof.
    pose proof (state_repr R) as SR. fold F in SR.
    unfold starts. fold F. split; [exact A_marks|]. destruct flags_cases as [Ef|[Ef|[Ef|Ef]]]; rewrite Ef.
    - exact I.
    - assert (Hse : separated F') by (apply seps'; auto). pose proof (Hsep Ef) as [Hs1 _].
      assert (Hse1 : opt_form (fun f => incl (fvars f) (names (fs_evars F'))) (fs_einit F')) by apply Hse.
      intros e He Hh. pose proof HA' as HA1. rewrite Ef in HA1.
      destruct (some_env e He) as (s0 & Hs0 & Eg0).
      assert (Hnn : flags <> ONE_SIDE_INIT) by congruence.
      destruct (einit_F' s0 Hs0) as [Ei _].
      destruct (typed_inits R HT) as [T1 _].
      rewrite (opt_env F (rs_einit R) s0) in Ei;
        [|apply st_nonext; auto|clear - Hs1; unfold opt_all, opt_form in *; destruct (rs_einit R); auto|apply states_len; auto].
      assert (Hin' : In (enc vs s0) (fs_states F')) by (apply (enc_state flags R HT); apply SR; auto).
      rewrite (opt_env F' (fs_einit F') (enc vs s0)) in Ei; [|apply scoped_nonext|exact Hse1|apply states_len; auto].
      change (firstn (List.length (fs_evars F)) s0) with (g_env GF s0) in Ei.
      change (firstn (List.length (fs_evars F')) (enc vs s0)) with (g_env GF' (enc vs s0)) in Ei.
      assert (Eg' : forall s, In s (fs_states F) -> g_env GF' (enc vs s) = enc es (g_env GF s)).
      { intros s Hs. apply (genv' flags R). apply SR; auto. }
      rewrite Eg', Eg0 in Ei by auto. rewrite Hh in Ei.
      destruct (r_aes F' S1 S2 S3 orc alloc Horc' Halloc Hse fuel A' HA1 Hne') as [K _].
      destruct (K (enc es e)) as (t & Hn & Et & Ht); [apply (enc_env flags R HT); apply (env_repr R); auto|exact Ei|].
      destruct Hn as (x' & c & Hx' & Ex & _). destruct (node_in x' Hx') as (x & Hx & Ex2 & _).
      destruct (node_out x Hx) as (_ & _ & _ & _ & _ & _ & Hsx & _).
      exists (astate x). split; [eauto|]. rewrite <- Ex, Ex2 in Et, Ht. rewrite Eg' in Et by auto.
      split.
      + rewrite <- (dec_enc es (g_env GF (astate x))), <- (dec_enc es e); [congruence| |].
        * apply (env_repr R). auto.
        * apply (env_repr R). apply (genv_in R HN HB). auto.
      + destruct (einit_F' (astate x) Hsx) as [_ E2]. rewrite <- E2. exact Ht.
    - intros s Hs. apply node_of; [apply Hs|].
      destruct (r_all_init F' S1 S2 S3 orc alloc Horc' Halloc fuel flags A' HA' Ef Hne') as [K _].
      apply K. apply (initial_ok flags R HT HN HB); [congruence|]. exists s. auto.
    - pose proof (one_side_ok flags R HT HN HB Ef) as H. fold F F' vs in H.
      pose proof (r_one_side F' S1 S2 S3 orc alloc Horc' Halloc fuel flags A' HA' Ef Hne') as K.
      destruct (rs_sinit R) as [f|].
      + destruct H as (f' & E & H). rewrite E in K. destruct K as [(t & Hn & Hh) _].
        destruct Hn as (x' & c & Hx' & Ex & _). destruct (node_in x' Hx') as (x & Hx & Ex2 & _).
        destruct (node_out x Hx) as (_ & _ & _ & _ & _ & _ & Hsx & _).
        exists (astate x). split; [eauto|].
        destruct (proj1 (H t)) as (s & Es & Hs & Hhs).
        { split; auto. rewrite <- Ex, Ex2. apply (enc_state flags R HT). apply SR; auto. }
        assert (s = astate x) by (apply repr_inj; [apply SR; auto|apply SR; auto|congruence]). subst s. auto.
      + destruct H as (E & H). rewrite E in K. destruct K as [K _].
        intros s Hs Hh. apply node_of; auto. destruct (proj2 (H (enc vs s))) as [H4 H5]; [eauto|].
        apply K; auto.
  Qed.
  End Result.

  Hypothesis HP : prefix_free vs.
  Hypothesis HD : int_domains vs.
  Notation run fuel mode := (gr1c_main orc alloc fuel mode flags (raw_of R)).
  Lemma run_eq : exists N, forall fuel, (N <= fuel)%nat -> forall mode,
    run fuel mode =
      (T <- check_realizable (spec_of F') fuel flags ;;
       match T with
       | None => Ok NotRealizable
       | Some _ => match mode with
         | MODE_REALIZABLE => Ok Realizable
         | MODE_SYNTHESIS => A' <- synthesize (spec_of F') orc alloc fuel flags ;;
             match A' with
             | [] => Ok SynthFailed
             | _ => Ok (Strategy (with_states (dec vs) A') (vlist es) (vlist ss))
             end
         end
       end).
  Proof.
    destruct (prepare_ok flags R (no_bad R HT)) as [N HN']. exists N. intros fuel Hf mode.
    unfold gr1c_main. rewrite (HN' fuel Hf). cbn [bind].
    rewrite (same_check _ _ (solver_spec_same 0 (-1) flags R)).
    change (solver_spec (-1) flags R) with F'.
    destruct (check_realizable (spec_of F') fuel flags) as [[W|]| |]; [|reflexivity|reflexivity|reflexivity].
    cbn [bind]. destruct mode; [reflexivity|].
    rewrite (same_synthesize _ _ (solver_spec_same 0 (-1) flags R)).
    change (solver_spec (-1) flags R) with F'.
    destruct (synthesize (spec_of F') orc alloc fuel flags) as [A'| |] eqn:EA; [|reflexivity|reflexivity].
    cbn [bind]. destruct A' as [|x0 A0] eqn:E; [reflexivity|]. rewrite <- E in *.
    pose proof (back fuel A' EA) as EB. cbn [spec_of evar_list svar_list solver_spec fs_evars fs_svars].
    change (filter (fun v : string * Z => 0 <=? snd v) (rs_vars R)) with (ints vs).
    rewrite EB at 1. unfold vs.
    rewrite (compact_ok (rs_evars R) (rs_svars R)); auto.
    - apply runs_of; auto.
    - intros x Hx. apply (state_repr R). destruct (node_out fuel A' EA x Hx) as (_ & _ & _ & _ & _ & _ & H & _). auto.
  Qed.
  Lemma chain_verdict : forall P, chain_gives R flags P ->
    (exists N, forall fuel, (N <= fuel)%nat -> exists T, check_realizable (spec_of F') fuel flags = Ok T) /\
    forall fuel T, check_realizable (spec_of F') fuel flags = Ok T -> (T <> None <-> P).
  Proof.
    intros P [N1 H1]. destruct (prepare_ok flags R (no_bad R HT)) as [N2 H2].
    destruct (H1 (N1 + N2)%nat) as (sp & nb & Hp & Ht & Hv); [lia|].
    rewrite (H2 (N1 + N2)%nat) in Hp by lia.
    assert (E : sp = spec_of (solver_spec 0 flags R)) by congruence. subst sp. clear Hp.
    split.
    - destruct Ht as [N Ht]. exists N. intros fuel Hf. destruct (Ht fuel Hf) as [T HT']. exists T.
      rewrite (same_check _ _ (solver_spec_same 0 (-1) flags R)) in HT'. exact HT'.
    - intros fuel T HT'. apply (Hv fuel).
      rewrite (same_check _ _ (solver_spec_same 0 (-1) flags R)). exact HT'.
  Qed.
  Lemma answer_right : forall P fuel A', (P : Prop) -> synthesize (spec_of F') orc alloc fuel flags = Ok A' ->
    right_answer R flags P (match A' with [] => SynthFailed | _ =>
      Strategy (with_states (dec vs) A') (vlist es) (vlist ss) end).
  Proof.
    intros P fuel A' HP' EA. destruct A' as [|x0 A0] eqn:E; [exact HP'|]. rewrite <- E in *.
    assert (Hne : A' <> []) by (rewrite E; discriminate).
    split; [exact HP'|]. split; [reflexivity|]. split; [reflexivity|]. split; [|split; [|split]].
    - intros H. apply map_eq_nil in H. auto.
    - apply (A_implements fuel A' EA).
    - apply (A_starts fuel A' EA Hne).
    - intros x Hx. destruct (node_out fuel A' EA x Hx) as (_ & _ & _ & _ & _ & _ & _ & H). exact H.
  Qed.
  Lemma main_right : forall P, chain_gives R flags P ->
    exists N, forall fuel, (N <= fuel)%nat -> forall r, run fuel MODE_SYNTHESIS = Ok r -> right_answer R flags P r.
  Proof.
    intros P HC. destruct (chain_verdict P HC) as [_ Hv]. destruct run_eq as [N2 H2].
    exists N2. intros fuel Hf r Hr. rewrite (H2 fuel Hf) in Hr. clear H2.
    destruct (check_realizable (spec_of F') fuel flags) as [T| |] eqn:EC; [|discriminate Hr|discriminate Hr].
    specialize (Hv fuel T EC). cbn [bind] in Hr. destruct T as [W|].
    - destruct (synthesize (spec_of F') orc alloc fuel flags) as [A'| |] eqn:EA; [|discriminate Hr|discriminate Hr].
      cbn [bind] in Hr. assert (HP' : P) by (apply Hv; discriminate).
      pose proof (answer_right P fuel A' HP' EA) as HR.
      destruct A'; injection Hr as <-; exact HR.
    - injection Hr as <-. intros HP'. apply Hv in HP'. congruence.
  Qed.
  Lemma main_total : forall P, chain_gives R flags P ->
    (forall f W, check_realizable (spec_of F') f flags = Ok (Some W) ->
       exists N, forall fuel, (N <= fuel)%nat -> exists A', synthesize (spec_of F') orc alloc fuel flags = Ok A' /\ A' <> []) ->
    exists N, forall fuel, (N <= fuel)%nat -> exists r, run fuel MODE_SYNTHESIS = Ok r /\
      right_answer R flags P r /\ r <> SynthFailed.
  Proof.
    intros P HC HS. destruct (chain_verdict P HC) as [[N1 Ht] Hv]. destruct run_eq as [N2 H2].
    destruct (Ht N1 (le_n N1)) as [[W|] HT1].
    - destruct (HS _ _ HT1) as [N3 H3]. exists (N1 + N2 + N3)%nat. intros fuel Hf.
      rewrite (H2 fuel) by lia. destruct (Ht fuel) as [T ET]; [lia|]. rewrite ET. cbn [bind].
      destruct T as [W'|].
      + destruct (H3 fuel) as (A' & EA & Hne); [lia|]. rewrite EA. cbn [bind].
        assert (HP' : P) by (apply (Hv _ _ ET); discriminate).
        pose proof (answer_right P fuel A' HP' EA) as HR.
        destruct A' as [|x0 A0]; [congruence|]. eexists. split; [reflexivity|]. split; [exact HR|discriminate].
      + exfalso. apply (proj2 (Hv _ _ ET)); auto. apply (Hv _ _ HT1). discriminate.
    - exists (N1 + N2)%nat. intros fuel Hf. rewrite (H2 fuel) by lia.
      destruct (Ht fuel) as [T ET]; [lia|]. rewrite ET. cbn [bind].
      assert (HP' : ~ P) by (intros HP'; apply (Hv _ _ HT1) in HP'; congruence).
      destruct T as [W'|]; [exfalso; apply HP'; apply (Hv _ _ ET); discriminate|].
      eexists. split; [reflexivity|]. split; [exact HP'|discriminate].
  Qed.
  (** *** synthesis ends *)
  Hypothesis Henv : es <> [] \/ rs_etrans R = [].
  Lemma henv' : fs_evars F' <> [] \/ forall s, In s (fs_states F') -> g_etr GF' s [] = true.
  Proof.
    destruct es as [|v0 es0] eqn:Ees; [|left; rewrite evars', Ees; discriminate]. right. intros s _.
    destruct Henv as [H|H]; [congruence|]. cbn [game_of g_etr].
    change (fs_etrans F') with (and_all (map (expandS vs) (rs_etrans (fblocked flags (fdefaults R))))).
    assert (E : rs_etrans (fblocked flags (fdefaults R)) = [FTrue]).
    { unfold fblocked. cbn [fdefaults rs_evars rs_svars]. unfold es in Ees. rewrite Ees.
      unfold fblock_all at 2. cbn [fold_left].
      apply (fblock_all_inv (fun Q => rs_etrans Q = [FTrue])).
      - cbn [fdefaults rs_etrans]. rewrite H. reflexivity.
      - intros x d Q _ _ HQ. unfold fblock_sys.
        repeat (match goal with |- context [if ?b then _ else _] => destruct b end; auto). }
    rewrite E. cbn [map and_all chain fold_left]. 
    assert (HF : forall ws, expandS ws FTrue = FTrue).
    { induction ws as [|w ws IH]; auto. unfold expandS in *. cbn [fold_left]. destruct (0 <=? snd w); auto. }
    rewrite HF. reflexivity.
  Qed.
  Lemma total_all_init : flags = ALL_INIT -> forall f W, check_realizable (spec_of F') f flags = Ok (Some W) ->
    exists N, forall fuel, (N <= fuel)%nat -> exists A', synthesize (spec_of F') orc alloc fuel flags = Ok A' /\ A' <> [].
  Proof.
    intros Ef f W. rewrite Ef. exact (t_all_init F' S1 S2 S3 orc alloc Horc' Halloc henv' f W).
  Qed.
  Lemma total_aes : flags = ALL_ENV_EXIST_SYS_INIT -> (exists s, initial F s) ->
    forall f W, check_realizable (spec_of F') f flags = Ok (Some W) ->
    exists N, forall fuel, (N <= fuel)%nat -> exists A', synthesize (spec_of F') orc alloc fuel flags = Ok A' /\ A' <> [].
  Proof.
    intros Ef (s & Hs & Hi1 & Hi2) f W. rewrite Ef. intros HW.
    assert (Hse : separated F') by (apply seps'; auto).
    assert (Hse1 : opt_form (fun f => incl (fvars f) (names (fs_evars F'))) (fs_einit F')) by apply Hse.
    destruct (einit_F' s Hs) as [E1 E2].
    assert (Hin' : In (enc vs s) (fs_states F')) by (apply (enc_state flags R HT); apply (state_repr R); auto).
    apply (t_aes F' S1 S2 S3 orc alloc Horc' Halloc henv' Hse f W HW).
    - exists (enc vs s). split; auto. rewrite E2. exact Hi2.
    - exists (g_env GF' (enc vs s)). split.
      + unfold F', vs. rewrite (genv' flags R) by (apply (state_repr R); auto). apply (enc_env flags R HT).
        apply (env_repr R). apply (genv_in R HN HB). auto.
      + change (g_env GF' (enc vs s)) with (firstn (List.length (fs_evars F')) (enc vs s)).
        rewrite <- (opt_env F' (fs_einit F') (enc vs s)); [|apply scoped_nonext|exact Hse1|apply states_len; auto].
        rewrite E1. exact Hi1.
  Qed.
  Lemma total_one_side : flags = ONE_SIDE_INIT -> (exists s, In s (fs_states F) /\ holds_opt F (rs_einit R) s = true) ->
    forall f W, check_realizable (spec_of F') f flags = Ok (Some W) ->
    exists N, forall fuel, (N <= fuel)%nat -> exists A', synthesize (spec_of F') orc alloc fuel flags = Ok A' /\ A' <> [].
  Proof.
    intros Ef (s & Hs & Hi) f W. rewrite Ef. intros HW.
    assert (Hin' : In (enc vs s) (fs_states F')) by (apply (enc_state flags R HT); apply (state_repr R); auto).
    apply (t_one_side F' S1 S2 S3 orc alloc Horc' Halloc henv' f W HW). exists (enc vs s). split; auto.
    destruct (einit_F' s Hs) as [E1 _]. rewrite E1. exact Hi.
  Qed.
  End Strategy.
End Main.

(** ** The three interpretations *)
Lemma run_all_init : forall R orc alloc, usable R -> tools R orc alloc ->
  synth_right R orc alloc ALL_INIT
    ((exists s, initial (fspec_of R) s) /\ forall s, initial (fspec_of R) s -> sys_wins (game_of (fspec_of R)) s) /\
  synth_ends R orc alloc ALL_INIT.
Proof.
  intros R orc alloc (HT & HN & HB & HP & HD) [Ho Ha].
  assert (Hsep : sep_if ALL_INIT R) by (intros H; discriminate H).
  pose proof (int_all_init R HT HN HB) as HC. split.
  - exact (main_right ALL_INIT R HT HN HB orc alloc Ho Ha Hsep HP HD _ HC).
  - intros He.
    destruct (main_total ALL_INIT R HT HN HB orc alloc Ho Ha Hsep HP HD _ HC
      (total_all_init ALL_INIT R HT HN HB orc alloc Ho Ha He eq_refl)) as [N H].
    exists N. intros fuel Hf. destruct (H fuel Hf) as (r & H1 & _ & H3). eauto.
Qed.
Lemma run_one_side : forall R orc alloc, usable R -> tools R orc alloc ->
  synth_right R orc alloc ONE_SIDE_INIT
    (match rs_sinit R with
     | None => forall s, In s (fs_states (fspec_of R)) -> holds_opt (fspec_of R) (rs_einit R) s = true ->
         sys_wins (game_of (fspec_of R)) s
     | Some f => exists s, In s (fs_states (fspec_of R)) /\ holds (fspec_of R) f s = true /\
         sys_wins (game_of (fspec_of R)) s
     end) /\
  ((exists s, In s (fs_states (fspec_of R)) /\ holds_opt (fspec_of R) (rs_einit R) s = true) ->
   synth_ends R orc alloc ONE_SIDE_INIT).
Proof.
  intros R orc alloc (HT & HN & HB & HP & HD) [Ho Ha].
  assert (Hsep : sep_if ONE_SIDE_INIT R) by (intros H; discriminate H).
  pose proof (int_one_side R HT HN HB) as HC. split.
  - exact (main_right ONE_SIDE_INIT R HT HN HB orc alloc Ho Ha Hsep HP HD _ HC).
  - intros Hi He.
    destruct (main_total ONE_SIDE_INIT R HT HN HB orc alloc Ho Ha Hsep HP HD _ HC
      (total_one_side ONE_SIDE_INIT R HT HN HB orc alloc Ho Ha He eq_refl Hi)) as [N H].
    exists N. intros fuel Hf. destruct (H fuel Hf) as (r & H1 & _ & H3). eauto.
Qed.
Lemma run_aes : forall R orc alloc, usable R -> tools R orc alloc ->
  opt_all (fun f => incl (fvars f) (names (rs_evars R))) (rs_einit R) ->
  opt_all (fun f => incl (fvars f) (names (rs_svars R))) (rs_sinit R) ->
  (exists s, In s (fs_states (fspec_of R)) /\ holds_opt (fspec_of R) (rs_sinit R) s = true) ->
  synth_right R orc alloc ALL_ENV_EXIST_SYS_INIT
    (forall e, In e (fs_envs (fspec_of R)) -> holds_env (fspec_of R) (rs_einit R) e = true ->
       exists s, In s (fs_states (fspec_of R)) /\ g_env (game_of (fspec_of R)) s = e /\
         holds_opt (fspec_of R) (rs_sinit R) s = true /\ sys_wins (game_of (fspec_of R)) s) /\
  ((exists s, initial (fspec_of R) s) -> synth_ends R orc alloc ALL_ENV_EXIST_SYS_INIT).
Proof.
  intros R orc alloc (HT & HN & HB & HP & HD) [Ho Ha] Hs1 Hs2 Hs3.
  assert (Hsep : sep_if ALL_ENV_EXIST_SYS_INIT R) by (intros _; split; assumption).
  pose proof (int_aes_separated R HT HN HB Hs1 Hs2 Hs3) as HC. split.
  - exact (main_right ALL_ENV_EXIST_SYS_INIT R HT HN HB orc alloc Ho Ha Hsep HP HD _ HC).
  - intros Hi He.
    destruct (main_total ALL_ENV_EXIST_SYS_INIT R HT HN HB orc alloc Ho Ha Hsep HP HD _ HC
      (total_aes ALL_ENV_EXIST_SYS_INIT R HT HN HB orc alloc Ho Ha Hsep He eq_refl Hi)) as [N H].
    exists N. intros fuel Hf. destruct (H fuel Hf) as (r & H1 & _ & H3). eauto.
Qed.
Lemma run_realizable : forall R orc alloc flags P, usable R -> chain_gives R flags P ->
  exists N, forall fuel, (N <= fuel)%nat -> exists r,
    gr1c_main orc alloc fuel MODE_REALIZABLE flags (raw_of R) = Ok r /\ right_verdict P r.
Proof.
  intros R orc alloc flags P (HT & _) HC.
  destruct (chain_verdict flags R HT P HC) as [[N1 Ht] Hv].
  destruct (prepare_ok flags R (no_bad R HT)) as [N2 H2].
  exists (N1 + N2)%nat. intros fuel Hf. unfold gr1c_main. rewrite (H2 fuel) by lia. cbn [bind].
  rewrite (same_check _ _ (solver_spec_same 0 (-1) flags R)).
  destruct (Ht fuel) as [T ET]; [lia|]. rewrite ET. cbn [bind]. pose proof (Hv _ _ ET) as H.
  destruct T as [W'|]; eexists; (split; [reflexivity|]).
  - apply H. discriminate.
  - intros HP'. apply H in HP'. congruence.
Qed.
