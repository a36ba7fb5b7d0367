(** Proofs about whole runs of gr1c-rg (Rg.v). *)
From Coq Require Import List ZArith Bool Arith Ascii String Lia.
From Verif Require Import Base Game Strs Ptree Form Support EnumProofs Solve SolveProofs FSpec RealProofs EncProofs Automaton AutProofs
  SynthSpec Synth Nonbool NonboolProofs RSpec PipeProofs NbStateProofs Main MainSpec PipeVerdict MainProofs FormCheck ListSpec ListProofs AutIO AutIOSpec AutIOProofs
  Lex LexSpec Parse Syntax FileSpec TextSpec TextProofs AutWrite Output JsonSpec JsonWrite FormatSpec WriteProofs
  Options OptSpec OptProofs Program ProgramSpec ProgramProofs Reach ReachSpec ReachProofs RgIso RgParse RgParseProofs Rg RgPrep RgChain RgSpec RgOpts.
Import ListNotations.
Open Scope string_scope.
Open Scope list_scope.
Open Scope Z_scope.

(** ** A specification without system goal is one with the goal False *)
Lemma one_goal_goal : forall R, exists g gs, rs_sgoals (one_goal R) = g :: gs.
Proof. intros R. unfold one_goal. destruct (rs_sgoals R) as [|g gs] eqn:E; cbn; eauto. Qed.
Lemma one_goal_vars : forall R, rs_vars (one_goal R) = rs_vars R /\ rs_evars (one_goal R) = rs_evars R /\
  rs_svars (one_goal R) = rs_svars R /\ rs_etrans (one_goal R) = rs_etrans R.
Proof. intros R. unfold one_goal. destruct (rs_sgoals R) as [|g gs] eqn:E; cbn; auto. Qed.
Lemma one_goal_usable : forall R, usable R -> usable (one_goal R).
Proof.
  intros R (HT & HN & HB & HP & HD). unfold usable. rewrite (proj1 (one_goal_vars R)). split; [|auto].
  unfold one_goal. destruct (rs_sgoals R) eqn:E; [|exact HT].
  destruct HT as (H1 & H2 & H3 & H4 & H5 & H6 & H7 & H8). split; [exact H1|]. split; [exact H2|]. split; [exact H3|].
  split; [exact H4|]. split; [exact H5|]. split; [|split; [exact H7|]].
  - intros f [<-|[]]. repeat split; cbn; intros; contradiction.
  - intros f Hf. cbn [set_sgoals rs_etrans rs_strans rs_egoals rs_sgoals] in Hf. rewrite !in_app_iff in Hf.
    assert (X : In f (rs_etrans R ++ rs_strans R ++ rs_egoals R ++ rs_sgoals R) \/ FFalse = f).
    { rewrite !in_app_iff. cbn in Hf. tauto. }
    destruct X as [X|<-]; [exact (H8 f X)|]. intros x _. reflexivity.
Qed.
Lemma one_goal_target : forall R, (List.length (rs_sgoals R) <= 1)%nat -> forall s,
  rtarget (fspec_of (one_goal R)) s = goal_state R s.
Proof.
  intros R H s. unfold one_goal, goal_state, rtarget. destruct (rs_sgoals R) as [|g [|g' gs]] eqn:E; cbn in H; [|cbn|lia].
  - reflexivity.
  - rewrite E. rewrite orb_false_r. reflexivity.
Qed.
Lemma one_goal_entry : forall R s, rentry (fspec_of (one_goal R)) s = begin_state R s.
Proof. intros R s. unfold one_goal, rentry, begin_state. destruct (rs_sgoals R); reflexivity. Qed.
Lemma one_goal_initial : forall R s, initial (fspec_of (one_goal R)) s <-> initial (fspec_of R) s.
Proof. intros R s. unfold one_goal. destruct (rs_sgoals R); tauto. Qed.
Lemma one_goal_wins : forall R, (List.length (rs_sgoals R) <= 1)%nat -> forall s, In s (fs_states (fspec_of R)) ->
  (reach_wins (game_of (fspec_of (one_goal R))) (rtarget (fspec_of (one_goal R))) s <->
   reach_wins (game_of (fspec_of R)) (goal_state R) s).
Proof.
  intros R H s Hs.
  assert (T := one_goal_target R H).
  assert (Hs' : In s (g_states (game_of (fspec_of (one_goal R))))) by (unfold one_goal; destruct (rs_sgoals R); exact Hs).
  split; intros HW.
  - eapply (reach_wins_ext (game_of (fspec_of (one_goal R))) (game_of (fspec_of R))); [..|exact Hs'|exact HW].
    all: try (intros; symmetry; apply T).
    all: try (unfold one_goal; destruct (rs_sgoals R); reflexivity).
    all: try (intros; unfold one_goal; destruct (rs_sgoals R); reflexivity).
    unfold one_goal. destruct (rs_sgoals R); auto.
  - eapply (reach_wins_ext (game_of (fspec_of R)) (game_of (fspec_of (one_goal R)))); [..|exact Hs|exact HW].
    all: try (intros; apply T).
    all: try (unfold one_goal; destruct (rs_sgoals R); reflexivity).
    all: try (intros; unfold one_goal; destruct (rs_sgoals R); reflexivity).
    unfold one_goal. destruct (rs_sgoals R); auto.
Qed.
Lemma one_goal_winnable : forall R, (List.length (rs_sgoals R) <= 1)%nat ->
  (rwinnable (fspec_of (one_goal R)) <-> rg_winnable R).
Proof.
  intros R H. unfold rwinnable, rg_winnable. split; intros [(s & Hs) Hw]; (split; [exists s; apply one_goal_initial; auto|]); intros t Ht.
  - apply (one_goal_wins R H); [apply Ht|]. apply Hw, one_goal_initial, Ht.
  - apply (one_goal_initial R) in Ht. apply (one_goal_wins R H); [apply Ht|]. auto.
Qed.
Lemma one_goal_strategy : forall R A, NoDup (names (rs_vars R)) -> bits_distinct (rs_vars R) -> (List.length (rs_sgoals R) <= 1)%nat ->
  reach_strategy (game_of (fspec_of (one_goal R))) (rtarget (fspec_of (one_goal R))) (rentry (fspec_of (one_goal R)))
    (match rs_evars (one_goal R) with [] => true | _ => false end) A ->
  reach_strategy (game_of (fspec_of R)) (goal_state R) (begin_state R) (no_env R) A.
Proof.
  intros R A HN HB H HS. assert (T := one_goal_target R H). assert (T2 := one_goal_entry R).
  rewrite (proj1 (proj2 (one_goal_vars R))) in HS. fold (no_env R) in HS.
  apply (reach_strategy_ext (game_of (fspec_of (one_goal R))) (game_of (fspec_of R))) with
    (tg := rtarget (fspec_of (one_goal R))) (en := rentry (fspec_of (one_goal R))); [..|exact HS].
  all: try (intros; symmetry; first [apply T|apply T2]).
  all: try (unfold one_goal; destruct (rs_sgoals R); reflexivity).
  all: try (intros; unfold one_goal; destruct (rs_sgoals R); reflexivity).
  - unfold one_goal; destruct (rs_sgoals R); auto.
  - unfold one_goal; destruct (rs_sgoals R); exact (genv_in R HN HB).
Qed.

(** ** The answer of rg_main *)
Definition rg_right (R : rspec) (r : main_result) : Prop :=
  match r with
  | Strategy A ev sv => rg_winnable R /\ ev = vlist (rs_evars R) /\ sv = vlist (rs_svars R) /\ rg_strategy_for R A
  | SynthFailed => True
  | _ => False
  end.
Lemma rg_main_right : forall R orc alloc, usable R -> tools R orc alloc -> (List.length (rs_sgoals R) <= 1)%nat ->
  exists N, (forall fuel, (N <= fuel)%nat -> forall r, rg_main orc alloc fuel ALL_INIT (raw_of R) = Ok r -> rg_right R r) /\
   (rg_can_start R -> exists N, forall fuel, (N <= fuel)%nat -> exists r,
      rg_main orc alloc fuel ALL_INIT (raw_of R) = Ok r /\ (r = SynthFailed <-> ~ rg_winnable R)).
Proof.
  intros R orc alloc HU [Ho Ha] HL. pose proof (one_goal_usable R HU) as (HT' & HN' & HB' & HP' & HD').
  destruct HU as (HT & HN & HB & HP & HD).
  destruct (one_goal_vars R) as (V1 & V2 & V3 & V4). destruct (one_goal_goal R) as (g & gs & Hg).
  assert (Ho' : oracle_ok (2 * List.length (all_bits (rs_vars (one_goal R)))) orc) by (rewrite V1; exact Ho).
  destruct (rg_prepare_ok ALL_INIT R (no_bad R HT)) as [N HPr].
  assert (K : forall fuel A', (N <= fuel)%nat ->
    rg_synthesize (spec_of (solver_spec (-1) ALL_INIT (one_goal R))) orc alloc fuel = Ok A' ->
    exists r, rg_main orc alloc fuel ALL_INIT (raw_of R) = Ok r /\ rg_right R r /\ (r = SynthFailed <-> A' = [])).
  { intros fuel A' Hf HA'. unfold rg_main. rewrite (HPr fuel Hf). cbn [bind]. rewrite rg_one, HA'. cbn [bind].
    destruct A' as [|x A1] eqn:EA.
    - exists SynthFailed. split; [reflexivity|]. split; [exact I|tauto].
    - rewrite <- EA in *. assert (Hne : A' <> []) by (rewrite EA; discriminate).
      pose proof (rcompact (one_goal R) HT' HN' HB' orc alloc Ho' Ha fuel A' HA' Hne HP' HD') as HC.
      rewrite V1, V2, V3 in HC.
      exists (Strategy (with_states (dec (rs_vars R)) A') (vlist (rs_evars R)) (vlist (rs_svars R))).
      split; [|split].
      + unfold NbStateProofs.ints in HC. change (evar_list (spec_of (rg_spec 0 ALL_INIT R))) with (vlist (bit_decls 0 (rs_evars R))).
        change (svar_list (spec_of (rg_spec 0 ALL_INIT R))) with (vlist (bit_decls 0 (rs_svars R))).
        rewrite HC. reflexivity.
      + split; [|split; [reflexivity|split; [reflexivity|split; [|split]]]].
        * apply (one_goal_winnable R HL). exact (rA_winnable (one_goal R) HT' HN' HB' g gs Hg orc alloc Ho' Ha fuel A' HA' Hne).
        * rewrite EA. discriminate.
        * apply one_goal_strategy; auto. rewrite <- V1.
          exact (rA_strategy (one_goal R) HT' HN' HB' g gs Hg orc alloc Ho' Ha fuel A' HA' Hne).
        * rewrite <- V1. exact (rA_noinit (one_goal R) HT' HN' HB' orc alloc Ho' Ha fuel A' HA' Hne).
      + split; [discriminate|congruence]. }
  exists N. split.
  - intros fuel Hf r Er.
    assert (X : exists A', rg_synthesize (spec_of (solver_spec (-1) ALL_INIT (one_goal R))) orc alloc fuel = Ok A').
    { unfold rg_main in Er. rewrite (HPr fuel Hf) in Er. cbn [bind] in Er. rewrite rg_one in Er.
      apply bind_ok in Er. destruct Er as (A' & E & _). eauto. }
    destruct X as (A' & HA'). destruct (K fuel A' Hf HA') as (r' & E & Hr & _). congruence.
  - intros Hc. assert (Hc' : rs_evars (one_goal R) <> [] \/ rs_etrans (one_goal R) = []) by (rewrite V2, V4; exact Hc).
    destruct (rtotal (one_goal R) HT' HN' HB' g gs Hg orc alloc Ho' Ha Hc') as (B & HBd).
    exists (N + B)%nat. intros fuel Hf. destruct (HBd fuel ltac:(lia)) as (A' & HA' & Hi).
    destruct (K fuel A' ltac:(lia) HA') as (r & E & _ & Hr). exists r. split; auto. rewrite Hr.
    rewrite <- (one_goal_winnable R HL), <- Hi. destruct A'; split; try congruence; intros X; exfalso; apply X; discriminate.
Qed.

(** ** Runs *)
Lemma strategy_closed : forall R A, rg_strategy_for R A -> closed_aut A.
Proof.
  intros R A (_ & H & _) x Hx t Ht. destruct (rs_closed _ _ _ _ _ H x t Hx Ht) as (y & Hy & <-). apply in_map. auto.
Qed.
Lemma strategy_fit : forall R A, rg_strategy_for R A -> states_fit (List.length (rs_evars R ++ rs_svars R)) A.
Proof.
  intros R A (_ & H & _) x Hx. pose proof (rs_states _ _ _ _ _ H x Hx) as S1. cbn in S1. unfold fs_states in S1. apply dvecs_In in S1.
  apply Forall2_len in S1. rewrite <- S1. unfold doms. rewrite map_length. reflexivity.
Qed.
Section Whole.
  Variables (orc : oracle) (alloc : nat -> aut -> nat) (key : nat -> string) (date : string) (W : world).
  Variables (args : list string) (l : list opt) (files : list string).
  Hypothesis HA : rg_asked args l files.
  Let run fuel := rg_program orc alloc key date fuel W args.
  Lemma rg_go : forall fuel,
    run fuel =
      match open_input W (hd_error files) with
      | None => Ok error_exit
      | Some text =>
          r <- rg_run orc alloc key date fuel (asked_mode l) ALL_INIT (asked_format l) text ;;
          Ok (match asked_mode l with
              | GR1C_MODE_SYNTAX => Exits (snd r) (fst r) None
              | _ => deliver W (asked_output l) r
              end)
      end.
  Proof.
    intros fuel. destruct HA as (Hl & Hv & Hh & Q1 & Q2 & Q3 & Q4).
    destruct (proj2 (rg_options_accepted args l files Hl Hv) Hh) as (o & E & S1 & S2 & S3 & S4 & S5 & S6 & S7 & S8).
    unfold run, rg_program, rg_rest. rewrite E. cbn [bind].
    assert (V : verbosity l = 0) by (clear - Q4; induction l as [|q l0 IH]; auto; destruct q; cbn; try (apply IH; intros b Hb; apply (Q4 b); right; auto); exfalso; eapply Q4; left; eauto).
    rewrite S8, V. assert (L1 : o_logging o = false) by (destruct (o_logging o); auto; exfalso; apply Q2, S7; auto).
    assert (L2 : o_ptdump o = false) by (destruct (o_ptdump o); auto; exfalso; apply Q1, S6; auto).
    rewrite L1, L2, S1, S2, S3, S4, S5. reflexivity.
  Qed.
  Lemma asked_modes : asked_mode l = GR1C_MODE_SYNTAX \/ asked_mode l = GR1C_MODE_SYNTHESIS.
  Proof.
    destruct HA as (Hl & _). unfold asked_mode. clear HA run. revert Hl.
    assert (K : forall d, d = GR1C_MODE_SYNTAX \/ d = GR1C_MODE_SYNTHESIS -> rg_line args l files ->
      chosen mode_of d l = GR1C_MODE_SYNTAX \/ chosen mode_of d l = GR1C_MODE_SYNTHESIS); [|apply K; auto].
    intros d Hd H. revert d Hd. induction H as [|p w args l files Hg Hw Hl IH|f args l files Hf Hl IH|fs]; intros d Hd; auto.
    rewrite chosen_cons. apply IH. destruct p; cbn in Hg |- *; auto; contradiction.
  Qed.
  Lemma rg_no_file : forall fuel f, hd_error files = Some f -> w_file W f = None -> run fuel = Ok error_exit.
  Proof. intros fuel f E Hf. rewrite rg_go, E. cbn. rewrite Hf. reflexivity. Qed.
  Lemma rg_bad_text : forall fuel text, input_text W (hd_error files) text ->
    text_no_formula text -> (~ exists R, rg_text_means text R) -> run fuel = Ok (Exits 2 "" None).
  Proof.
    intros fuel text Hi Hn Hr. rewrite rg_go, (input_open _ _ _ Hi). apply rg_text_rejected in Hr; auto.
    unfold rg_run, deliver. rewrite Hr. destruct (asked_mode l); reflexivity.
  Qed.
  Lemma rg_bad_form : forall fuel text R, input_text W (hd_error files) text ->
    rg_text_means text R -> ~ form_ok ALL_INIT R \/ (1 < List.length (rs_sgoals R))%nat -> run fuel = Ok (Exits 2 "" None).
  Proof.
    intros fuel text R Hi HM Hn. rewrite rg_go, (input_open _ _ _ Hi).
    unfold rg_run. rewrite (rg_text_parse _ _ HM). cbn [bind].
    assert (X : List.length (r_sgoals (raw_of R)) = List.length (rs_sgoals R)) by (cbn; apply map_length). rewrite X.
    destruct (Nat.ltb_spec 1 (List.length (rs_sgoals R))) as [|HL]; [destruct (asked_mode l); reflexivity|].
    destruct Hn as [Hn|]; [|lia]. destruct (form_check_ok ALL_INIT R) as [[Y _]|(_ & s & E & _)]; [tauto|].
    rewrite E. cbn [bind fst]. destruct (asked_mode l); reflexivity.
  Qed.
  Section Good.
    Variables (text : string) (R : rspec).
    Hypotheses (Hi : input_text W (hd_error files) text) (HM : rg_text_means text R) (HF : form_ok ALL_INIT R)
      (HL : (List.length (rs_sgoals R) <= 1)%nat).
    Lemma rg_run_text : forall fuel run fmt,
      rg_run orc alloc key date fuel run ALL_INIT fmt text =
        match run with
        | GR1C_MODE_SYNTAX => Ok ("", 0)
        | _ =>
            r <- rg_main orc alloc fuel ALL_INIT (raw_of R) ;;
            match r with
            | Strategy A ev sv =>
                s <- write_strategy key date fmt
                       (negb (is_null (nonbool_items (link (r_evars (raw_of R)) (r_svars (raw_of R)))))) A ev sv ;;
                Ok (s, 0)
            | _ => Ok ("", -1)
            end
        end.
    Proof.
      intros fuel rn fmt. unfold rg_run. rewrite (rg_text_parse _ _ HM). cbn [bind].
      assert (X : List.length (r_sgoals (raw_of R)) = List.length (rs_sgoals R)) by (cbn; apply map_length). rewrite X.
      destruct (Nat.ltb_spec 1 (List.length (rs_sgoals R))) as [|_]; [lia|].
      destruct (form_check_ok ALL_INIT R) as [[_ E]|[Hn _]]; [|tauto]. rewrite E. reflexivity.
    Qed.
    Lemma rg_syntax : forall fuel, asked_mode l = GR1C_MODE_SYNTAX -> run fuel = Ok (Exits 0 "" None).
    Proof. intros fuel Hm. rewrite rg_go, (input_open _ _ _ Hi), rg_run_text, Hm. reflexivity. Qed.
    Hypotheses (HU : usable R) (HT : tools R orc alloc) (HK : keys_ok key) (Hd : chars plain date) (Hm : asked_mode l = GR1C_MODE_SYNTHESIS).
    Lemma rg_answer : forall fuel r, rg_main orc alloc fuel ALL_INIT (raw_of R) = Ok r -> rg_right R r ->
      exists r', run fuel = Ok r' /\ rg_right_run key date W l R r' /\
        (r = SynthFailed -> r' = error_exit) /\ (r <> SynthFailed -> r' = error_exit <-> no_output_file W l).
    Proof.
      intros fuel r E Hr. rewrite rg_go, (input_open _ _ _ Hi), Hm, rg_run_text, E. cbn [bind].
      destruct r as [| | | |A ev sv]; cbn in Hr; try contradiction.
      - eexists. split; [reflexivity|]. split; [left; reflexivity|]. split; [reflexivity|congruence].
      - destruct Hr as (HP & -> & -> & Hr).
        destruct (written_fit key date (asked_format l) R A HK Hd (rg_text_decls _ _ HM) (strategy_closed R A Hr) (strategy_fit R A Hr)) as (s & Es & Hs).
        rewrite Es. cbn [bind]. eexists. split; [reflexivity|]. unfold deliver. cbn [snd fst].
        change (0 =? 0) with true. cbn match. unfold no_output_file.
        destruct (asked_output l) as [f|] eqn:Eo; [destruct (w_writable W f) eqn:Ew|].
        + split; [right; split; auto; exists A, s; unfold delivered; rewrite Eo; auto|]. split; [discriminate|].
          intros _. split; [discriminate|]. intros (f' & X & Y). injection X as <-. congruence.
        + split; [left; reflexivity|]. split; [discriminate|]. intros _. split; [intros _; exists f; auto|reflexivity].
        + split; [right; split; auto; exists A, s; unfold delivered; rewrite Eo; auto|]. split; [discriminate|].
          intros _. split; [discriminate|]. intros (f' & X & Y). discriminate X.
    Qed.
    Lemma rg_synthesis :
      (exists N, forall fuel, (N <= fuel)%nat -> forall r, run fuel = Ok r -> rg_right_run key date W l R r) /\
      (rg_can_start R -> exists N, forall fuel, (N <= fuel)%nat -> exists r, run fuel = Ok r /\
         rg_right_run key date W l R r /\ rg_exact_run W l R r).
    Proof.
      destruct (rg_main_right R orc alloc HU HT HL) as (N & HN & HE). split.
      - exists N. intros fuel Hf r Er.
        assert (X : exists m, rg_main orc alloc fuel ALL_INIT (raw_of R) = Ok m).
        { rewrite rg_go, (input_open _ _ _ Hi), Hm, rg_run_text in Er.
          apply bind_ok in Er. destruct Er as (q & Er & _). apply bind_ok in Er. destruct Er as (m & Er & _). eauto. }
        destruct X as (m & Em). destruct (rg_answer fuel m Em (HN fuel Hf m Em)) as (r' & E1 & E2 & _).
        rewrite Er in E1. injection E1 as <-. exact E2.
      - intros Hc. destruct (HE Hc) as (N' & HN'). exists (N + N')%nat. intros fuel Hf.
        destruct (HN' fuel ltac:(lia)) as (m & Em & Hw). pose proof (HN fuel ltac:(lia) m Em) as Hr.
        destruct (rg_answer fuel m Em Hr) as (r' & E1 & E2 & E3 & E4).
        exists r'. split; auto. split; auto. unfold rg_exact_run.
        assert (D : m = SynthFailed \/ m <> SynthFailed) by (destruct m; auto; right; discriminate).
        destruct D as [D|D].
        + split; auto. intros _. left. apply Hw. exact D.
        + rewrite (E4 D). split; auto. intros [X|X]; auto. exfalso. apply D, Hw, X.
    Qed.
  End Good.
End Whole.
Lemma rg_stops : forall orc alloc key date fuel W args c p, rg_options args = Ok (Stop c p) ->
  rg_program orc alloc key date fuel W args = Ok (Prints c p).
Proof. intros. unfold rg_program. rewrite H. reflexivity. Qed.
Lemma rg_exit_codes : forall orc alloc key date fuel W args c s f,
  rg_program orc alloc key date fuel W args = Ok (Exits c s f) -> c = 0 \/ c = 2 \/ c = -1.
Proof.
  intros orc alloc key date fuel W args c s f H. unfold rg_program, rg_rest in H. apply bind_ok in H. destruct H as (st & _ & H).
  destruct st as [p a|k p|o]; try discriminate H. destruct (_ || _ || _); [discriminate H|].
  destruct (open_input W (o_input o)) as [text|]; [|injection H as <- _ _; auto].
  apply bind_ok in H. destruct H as (r & Hr & H).
  assert (K : snd r = 0 \/ snd r = 2 \/ snd r = -1).
  { unfold rg_run in Hr. apply bind_ok in Hr. destruct Hr as (p & _ & Hr). destruct p as [raw|]; [|injection Hr as <-; auto].
    destruct (_ <? _)%nat; [injection Hr as <-; auto|]. apply bind_ok in Hr. destruct Hr as (k & _ & Hr).
    destruct (fst k <? 0); [injection Hr as <-; auto|].
    assert (Q : (r0 <- rg_main orc alloc fuel (o_init o) raw ;;
              match r0 with
              | Strategy A ev sv =>
                  s <- write_strategy key date (o_format o)
                         (negb (is_null (nonbool_items (link (r_evars raw) (r_svars raw))))) A ev sv ;;
                  Ok (s, 0)
              | _ => Ok ("", -1)
              end) = Ok r -> snd r = 0 \/ snd r = 2 \/ snd r = -1).
    { intros E. apply bind_ok in E. destruct E as (m & _ & E). destruct m; try (injection E as <-; auto; fail).
      apply bind_ok in E. destruct E as (t & _ & E). injection E as <-. auto. }
    destruct (o_run o); auto. injection Hr as <-. auto. }
  unfold deliver in H. destruct (Z.eqb_spec (snd r) 0) as [E|E]; destruct (o_run o); cbn in H;
    try (injection H as <- _ _; auto; fail).
  all: destruct (o_output o) as [g|]; [destruct (w_writable W g)|]; injection H as <- _ _; auto.
Qed.
