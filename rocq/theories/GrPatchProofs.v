(** Proofs about whole runs of gr1c-patch (GrPatch.v). *)
From Coq Require Import List ZArith Bool Arith Ascii String Lia.
From Verif Require Import Interactive InteractSpec Patch PatchSpec PatchLoad HotLoad.
From Verif Require Import Base Game Strs Ptree Form Support EnumProofs Solve SolveProofs FSpec RealProofs EncProofs Automaton AutProofs
  SynthSpec Synth Nonbool NonboolProofs RSpec PipeProofs NbStateProofs Main MainSpec PipeVerdict MainProofs FormCheck ListSpec ListProofs AutIO AutIOSpec AutIOProofs
  Lex LexSpec Parse Syntax FileSpec TextSpec TextProofs AutWrite Output JsonSpec JsonWrite FormatSpec WriteProofs AutmanProofs
  Options OptSpec OptProofs Program ProgramSpec ProgramProofs Hotswap HotSpec Metric MetricSpec AddGoal AddSpec HotInt IntPatch
  GrPatch GrPatchSpec GrPatchOpts GrPatchPrep GrPatchSame.
Import ListNotations.
Open Scope string_scope.
Open Scope list_scope.
Open Scope Z_scope.

Lemma size_vlist : forall vs, tree_size (vlist vs) = List.length vs.
Proof. induction vs as [|[x d] vs IH]; cbn; auto. rewrite IH. lia. Qed.
Lemma is_null_ints : forall R, negb (is_null (nonbool_items (link (r_evars (raw_of R)) (r_svars (raw_of R))))) =
  negb (is_null (vlist (NbStateProofs.ints (rs_vars R)))).
Proof. intros R. cbn [raw_of r_evars r_svars]. rewrite link_vlist, nonbool_items_ok. reflexivity. Qed.
Lemma pverbosity_quiet : forall l, (forall b, ~ In (PVerbose b) l) -> pverbosity l = 0.
Proof.
  induction l as [|q l IH]; intros H; auto. destruct q; cbn; try (apply IH; intros b Hb; apply (H b); right; auto).
  exfalso. eapply H. left. reflexivity.
Qed.
Lemma error_dec : forall r, r = error_exit \/ r <> error_exit.
Proof.
  intros [c s f|c p|p x|]; try (right; discriminate). unfold error_exit.
  destruct (Z.eq_dec c (-1)) as [->|]; [|right; congruence]. destruct (string_dec s "") as [->|]; [|right; congruence].
  destruct f; [right; discriminate|left; reflexivity].
Qed.
Lemma count_ok : forall flags R, List.length (sys_goals (spec_of (solver_spec 0 flags R))) = goal_count R.
Proof.
  intros flags R. cbn [spec_of sys_goals solver_spec fs_sgoals]. rewrite map_length. cbn [map_forms rs_sgoals]. rewrite map_length.
  assert (K : rs_sgoals (fblocked flags (fdefaults R)) = rs_sgoals (fdefaults R)).
  { unfold fblocked. apply (fblock_all_inv (fun X => rs_sgoals X = rs_sgoals (fdefaults R))).
    - apply (fblock_all_inv (fun X => rs_sgoals X = rs_sgoals (fdefaults R))); auto.
      intros x d X _ _ H. rewrite <- H. unfold fblock_env. destruct (_ <? _); [destruct flags|]; reflexivity.
    - intros x d X _ _ H. rewrite <- H. unfold fblock_sys. destruct (_ <? _); [destruct flags|]; reflexivity. }
  rewrite K. unfold goal_count. cbn [fdefaults rs_sgoals]. destruct (rs_sgoals R); reflexivity.
Qed.

Section Whole.
  Variables (orc : oracle) (alloc : nat -> aut -> nat) (key : nat -> string) (date : string) (broken : string -> ptree) (W : world).
  Variables (args : list string) (l : list popt) (files : list string) (q : request) (a : string).
  Hypothesis HA : patch_asked args l files q a.
  Let run fuel := patch_program orc alloc key date broken fuel W args.
  Lemma patch_go : exists o, psettings l files o /\ forall fuel,
    run fuel =
      (clf <- clf_parse broken (the_goal l) ;;
       match open_input W (hd_error files) with
       | None => Ok error_exit
       | Some text =>
           r <- patch_run orc alloc key date fuel W o clf text ;;
           Ok (match r with POther => Other | PAnswer r => deliver W (the_output l) r end)
       end).
  Proof.
    destruct HA as (Hl & Hv & Hh & (Q1 & Q2 & Q3) & Hc & Hb & Ha & Haut).
    destruct (patch_options_accepted args l files Hl Hv) as (_ & _ & _ & _ & HG).
    destruct (HG Hc Hh) as (o & E & HS); [congruence|exact Hb|]. exists o. split; [exact HS|]. intros fuel.
    destruct HS as (S1 & S2 & S3 & S4 & S5 & S6 & S7 & S8 & S9 & S10 & S11).
    unfold run, patch_program, patch_answer. rewrite E. cbn [bind]. rewrite S11, (pverbosity_quiet l Q3).
    assert (L1 : po_logging o = false) by (destruct (po_logging o); auto; exfalso; apply Q2, S10; auto).
    assert (L2 : po_ptdump o = false) by (destruct (po_ptdump o); auto; exfalso; apply Q1, S9; auto).
    rewrite L1, L2. cbn [orb negb]. rewrite S5, S7, S8. reflexivity.
  Qed.
  Lemma clf_ok : goal_readable l -> exists t, clf_parse broken (the_goal l) = Ok t /\
    (the_goal l = None -> t = NULL) /\ forall s g, the_goal l = Some s -> formula_means s g -> t = tree_of g.
  Proof.
    unfold goal_readable. destruct (the_goal l) as [s|] eqn:E.
    - intros (g & H). exists (tree_of g). split; [apply clf_given; auto|]. split; [discriminate|].
      intros s' g' X H'. injection X as <-. pose proof (clf_given broken s g H) as A1. pose proof (clf_given broken s g' H') as A2. congruence.
    - intros _. exists NULL. split; [reflexivity|]. split; [auto|discriminate].
  Qed.
  Lemma patch_no_file : forall fuel f, goal_readable l -> hd_error files = Some f -> w_file W f = None -> run fuel = Ok error_exit.
  Proof.
    intros fuel f HC E Hf. destruct patch_go as (o & _ & H). rewrite H. destruct (clf_ok HC) as (t & -> & _). cbn [bind].
    rewrite E. cbn. rewrite Hf. reflexivity.
  Qed.
  Lemma patch_bad_text : forall fuel text, goal_readable l -> input_text W (hd_error files) text ->
    text_no_formula text -> (~ exists R, text_means text R) -> run fuel = Ok (Exits 2 "" None).
  Proof.
    intros fuel text HC Hi Hn Hr. destruct patch_go as (o & _ & H). rewrite H. destruct (clf_ok HC) as (t & -> & _). cbn [bind].
    rewrite (input_open _ _ _ Hi). apply text_rejected in Hr; auto. unfold patch_run. rewrite Hr. reflexivity.
  Qed.
  Lemma patch_bad_form : forall fuel text R, goal_readable l -> input_text W (hd_error files) text ->
    text_means text R -> ~ form_ok UNDEFINED_INIT R -> run fuel = Ok (Exits 2 "" None).
  Proof.
    intros fuel text R HC Hi HM Hn. destruct patch_go as (o & _ & H). rewrite H. destruct (clf_ok HC) as (t & -> & _). cbn [bind].
    rewrite (input_open _ _ _ Hi). unfold patch_run. rewrite (text_parse _ _ HM). cbn [bind].
    destruct (form_check_ok UNDEFINED_INIT R) as [[Y _]|(_ & s & E & _)]; [tauto|]. rewrite E. reflexivity.
  Qed.
  Section Spec.
    Variables (text : string) (R : rspec).
    Hypotheses (Hi : input_text W (hd_error files) text) (HM : text_means text R) (HF : form_ok UNDEFINED_INIT R).
    Lemma patch_bad_goal : forall fuel s g, the_goal l = Some s -> formula_means s g ->
      ~ (incl (fvars g) (names (rs_vars R)) /\ fnexts g = []) -> run fuel = Ok (Exits 1 "" None).
    Proof.
      intros fuel s g Eg Hg Hn. destruct patch_go as (o & _ & H). rewrite H.
      rewrite Eg, (clf_given broken s g Hg). cbn [bind]. rewrite (input_open _ _ _ Hi). unfold patch_run.
      rewrite (text_parse _ _ HM). cbn [bind]. destruct (form_check_ok UNDEFINED_INIT R) as [[_ E]|[Hx _]]; [|tauto]. rewrite E. cbn [bind fst].
      change (0 <? 0) with false. cbn match. rewrite clf_list_raw.
      destruct (ListProofs.check_ok g (rs_svars R ++ rs_evars R) []) as (b & E2 & Hb). cbn [vlist] in E2. rewrite E2. cbn [bind].
      destruct b as [w|]; [reflexivity|]. exfalso. apply Hn. destruct Hb as [B1 B2]. split.
      - intros x Hx. specialize (B1 x Hx). unfold names, rs_vars in *. rewrite map_app in *. apply in_app_or in B1. apply in_or_app. tauto.
      - destruct (fnexts g) as [|x r]; auto. exfalso. exact (B2 x (or_introl eq_refl)).
    Qed.
    Lemma goal_clf : goal_fits R l -> goal_readable l.
    Proof. unfold goal_fits, goal_readable. destruct (the_goal l); auto. intros (g & H & _). eauto. Qed.
    Hypothesis HU : usable R.
    Variable xs : list string.
    Hypothesis Hmx : measured R l xs.
    Hypothesis HG : goal_fits R l.
    Let HT := proj1 HU.
    Let HN := proj1 (proj2 HU).
    Let HB := proj1 (proj2 (proj2 HU)).
    Let HP := proj1 (proj2 (proj2 (proj2 HU))).
    Let HD := proj2 (proj2 (proj2 (proj2 HU))).
    Let FL := ALL_ENV_EXIST_SYS_INIT.
    Let F0 := solver_spec 0 FL R.
    Let nb := vlist (NbStateProofs.ints (rs_vars R)).
    Lemma patch_reached : exists o N fs, psettings l files o /\
      (fs = [] <-> xs = []) /\ fields_in (total_bits (rs_vars R)) fs /\
      (forall s r, In s (dvecs (doms (rs_vars R))) -> In r (dvecs (doms (rs_vars R))) ->
        dist fs (enc (rs_vars R) s) (enc (rs_vars R) r) = value_dist (rs_vars R) xs s r) /\
      forall fuel, (N <= fuel)%nat ->
      run fuel =
        match (if String.prefix "-" a then Some (w_stdin W) else w_file W a) with
        | None => Ok error_exit
        | Some st =>
            r <- patch_strategy orc alloc key date fuel o
              (match po_edges o with Some e => w_file W e | None => None end)
              st (raw_of R) (raw_of (expanded_raw FL R)) (spec_of F0) nb
              (match the_goal l with
               | None => NULL
               | Some s => match clf_parse broken (Some s) with Ok t => match expand_clf fuel nb t with Ok t => t | _ => NULL end | _ => NULL end
               end) fs ;;
            Ok (match r with POther => Other | PAnswer r => deliver W (the_output l) r end)
        end.
    Proof.
      destruct (metric_given FL R l xs HN HB HD Hmx) as (fs & M1 & M2 & M3 & M4).
      destruct (patch_prepare_ok R HT) as (N1 & HPr).
      destruct patch_go as (o & HS & H).
      assert (K : exists t N2, clf_parse broken (the_goal l) = Ok t /\ check_vars t (clf_list (raw_of R)) NULL = Ok None /\
        forall fuel, (N2 <= fuel)%nat -> expand_clf fuel nb t = Ok
              (match the_goal l with
               | None => NULL
               | Some s => match clf_parse broken (Some s) with Ok t => match expand_clf fuel nb t with Ok t => t | _ => NULL end | _ => NULL end
               end)).
      { unfold goal_fits in HG. destruct (the_goal l) as [s|] eqn:Eg.
        - destruct HG as (g & Hg & [HS1 HS2]). destruct (expand_clf_ok (rs_vars R) g) as (N2 & HX).
          { intros x d Hx Hd. apply (goal_no_bad R g HS2); auto. }
          exists (tree_of g), N2. rewrite (clf_given broken s g Hg). split; [reflexivity|]. split.
          + rewrite clf_list_raw. destruct (ListProofs.check_ok g (rs_svars R ++ rs_evars R) []) as (b & E2 & Hb). cbn [vlist] in E2. rewrite E2.
            destruct b as [w|]; [|reflexivity]. exfalso. destruct HS1 as (U1 & U2 & U3).
            assert (I1 : incl (fvars g) (names (rs_svars R ++ rs_evars R))).
            { intros x Hx. pose proof (typed_fvars (rs_vars R) false g U1 x Hx) as B1. unfold names, rs_vars in *.
              rewrite map_app in *. apply in_app_or in B1. apply in_or_app. tauto. }
            assert (I2 : incl (fnexts g) (names [])).
            { apply (typed_fvars [] true g). split; [rewrite U2|rewrite U3]; intros ? []. }
            destruct Hb as [[B1 B2]|(x & _ & B1 & B2)]; [exact (B2 (I1 w B1))|exact (B2 (I2 x B1))].
          + intros fuel Hf. fold nb in HX. rewrite (HX fuel Hf). reflexivity.
        - exists NULL, O. split; [reflexivity|]. split; [apply check_null|]. intros fuel _. apply no_clf. auto. }
      destruct K as (t & N2 & K1 & K2 & K3).
      exists o, (N1 + N2)%nat, fs. split; [exact HS|]. split; [exact M2|]. split; [exact M3|]. split; [exact M4|]. intros fuel Hf.
      destruct HS as (S1 & S2 & S3 & S4 & S5 & S6 & S7 & S8 & _).
      rewrite H, K1. cbn [bind]. rewrite (input_open _ _ _ Hi). unfold patch_run.
      rewrite (text_parse _ _ HM). cbn [bind]. destruct (form_check_ok UNDEFINED_INIT R) as [[_ E]|[Hx _]]; [|tauto]. rewrite E. cbn [bind fst].
      change (0 <? 0) with false. cbn match. rewrite K2. cbn [bind]. rewrite (HPr fuel ltac:(lia)). cbn [bind].
      fold FL. fold nb. rewrite (K3 fuel ltac:(lia)). cbn [bind]. rewrite S2, M1. cbn [bind]. rewrite S4.
      destruct HA as (_ & _ & _ & _ & _ & _ & _ & Haut). rewrite Haut. unfold begins.
      destruct (if String.prefix "-" a then Some (w_stdin W) else w_file W a) as [st|]; reflexivity.
    Qed.
    Lemma patch_no_aut : String.prefix "-" a = false -> w_file W a = None -> exists N, forall fuel, (N <= fuel)%nat -> run fuel = Ok error_exit.
    Proof.
      intros Hp Hf. destruct patch_reached as (o & N & fs & _ & _ & _ & _ & H). exists N. intros fuel Hx. rewrite (H fuel Hx), Hp, Hf. reflexivity.
    Qed.

    (** the strategy *)
    Variables (A : aut) (st : string).
    Hypotheses (Hst : GrPatchSpec.aut_text W a st) (HA' : strategy_text R A st).
    Let n := Z.of_nat (List.length (rs_vars R)).
    Lemma st_open : (if String.prefix "-" a then Some (w_stdin W) else w_file W a) = Some st.
    Proof. unfold GrPatchSpec.aut_text in Hst. destruct (String.prefix "-" a); congruence. Qed.
    Lemma correct_closed : forall G B, correct G B -> closed_aut B.
    Proof. intros G B H x Hx t Ht. destruct (co_closed _ _ H x t Hx Ht) as (y & Hy & <-). apply in_map. auto. Qed.
    Lemma correct_fit : forall G B, fs_evars G = rs_evars R -> fs_svars G = rs_svars R -> correct G B -> states_fit (List.length (rs_evars R ++ rs_svars R)) B.
    Proof.
      intros G B E1 E2 H x Hx. pose proof (co_states _ _ H x Hx) as S1. unfold fs_states, fs_vars in S1. rewrite E1, E2 in S1. apply dvecs_In in S1.
      apply Forall2_len in S1. rewrite <- S1. unfold doms. rewrite map_length. reflexivity.
    Qed.
    Lemma st_dump : aut_aut_dump A n = Ok st.
    Proof.
      destruct HA' as (Hc & Hw & Hs & rows & Hr & ->). unfold n. apply AutmanProofs.aut_text; auto.
      - exact (correct_fit (fspec_of R) A eq_refl eq_refl Hc).
      - exact (correct_closed _ _ Hc).
      - exact (co_ids _ _ Hc).
    Qed.
    Lemma original_n : Z.of_nat (tree_size (r_evars (raw_of R)) + tree_size (r_svars (raw_of R))) = n.
    Proof. unfold n, rs_vars. cbn [raw_of r_evars r_svars]. rewrite !size_vlist, app_length. reflexivity. Qed.
    Hypotheses (HK : keys_ok key) (Hdate : chars plain date).
    Let fin (o : popts) (B' : aut) : out outcome :=
      r <- match B' with
           | [] => Ok (PAnswer ("", -1))
           | _ =>
               r <- compact_all B' (evar_list (spec_of F0)) (svar_list (spec_of F0)) nb ;;
               s <- write_strategy key date (po_format o) (negb (is_null nb)) (fst (fst r)) (snd (fst r)) (snd r) ;;
               Ok (PAnswer (s, 0))
           end ;;
      Ok (match r with POther => Other | PAnswer r => deliver W (the_output l) r end).
    Lemma fin_any : forall o B' B, psettings l files o -> B' <> [] ->
      compact_all B' (evar_list (spec_of F0)) (svar_list (spec_of F0)) nb = Ok (B, vlist (rs_evars R), vlist (rs_svars R)) ->
      closed_aut B -> states_fit (List.length (rs_evars R ++ rs_svars R)) B ->
      exists r, fin o B' = Ok r /\ (r = error_exit <-> no_out_file W l) /\ (r = error_exit \/ writes_out key date W l R B r).
    Proof.
      intros o B' B HS Hne HC E1 E2. unfold fin. destruct B' as [|b B1] eqn:EB; [congruence|]. rewrite <- EB in *. rewrite HC. cbn [bind fst snd].
      destruct (written_fit key date (po_format o) R B HK Hdate (text_decls _ _ HM) E1 E2) as (s & Es & Hs).
      rewrite is_null_ints in Es. fold nb in Es. rewrite Es. cbn [bind]. eexists. split; [reflexivity|].
      rewrite (proj1 HS) in Hs. unfold no_out_file, writes_out, handed_out, deliver. cbn [fst snd].
      change (0 =? 0) with true. cbn match. destruct (the_output l) as [f|]; [destruct (w_writable W f) eqn:Ew|].
      - split; [|right; exists s; auto]. split; [discriminate|]. intros (f' & X & Y). injection X as <-. congruence.
      - split; [|left; reflexivity]. split; [intros _; eauto|reflexivity].
      - split; [|right; exists s; auto]. split; [discriminate|]. intros (f' & X & Y). discriminate X.
    Qed.
    Lemma fin_ok : forall o G B' B, psettings l files o -> B' <> [] ->
      compact_all B' (evar_list (spec_of F0)) (svar_list (spec_of F0)) nb = Ok (B, vlist (rs_evars R), vlist (rs_svars R)) ->
      fs_evars G = rs_evars R -> fs_svars G = rs_svars R -> correct G B ->
      exists r, fin o B' = Ok r /\ (r = error_exit <-> no_out_file W l) /\ (r = error_exit \/ writes_out key date W l R B r).
    Proof.
      intros o G B' B HS Hne HC E1 E2 Hco. exact (fin_any o B' B HS Hne HC (correct_closed G B Hco) (correct_fit G B E1 E2 Hco)).
    Qed.
    Hypothesis Htools : tools R orc alloc.
    Let Horc := proj1 Htools.
    Let Halloc := proj2 Htools.
    Let F := fspec_of R.

    (** *** -r *)
    Section Remove.
      Variable d : Z.
      Hypothesis Hq : asked_for l = Some (Remove d).
      Hypothesis Hd0 : 0 <= d.
      Lemma rm_asked : the_changes l = None /\ the_goal l = None /\ the_removal l = Some d.
      Proof.
        unfold asked_for in Hq. destruct (the_changes l); [discriminate|]. destruct (the_goal l); [discriminate|].
        destruct (the_removal l); [|discriminate]. injection Hq as ->. auto.
      Qed.
      Lemma rm_reached : exists o N, psettings l files o /\ forall fuel, (N <= fuel)%nat ->
        run fuel =
          if Z.of_nat (goal_count R) - 1 <? d then Ok (Exits 1 "" None)
          else B' <- rm_sysgoal (spec_of F0) nb orc alloc fuel n st d ;; fin o B'.
      Proof.
        destruct rm_asked as (Q1 & Q2 & Q3). destruct patch_reached as (o & N & fs & HS & _ & _ & _ & H). exists o, N.
        split; [exact HS|]. intros fuel Hf. rewrite (H fuel Hf), st_open.
        destruct HS as (S1 & S2 & S3 & S4 & S5 & S6 & S7 & S8 & _). unfold patch_strategy.
        rewrite S3, Q1, S5, Q2, S6, Q3, original_n. unfold F0 at 1. rewrite count_ok.
        destruct (Z.leb_spec 0 d) as [_|]; [|lia].
        destruct (_ - 1 <? d); [reflexivity|]. destruct (rm_sysgoal _ _ _ _ _ _ _ _) as [B'| |]; reflexivity.
      Qed.
      Lemma rm_range : Z.of_nat (goal_count R) <= d -> exists N, forall fuel, (N <= fuel)%nat -> run fuel = Ok (Exits 1 "" None).
      Proof.
        intros Hk. destruct rm_reached as (o & N & _ & H). exists N. intros fuel Hf. rewrite (H fuel Hf).
        destruct (Z.ltb_spec (Z.of_nat (goal_count R) - 1) d); [|lia]. reflexivity.
      Qed.
      Lemma rm_few : d < Z.of_nat (goal_count R) -> (goal_count R < 3)%nat -> exists N, forall fuel, (N <= fuel)%nat -> run fuel = Ok error_exit.
      Proof.
        intros Hk Hk3. destruct rm_reached as (o & N & _ & H). exists N. intros fuel Hf. rewrite (H fuel Hf).
        destruct (Z.ltb_spec (Z.of_nat (goal_count R) - 1) d); [lia|]. unfold rm_sysgoal. unfold F0. rewrite count_ok.
        destruct (Z.ltb_spec d 0); [lia|]. destruct (Z.leb_spec (Z.of_nat (goal_count R)) d); [lia|]. cbn [orb].
        destruct (Z.ltb_spec (Z.of_nat (goal_count R)) 3); [|lia]. reflexivity.
      Qed.
      Hypothesis Hk3 : (3 <= List.length (rs_sgoals R))%nat.
      Hypothesis Hdk : d < Z.of_nat (List.length (rs_sgoals R)).
      Let i := Z.to_nat d.
      Let Hid : Z.of_nat i = d := Z2Nat.id d Hd0.
      Let Hik : (i < List.length (rs_sgoals R))%nat.
      Proof. lia. Qed.
      Let Hne0 : rs_sgoals R <> [].
      Proof. intros X. rewrite X in Hk3. cbn in Hk3. lia. Qed.
      Lemma rm_there : exists o N, psettings l files o /\ forall fuel, (N <= fuel)%nat ->
        run fuel = (B' <- rm_sysgoal (spec_of F0) nb orc alloc fuel n st (Z.of_nat i) ;; fin o B').
      Proof.
        destruct rm_reached as (o & N & HS & H). exists o, N. split; [exact HS|]. intros fuel Hf. rewrite (H fuel Hf).
        assert (Hgc : goal_count R = List.length (rs_sgoals R)) by (unfold goal_count; lia). rewrite Hgc.
        destruct (Z.ltb_spec (Z.of_nat (List.length (rs_sgoals R)) - 1) d); [lia|]. rewrite Hid. reflexivity.
      Qed.
      Lemma rm_answer : forall B' fuel o, psettings l files o -> in_order F A -> not_skipped F i A ->
        rm_sysgoal (spec_of F0) nb orc alloc fuel n st (Z.of_nat i) = Ok B' -> B' <> [] ->
        exists r, fin o B' = Ok r /\ (r = error_exit <-> no_out_file W l) /\
          (r = error_exit \/ exists B, B <> [] /\ correct (without i F) B /\ keeps F i A B /\ writes_out key date W l R B r).
      Proof.
        intros B' fuel o HS Hio Hns E Hne. destruct HA' as (Hc & Hw & Hs & _).
        destruct (rm_int FL R HT HN HB HP HD Hne0 orc alloc Horc Halloc n A st Hc Hw st_dump Hs i Hik Hk3 Hio Hns fuel B' E Hne) as (C1 & C2 & C3).
        destruct (fin_ok o (without i F) B' (HotInt.back R B') HS Hne C3 eq_refl eq_refl C1) as (r & D1 & D2 & D3).
        exists r. split; [exact D1|]. split; [exact D2|]. destruct D3 as [D3|D3]; [auto|right].
        exists (HotInt.back R B'). split; [destruct B'; [congruence|discriminate]|]. auto.
      Qed.
      Lemma rm_sound : in_order F A -> not_skipped F i A -> exists N, forall fuel, (N <= fuel)%nat -> forall r,
        run fuel = Ok r -> r = error_exit \/
          exists B, B <> [] /\ correct (without i F) B /\ keeps F i A B /\ writes_out key date W l R B r.
      Proof.
        intros Hio Hns. destruct rm_there as (o & N & HS & H). exists N. intros fuel Hf r Er. rewrite (H fuel Hf) in Er.
        apply bind_ok in Er. destruct Er as (B' & E & Er). destruct B' as [|b B1] eqn:EB; [left; injection Er as <-; reflexivity|]. rewrite <- EB in *.
        destruct (rm_answer B' fuel o HS Hio Hns E) as (r' & D1 & _ & D2); [rewrite EB; discriminate|]. rewrite Er in D1. injection D1 as <-. exact D2.
      Qed.
      Lemma rm_exact : in_order F A -> not_skipped F i A ->
        (forall s, In s (fs_states F) -> exists e, legal_env (game_of F) s e) -> (rs_evars R <> [] \/ rs_etrans R = []) ->
        seeks F A -> apart F (HotSpec.after F i) (HotSpec.after F (HotSpec.after F i)) -> exits_fit F i A ->
        exists N, forall fuel, (N <= fuel)%nat -> exists r, run fuel = Ok r /\ (r = error_exit <-> ~ taken_up F i A \/ no_out_file W l).
      Proof.
        intros Hio Hns H1 H2 H3 H4 H5. destruct rm_there as (o & N & HS & H). destruct HA' as (Hc & Hw & Hs & _).
        destruct (rm_int_total FL R HT HN HB HP HD Hne0 orc alloc Horc Halloc n A st Hc Hw st_dump Hs i Hik Hk3 H1 H2 H3 H4 H5) as (N' & HX).
        exists (N + N')%nat. intros fuel Hf. destruct (HX fuel ltac:(lia)) as (B' & E & Hi'). rewrite (H fuel ltac:(lia)).
        assert (E' : rm_sysgoal (spec_of F0) nb orc alloc fuel n st (Z.of_nat i) = Ok B') by exact E. rewrite E'. cbn [bind].
        destruct B' as [|b B1] eqn:EB.
        - exists error_exit. split; [reflexivity|]. split; [intros _; left|reflexivity]. intros X. apply Hi' in X. congruence.
        - rewrite <- EB in *. assert (Hne : B' <> []) by (rewrite EB; discriminate).
          destruct (rm_answer B' fuel o HS Hio Hns E' Hne) as (r & D1 & D2 & _). exists r. split; [exact D1|]. rewrite D2.
          split; [auto|]. intros [X|X]; [exfalso; apply X, Hi', Hne|exact X].
      Qed.
    End Remove.

    (** *** -f *)
    Section Add.
      Variables (s : string) (g : form).
      Hypothesis Hq : asked_for l = Some (Add s).
      Hypothesis Hg : formula_means s g.
      Hypothesis Hgt : goal_typed R g.
      Lemma add_asked : the_changes l = None /\ the_goal l = Some s.
      Proof.
        unfold asked_for in Hq. destruct (the_changes l); [discriminate|]. destruct (the_goal l); [|destruct (the_removal l); discriminate].
        injection Hq as ->. auto.
      Qed.
      Hypothesis Hk2 : (2 <= List.length (rs_sgoals R))%nat.
      Let Hne0 : rs_sgoals R <> [].
      Proof. intros X. rewrite X in Hk2. cbn in Hk2. lia. Qed.
      Let Hgt' : typed R [] g.
      Proof. destruct Hgt as [(U1 & U2 & U3) _]. split; [exact U1|]. split; [rewrite U2|rewrite U3]; intros ? []. Qed.
      Lemma add_sound : in_order F A -> proceeds F A -> exists N, forall fuel, (N <= fuel)%nat -> forall r,
        run fuel = Ok r -> r = error_exit \/
          exists i, comes_behind xs R g i /\
           (apart F i (HotSpec.after F i) -> new_apart F g (HotSpec.after F i) ->
            exists B, B <> [] /\ correct (AddSpec.with_goal (S i) g F) B /\ AddSpec.starts F (HotSpec.after F i) A B /\
              ((forall s, In s (fs_states F) -> exists e, legal_env (game_of F) s e) ->
               in_order_but (AddSpec.with_goal (S i) g F) (moved i (HotSpec.after F i)) (S i) B) /\
              writes_out key date W l R B r).
      Proof.
        intros Hio Hpr. destruct add_asked as (Q1 & Q2). destruct patch_reached as (o & N & fs & HS & M1 & M2 & M3 & H).
        destruct (expand_clf_ok (rs_vars R) g) as (N2 & HX).
        { intros x d Hx Hd. apply (goal_no_bad R g (proj2 Hgt)); auto. }
        exists (N + N2 + 2 ^ List.length (all_bits (rs_vars R)))%nat. intros fuel Hf r Er.
        rewrite (H fuel ltac:(lia)), st_open, Q2, (clf_given broken s g Hg) in Er. fold nb in HX. rewrite (HX fuel ltac:(lia)) in Er.
        pose proof HS as (S1 & S2 & S3 & S4 & S5 & S6 & S7 & S8 & _). unfold patch_strategy in Er.
        rewrite S3, Q1, S5, Q2, original_n in Er.
        destruct (add_metric_sysgoal (spec_of F0) nb orc alloc fuel n st fs (tree_of (expandS (rs_vars R) g))) as [B'| |] eqn:E; try discriminate Er.
        cbn [bind] in Er. change (0 =? 0) with true in Er. cbn match in Er.
        change (fin o B' = Ok r) in Er.
        destruct B' as [|b B1] eqn:EB; [left; injection Er as <-; reflexivity|]. rewrite <- EB in *.
        assert (Hne : B' <> []) by (rewrite EB; discriminate). destruct HA' as (Hc & Hw & Hs & _).
        assert (Hfs : fields_in (List.length (fs_evars (solver_spec (-1) FL R)) + List.length (fs_svars (solver_spec (-1) FL R))) fs).
        { cbn [solver_spec fs_evars fs_svars]. rewrite !NbStateProofs.bit_decls_len, <- total_app. exact M2. }
        destruct (add_int FL R HT HN HB HP HD Hne0 orc alloc Horc Halloc n A st Hc Hw st_dump Hs g Hgt' Hk2 fs Hfs fuel B' ltac:(lia) E Hne) as (i & P1 & P2 & P3).
        destruct (error_dec r) as [D|D]; [auto|right]. exists i. split; [exact (place_int FL R fs xs g i HT HN HB Hne0 M1 M3 Hgt' P1)|].
        intros Ha1 Ha2. destruct (P3 Hio Hpr Ha1 Ha2) as (C1 & C2 & C3 & C4).
        destruct (fin_ok o (AddSpec.with_goal (S i) g F) B' (HotInt.back R B') HS Hne C4 eq_refl eq_refl C1) as (r' & D1 & _ & D3).
        rewrite Er in D1. injection D1 as <-. destruct D3 as [D3|D3]; [contradiction|].
        exists (HotInt.back R B'). split; [destruct B'; [congruence|discriminate]|]. auto.
      Qed.
    End Add.

    (** *** -e *)
    Section Change.
      Variable f : string.
      Hypothesis Hq : asked_for l = Some (Change f).
      Lemma ch_asked : the_changes l = Some f.
      Proof.
        unfold asked_for in Hq. destruct (the_changes l); [injection Hq as ->; auto|]. destruct (the_goal l); [discriminate|].
        destruct (the_removal l); discriminate.
      Qed.
      Lemma ch_no_file : w_file W f = None -> exists N, forall fuel, (N <= fuel)%nat -> run fuel = Ok error_exit.
      Proof.
        intros Hf. pose proof ch_asked as Q1. destruct patch_reached as (o & N & fs & HS & _ & _ & _ & H). exists N. intros fuel Hx.
        rewrite (H fuel Hx), st_open. pose proof HS as (S1 & S2 & S3 & _). unfold patch_strategy. rewrite S3, Q1, Hf. reflexivity.
      Qed.
      Variables (ctext : string) (N : list vec) (cs : list command).
      Hypothesis Hct : w_file W f = Some ctext.
      Hypothesis Hcf : change_file N cs ctext.
      Hypothesis HR : no_ints R.
      Hypothesis Hsv : rs_svars R <> [].
      Hypothesis Hne0 : rs_sgoals R <> [].
      Let et := and_all (rs_etrans (fdefaults R)).
      Let se := and_all (rs_strans (fdefaults R)).
      Let F' := with_rules F et se.
      Let He := erule_same R.
      Let Hse := srule_same R.
      Lemma F0_same : F0 = F'.
      Proof. exact (solver_same FL R HR Hne0 0). Qed.
      Lemma F'_same : solver_spec (-1) FL R = F'.
      Proof. exact (solver_same FL R HR Hne0 (-1)). Qed.
      Hypotheses (HNs : forall s, In s N -> In s (fs_states F)) (Hv : Forall (valid F) cs) (Hch : forallb is_change cs = true).
      Hypotheses (Hio : in_order F A).
      Let ep := rs_etrans (fdefaults R).
      Let sq := rs_strans (fdefaults R).
      Lemma ch_reached : exists o M, psettings l files o /\ forall fuel, (M <= fuel)%nat ->
        run fuel = (B <- patch_localfixpoint (spec_of F') (map tree_of ep) (map tree_of sq) orc alloc fuel st ctext ;; fin o B).
      Proof.
        pose proof ch_asked as Q1. destruct patch_reached as (o & M & fs & HS & _ & _ & _ & H). exists o, M. split; [exact HS|]. intros fuel Hx.
        rewrite (H fuel Hx), st_open. pose proof HS as (S1 & S2 & S3 & _). unfold patch_strategy. rewrite S3, Q1, Hct.
        unfold fin. assert (En : nb = NULL) by (unfold nb; rewrite (ints_none R HR); reflexivity). rewrite !En.
        unfold expanded_raw. rewrite (forms_same FL R HR). rewrite F0_same. cbn [raw_of r_etrans r_strans].
        fold ep sq. destruct (patch_localfixpoint _ _ _ _ _ _ _ _) as [B| |]; reflexivity.
      Qed.
      Let P1 : parts_of (fs_etrans F') ep.
      Proof. apply parts_all. unfold ep. cbn. destruct (rs_etrans R); discriminate. Qed.
      Let P2 : parts_of (fs_strans F') sq.
      Proof. apply parts_all. unfold sq. cbn. destruct (rs_strans R); discriminate. Qed.
      Let W1 : well_scoped F'.
      Proof. rewrite <- F'_same. exact (F'_scoped FL R HT HN). Qed.
      Let W2 : all_boolean F'.
      Proof. rewrite <- F'_same. exact (F'_boolean FL R HT HN). Qed.
      Let W3 : tools_ok F' orc alloc.
      Proof. rewrite <- F'_same. exact (tools' FL R HB orc alloc Horc Halloc). Qed.
      Let En : Z.of_nat (List.length (fs_evars F') + List.length (fs_svars F')) = n.
      Proof. unfold n, rs_vars. rewrite app_length. reflexivity. Qed.
      Lemma fin_bool : forall o B, psettings l files o -> B <> [] -> closed_aut B -> (forall x, In x B -> In (astate x) (fs_states F)) ->
        exists r, fin o B = Ok r /\ (r = error_exit <-> no_out_file W l) /\ (r = error_exit \/ writes_out key date W l R B r).
      Proof.
        intros o B HS Hne Hc Hst'. apply fin_any; auto.
        - unfold nb. rewrite (ints_none R HR), F0_same. reflexivity.
        - intros x Hx. specialize (Hst' x Hx). unfold fs_states, fs_vars in Hst'. apply dvecs_In in Hst'. apply Forall2_len in Hst'.
          rewrite <- Hst'. unfold doms. rewrite map_length. reflexivity.
      Qed.
      Let Hco' : correct F' A.
      Proof. apply correct_same; [exact He|exact Hse|]. exact (proj1 HA'). Qed.
      Lemma ch_sound : patchable F N cs A -> env_moves_in F (changed F cs) -> (rs_evars R = [] -> forall s e, ~ In (RelaxEnv s e) cs) ->
        exists M, forall fuel, (M <= fuel)%nat -> forall r, run fuel = Ok r -> r = error_exit \/
          exists B, B <> [] /\ serves F (changed F cs) B /\ in_order F B /\ starts_kept F N cs A B /\ writes_out key date W l R B r.
      Proof.
        intros Hpt Hmv Hrx. destruct ch_reached as (o & M & HS & H). exists M. intros fuel Hx r Er. rewrite (H fuel Hx) in Er.
        apply bind_ok in Er. destruct Er as (B & E & Er). destruct B as [|b B1] eqn:EB; [left; injection Er as <-; reflexivity|]. rewrite <- EB in *.
        assert (Hne : B <> []) by (rewrite EB; discriminate). destruct HA' as (Hc & Hw & Hs & _).
        pose proof (changed_same F et se He Hse cs Hch) as Hsr.
        fold n in Hw. rewrite <- En in Hw. pose proof st_dump as Hd. rewrite <- En in Hd.
        destruct (patch_sound F' W1 W2 Hsv Hne0 orc alloc ep sq P1 P2 N cs HNs Hv Hch A st ctext Hco' Hio Hw Hd Hs Hcf W3 fuel B (patchable_same F et se N cs A Hpt)
          (moves_same F et se _ _ Hsr Hmv) Hrx E Hne) as (C1 & C2 & C3).
        pose proof (serves_same F et se He _ _ _ Hsr C1) as C1'.
        destruct (fin_bool o B HS Hne) as (r' & D1 & _ & D3).
        { intros x Hx' t Ht. destruct (sv_closed _ _ _ C1' x t Hx' Ht) as (y & Hy & <-). apply in_map. auto. }
        { exact (sv_states _ _ _ C1'). }
        rewrite Er in D1. injection D1 as <-. destruct D3 as [D3|D3]; [auto|right]. exists B. auto.
      Qed.
      Lemma ch_outside : forall x, In x A -> unfit F A cs x -> ~ In (astate x) N ->
        exists M, forall fuel, (M <= fuel)%nat -> run fuel = Ok error_exit.
      Proof.
        intros x Hx Hu Hn. destruct ch_reached as (o & M & HS & H). exists M. intros fuel Hf. rewrite (H fuel Hf).
        destruct HA' as (Hc & Hw & Hs & _). fold n in Hw. rewrite <- En in Hw. pose proof st_dump as Hd. rewrite <- En in Hd.
        rewrite (patch_refuses F' W1 W2 Hsv orc alloc ep sq P1 P2 N cs HNs Hv Hch A st ctext Hco' Hio Hw Hd Hs Hcf fuel x Hx Hu Hn). reflexivity.
      Qed.
      Lemma ch_unaffected : (forall x, In x A -> ~ unfit F A cs x) -> (forall x, In x A -> atrans x <> []) -> A <> [] ->
        exists M, forall fuel, (M <= fuel)%nat -> exists r g, run fuel = Ok r /\ (r = error_exit <-> no_out_file W l) /\
          (forall a b, In a (ids A) -> In b (ids A) -> g a = g b -> a = b) /\
          (r = error_exit \/ writes_out key date W l R (map (relabel g) A) r).
      Proof.
        intros Hu Ht Hne. destruct ch_reached as (o & M & HS & H). exists M. intros fuel Hf. rewrite (H fuel Hf).
        destruct HA' as (Hc & Hw & Hs & _). fold n in Hw. rewrite <- En in Hw. pose proof st_dump as Hd. rewrite <- En in Hd.
        destruct (patch_unchanged F' W1 W2 Hsv orc alloc ep sq P1 P2 N cs HNs Hv Hch A st ctext Hco' Hio Hw Hd Hs Hcf fuel Hu Ht) as (g & G1 & ->).
        cbn [bind]. destruct (fin_bool o (map (relabel g) A) HS) as (r & D1 & D2 & D3).
        - destruct A; [congruence|discriminate].
        - intros x Hx t Ht'. apply in_map_iff in Hx. destruct Hx as (y & <- & Hy). cbn in Ht'. apply in_map_iff in Ht'. destruct Ht' as (u & <- & Hu').
          destruct (co_closed _ _ Hc y u Hy Hu') as (z & Hz & <-). apply in_map_iff. exists (relabel g z). split; [destruct z; reflexivity|apply in_map; auto].
        - intros x Hx. apply in_map_iff in Hx. destruct Hx as (y & <- & Hy). exact (co_states _ _ Hc y Hy).
        - exists r, g. auto.
      Qed.
    End Change.
  End Spec.
End Whole.
Lemma patch_stops : forall orc alloc key date broken fuel W args c p, patch_options args = Ok (PStop c p) ->
  patch_program orc alloc key date broken fuel W args = Ok (Prints c p).
Proof. intros. unfold patch_program. rewrite H. reflexivity. Qed.
Lemma patch_exit_codes : forall orc alloc key date broken fuel W args c s f,
  patch_program orc alloc key date broken fuel W args = Ok (Exits c s f) ->
  (c = 0 \/ c = 1 \/ c = 2 \/ c = -1) /\ (c <> 0 -> s = "" /\ f = None).
Proof.
  intros orc alloc key date broken fuel W args c s f H. unfold patch_program, patch_answer in H. apply bind_ok in H. destruct H as (x & _ & H).
  destruct x as [k p|o]; [discriminate H|]. destruct (_ || _ || _); [discriminate H|].
  apply bind_ok in H. destruct H as (clf & _ & H).
  destruct (open_input W (po_input o)) as [text|]; [|injection H as <- <- <-; auto].
  apply bind_ok in H. destruct H as (r & Hr & H).
  destruct r as [r|]; [|discriminate H].
  assert (K : snd r = 0 \/ (fst r = "" /\ (snd r = 1 \/ snd r = 2 \/ snd r = -1))).
  { unfold patch_run in Hr. apply bind_ok in Hr. destruct Hr as (p & _ & Hr). destruct p as [raw|]; [|injection Hr as <-; auto].
    apply bind_ok in Hr. destruct Hr as (k & _ & Hr). destruct (fst k <? 0); [injection Hr as <-; auto|].
    apply bind_ok in Hr. destruct Hr as (b & _ & Hr). destruct b; [injection Hr as <-; auto|].
    apply bind_ok in Hr. destruct Hr as (q & _ & Hr). destruct q as [[[sp' spc] nb]|]; [|injection Hr as <-; auto].
    apply bind_ok in Hr. destruct Hr as (clf' & _ & Hr). apply bind_ok in Hr. destruct Hr as (offw & _ & Hr).
    destruct (po_aut o) as [a|]; [|discriminate Hr]. destruct (if begins "-" a then _ else _) as [st|]; [|injection Hr as <-; auto].
    unfold patch_strategy in Hr. apply bind_ok in Hr. destruct Hr as (p & Hp & Hr). destruct p as [[A k']|]; [|discriminate Hr].
    assert (K' : k' = 0 \/ k' = 1 \/ k' = -1).
    { destruct (po_edges o).
      - destruct (w_file W s0); [|injection Hp as _ <-; auto]. destruct nb; [|discriminate Hp].
        apply bind_ok in Hp. destruct Hp as (B & _ & Hp). injection Hp as _ <-. auto.
      - destruct (po_formula o); [apply bind_ok in Hp; destruct Hp as (B & _ & Hp); injection Hp as _ <-; auto|].
        destruct (0 <=? po_remove o); [|injection Hp as _ <-; auto]. destruct (_ <? _); [injection Hp as _ <-; auto|].
        apply bind_ok in Hp. destruct Hp as (B & _ & Hp). injection Hp as _ <-. auto. }
    destruct (Z.eqb_spec k' 0) as [E|E]; [|injection Hr as <-; cbn; intuition].
    destruct A as [|x A']; [injection Hr as <-; auto|].
    apply bind_ok in Hr. destruct Hr as (r0 & _ & Hr). apply bind_ok in Hr. destruct Hr as (w & _ & Hr). injection Hr as <-. auto. }
  unfold deliver in H. destruct (Z.eqb_spec (snd r) 0) as [E|E].
  - destruct (po_output o) as [g|]; [destruct (w_writable W g)|]; injection H as <- <- <-; (split; [auto|]); try congruence; auto.
  - injection H as <- <- <-. destruct K as [K|[K1 K2]]; [contradiction|]. split; [tauto|auto].
Qed.
