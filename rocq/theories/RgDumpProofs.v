(** Proofs about gr1c-rg -p (RgDump.v). *)
From Coq Require Import List ZArith Bool Arith Ascii String Lia.
From Verif Require Import Base Strs Ptree Form Support Solve FSpec Automaton Nonbool RSpec Main FormCheck ListSpec ListProofs FormPrint
  AutIO Lex LexSpec LexRegex LexProofs LexLayout Parse Syntax ParseProofs PrintProofs FileSpec FileProofs TextSpec TextProofs Output Options OptSpec OptProofs Program ProgramSpec
  ProgramProofs WriteProofs PtDump DumpSpec DumpProofs DumpRun RgParse RgParseProofs Rg RgSpec RgOpts RgProofs RgDump RgDumpSpec.
Import ListNotations.
Open Scope string_scope.
Open Scope list_scope.

Lemma raw_rg_completed : forall R, rg_defaults (raw_of R) = raw_of (rg_completed R).
Proof. intros R. unfold rg_defaults, raw_of, rg_completed. cbn. f_equal; [destruct (rs_etrans R)|destruct (rs_strans R)]; reflexivity. Qed.
Lemma rg_dump_list_ok : forall R, (List.length (rs_sgoals R) <= 1)%nat ->
  rg_dump_list (raw_of R) = map (fun x => (fst x, opt_tree (snd x))) (rg_drawings R).
Proof.
  intros R HL. unfold rg_dump_list, rg_drawings, dot_names. cbn [raw_of r_einit r_sinit r_etrans r_strans r_egoals r_sgoals].
  rewrite !dump_array_ok, !map_app. destruct (rs_sgoals R) as [|g [|h gs]]; [reflexivity|reflexivity|cbn in HL; lia].
Qed.

Definition goal_body (fs : list form) : option string := match fs with [] => None | g :: _ => Some ("  <> " ++ fprint g)%string end.
Definition rg_listing (R : rspec) : string :=
  ("ENV INIT:" ++ ("  " ++ opt_text (rs_einit R)) ++ nl ++ "SYS INIT:" ++ ("  " ++ opt_text (rs_sinit R)) ++ nl ++
   "ENV TRANS:  [] " ++ nl ++ "SYS TRANS:  [] " ++ nl ++
   "ENV GOALS:" ++ or_none (array_body "[]<>" (rs_egoals R)) ++ nl ++ "SYS GOAL:" ++ or_none (goal_body (rs_sgoals R)) ++ nl)%string.
Lemma rg_echo_ok : forall R, rg_echo NULL NULL (raw_of R) = Ok (rg_listing R).
Proof.
  intros R. unfold rg_echo, rg_listing. cbn [raw_of r_einit r_sinit r_egoals r_sgoals]. rewrite !opt_ok. cbn [bind].
  change (print_formula FORMULA_SYNTAX_GR1C NULL) with (Ok ""). cbn [bind].
  destruct (array_body_ok "[]<>" (rs_egoals R)) as (t & -> & E). cbn [bind]. unfold or_none. rewrite <- E.
  destruct (rs_sgoals R) as [|g gs]; cbn [map goal_body].
  - cbn [bind]. rewrite !str_assoc. reflexivity.
  - rewrite print_f. cbn [bind]. rewrite !str_assoc. reflexivity.
Qed.
Definition rg_shown (R : rspec) : list section :=
  [SInit true (rs_einit R); SInit false (rs_sinit R)] ++ list_section (SGoal true) (rs_egoals R) ++ list_section (SGoal false) (rs_sgoals R).
Definition rg_toks (R : rspec) : list ysym :=
  sec_toks (SInit true (rs_einit R)) ++ sec_toks (SInit false (rs_sinit R)) ++ List.concat (map sec_toks (list_section (SGoal true) (rs_egoals R))) ++
  match rs_sgoals R with [] => [] | g :: _ => Y_S_GOAL :: YEventually :: toks g ++ [YSemi] end.
Lemma rg_goal_line : forall fs s, (forall f, In f fs -> writable_form false f) ->
  sx true (if_any "SYSGOAL:" (goal_body fs) ++ s)%string =
  pre (match fs with [] => [] | g :: _ => Y_S_GOAL :: YEventually :: toks g ++ [YSemi] end) (sx true s).
Proof.
  intros [|g fs] s H; [cbn; destruct (sx true s); reflexivity|]. cbn [goal_body if_any]. rewrite !str_assoc.
  assert (E : sx false ("  <> " ++ fprint g ++ ";" ++ nl ++ s)%string = pre (YEventually :: toks g ++ [YSemi]) (sx true s)).
  { change ("  <> " ++ fprint g ++ ";" ++ nl ++ s)%string with ("  " ++ ("<>" ++ (" " ++ fprint g ++ ";" ++ nl ++ s)))%string.
    rewrite sx_blanks. rewrite (sx_tok false false _ (" " ++ fprint g ++ ";" ++ nl ++ s)%string EVENTUALLY_OP YEventually);
      [|apply lx_eventually|reflexivity|discriminate].
    rewrite sx_blank. destruct (H g (or_introl eq_refl)) as (Hw & _).
    rewrite fprint_text, text_lexes by (auto; apply sep_semi). rewrite sx_semi_nl, !pre_app. reflexivity. }
  rewrite (kw "SYSGOAL:" S_GOAL _ _ ltac:(cbn; tauto) ltac:(discriminate) E). rewrite pre_app. reflexivity.
Qed.
Section Listing.
  Variable R : rspec.
  Hypotheses (HW : writable_spec R) (HL : (List.length (rs_sgoals R) <= 1)%nat).
  Let HI : opt_all (writable_form false) (rs_einit R) /\ opt_all (writable_form false) (rs_sinit R).
  Proof.
    pose proof (shown_writable R HW) as H. unfold shown_sections in H. cbn [without_domains rs_einit rs_sinit] in H.
    split; [apply (H (SInit true (rs_einit R)))|apply (H (SInit false (rs_sinit R)))]; cbn; auto.
  Qed.
  Let HG : forall env f, In f (if env : bool then rs_egoals R else rs_sgoals R) -> writable_form false f.
  Proof.
    intros env f Hf. pose proof (shown_writable R HW) as H. unfold shown_sections in H. cbn [without_domains rs_egoals rs_sgoals] in H.
    assert (T : forall (mk : list form -> section) fs g, In g fs -> In (mk fs) (list_section mk fs)) by (intros mk [|g fs] g' Hg; [destruct Hg|left; reflexivity]).
    destruct env.
    - apply (H (SGoal true (rs_egoals R))); auto. rewrite !in_app_iff. right. right. right. left. eapply T; eauto.
    - apply (H (SGoal false (rs_sgoals R))); auto. rewrite !in_app_iff. right. right. right. right. eapply T; eauto.
  Qed.
  Lemma rg_text_toks : sx true ("ENVINIT:" ++ ("  " ++ opt_text (rs_einit R)) ++ ";" ++ nl ++ "SYSINIT:" ++ ("  " ++ opt_text (rs_sinit R)) ++ ";" ++ nl ++
      if_any "ENVGOAL:" (array_body "[]<>" (rs_egoals R)) ++ if_any "SYSGOAL:" (goal_body (rs_sgoals R)))%string = Ok (rg_toks R).
  Proof.
    destruct HI as [H1 H2].
    assert (E4 : sx true (if_any "SYSGOAL:" (goal_body (rs_sgoals R)))%string =
      Ok (match rs_sgoals R with [] => [] | g :: _ => Y_S_GOAL :: YEventually :: toks g ++ [YSemi] end)).
    { rewrite <- (str_nil_r (if_any _ _)), rg_goal_line by apply (HG false). change (sx true "") with (Ok (@nil ysym)). unfold pre. cbn [bind]. rewrite app_nil_r. reflexivity. }
    pose proof (sx_goal_line true (rs_egoals R) (if_any "SYSGOAL:" (goal_body (rs_sgoals R))) (HG true)) as E3. rewrite E4 in E3.
    set (s3 := (match array_body "[]<>" (rs_egoals R) with Some b => "ENVGOAL:" ++ b ++ ";" ++ nl | None => "" end ++ if_any "SYSGOAL:" (goal_body (rs_sgoals R)))%string) in E3.
    change (if_any "ENVGOAL:" (array_body "[]<>" (rs_egoals R)) ++ if_any "SYSGOAL:" (goal_body (rs_sgoals R)))%string with s3. 
    pose proof (sx_init_line false (rs_sinit R) s3 H2) as E2. cbn iota in E2.
    pose proof (sx_init_line true (rs_einit R) (("SYSINIT:" ++ ("  " ++ opt_text (rs_sinit R)) ++ ";" ++ nl) ++ s3)%string H1) as E1. cbn iota in E1.
    rewrite E2, E3 in E1. rewrite !str_assoc in E1. rewrite !str_assoc. etransitivity; [exact E1|]. unfold pre, rg_toks. cbn [bind]. reflexivity.
  Qed.
  Lemma rg_file_spelled : rg_spelled_file (rg_shown R) (rg_toks R).
  Proof.
    destruct HI as [H1 H2]. unfold rg_shown, rg_toks. cbn [app].
    assert (S0 : forall env f, opt_all (writable_form false) f -> rg_spelled (SInit env f) (sec_toks (SInit env f))).
    { intros env f Hf. apply rgs_same; [discriminate|apply sec_spelled; exact Hf]. }
    constructor; [apply S0; auto|]. constructor; [apply S0; auto|].
    assert (S1 : rg_spelled_file (list_section (SGoal false) (rs_sgoals R))
      (match rs_sgoals R with [] => [] | g :: _ => Y_S_GOAL :: YEventually :: toks g ++ [YSemi] end)).
    { pose proof (HG false) as HS. cbn iota in HS. destruct (rs_sgoals R) as [|g [|h gs]] eqn:E; [constructor| |cbn in HL; lia].
      cbn [list_section]. rewrite <- (app_nil_r (Y_S_GOAL :: _)). constructor; [|constructor]. apply (rgs_goal g (toks g)).
      destruct (HS g (or_introl eq_refl)) as (X1 & X2 & X3). apply (rd_iff_any false LUnit). apply toks_reads; auto. }
    pose proof (HG true) as HE. cbn iota in HE.
    destruct (rs_egoals R) as [|g gs] eqn:E; [exact S1|]. change (list_section (SGoal true) (g :: gs)) with [SGoal true (g :: gs)].
    cbn [map List.concat app]. rewrite app_nil_r. constructor; [|exact S1].
    apply rgs_same; [intros fs X; discriminate X|]. apply sec_spelled. exact HE.
  Qed.
  Lemma rg_shown_mean : file_means (rg_shown R) = Some (without_rules R).
  Proof.
    pose proof (shown_mean (without_rules R) ltac:(constructor)) as E.
    unfold file_means, shown_sections in E. cbn [without_rules rs_evars rs_svars rs_einit rs_sinit rs_etrans rs_strans rs_egoals rs_sgoals list_section app] in E.
    cbn [add_sections add_section add_vars] in E. unfold file_means, rg_shown. cbn [app add_sections]. exact E.
  Qed.
  Lemma rg_listing_ok : rg_listing_of R (rg_listing R).
  Proof.
    eexists _, _, _, _. split; [reflexivity|]. eexists. exists (rg_shown R).
    split; [apply sx_symbols; exact rg_text_toks|]. split; [exact rg_file_spelled|exact rg_shown_mean].
  Qed.
End Listing.
