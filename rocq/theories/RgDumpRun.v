(** Whole runs of gr1c-rg -p. *)
From Coq Require Import List ZArith Bool Arith Ascii String Lia.
From Verif Require Import Base Strs Ptree Form Support Solve FSpec Automaton Nonbool RSpec Main FormCheck ListSpec ListProofs FormPrint
  Parse Syntax FileSpec TextSpec TextProofs Output Options OptSpec OptProofs Program ProgramSpec ProgramProofs PtDump DumpSpec DumpProofs DumpRun
  RgParse RgParseProofs Rg RgSpec RgOpts RgProofs RgDump RgDumpSpec RgDumpProofs.
Import ListNotations.
Open Scope string_scope.
Open Scope list_scope.
Open Scope Z_scope.

Section Runs.
  Variables (orc : oracle) (alloc : nat -> aut -> nat) (key : nat -> string) (date : string) (W : world).
  Variables (addr : string -> list bool -> Z).
  Let rest fuel o := rg_rest orc alloc key date fuel W o.
  Lemma rg_dump_go : forall args l files, rg_asked_dump args l files -> exists o, rg_settings l files o /\
    forall fuel, rg_program_p orc alloc key date addr fuel W args =
      (d <- (match open_input W (hd_error files) with Some text => rg_dump_phase W addr o text | None => Ok None end) ;;
       match d with
       | None => r <- rest fuel o ;; Ok ([], r)
       | Some (fs, screen, true) => r <- rest fuel o ;; Ok (fs, put_before screen r)
       | Some (fs, screen, false) => Ok (fs, Exits (-1) screen None)
       end).
  Proof.
    intros args l files (Hl & Hv & Hh & Q1 & Q2 & Q4).
    destruct (proj2 (rg_options_accepted args l files Hl Hv) Hh) as (o & E & HS). pose proof HS as (S1 & S2 & S3 & S4 & S5 & S6 & S7 & S8).
    assert (L2 : o_ptdump o = true) by (apply S6; auto).
    assert (L1 : o_logging o = false) by (destruct (o_logging o); auto; exfalso; apply Q2, S7; auto).
    exists o. split; [exact HS|]. intros fuel. unfold rg_program_p. rewrite E. cbn [bind].
    rewrite S8, (verbosity_none l Q4), L1, L2, S5. reflexivity.
  Qed.
  Lemma rg_rest_same : forall fuel o l files args', rg_settings l files o -> rg_asked args' (without_dump l) files ->
    rest fuel o = rg_program orc alloc key date fuel W args'.
  Proof.
    intros fuel o l files args' (S1 & S2 & S3 & S4 & S5 & S6 & S7 & S8) HA'.
    rewrite (rg_go orc alloc key date W args' (without_dump l) files HA').
    unfold asked_mode, asked_format, asked_output. rewrite !chosen_without by reflexivity.
    unfold rest, rg_rest. rewrite S1, S2, S3, S4, S5. reflexivity.
  Qed.
  Lemma rg_rest_exits : forall fuel o r, rest fuel o = Ok r -> exists c t f, r = Exits c t f.
  Proof.
    intros fuel o r E. unfold rest, rg_rest in E. destruct (open_input W (o_input o)) as [text|]; [|injection E as <-; eauto].
    assert (D : forall x, exists c t f, deliver W (o_output o) x = Exits c t f).
    { intros x. unfold deliver. destruct (snd x =? 0); [destruct (o_output o) as [g|]; [destruct (w_writable W g)|]|]; eauto. }
    apply bind_ok in E. destruct E as (x & _ & E). injection E as <-. destruct (o_run o); eauto.
  Qed.
  Lemma rg_phase_is : forall l files text R o, rg_text_means text R -> form_ok ALL_INIT R -> (List.length (rs_sgoals R) <= 1)%nat ->
    rg_settings l files o -> asked_mode l <> GR1C_MODE_SYNTAX ->
    rg_dump_phase W addr o text = (d <- rg_dump_and_echo W addr (raw_of (rg_completed R)) ;; Ok (Some d)).
  Proof.
    intros l files text R o HM HF HL (S1 & S2 & S3 & _) Hm. unfold rg_dump_phase. rewrite (rg_text_parse _ _ HM). cbn [bind].
    assert (X : List.length (r_sgoals (raw_of R)) = List.length (rs_sgoals R)) by (cbn; apply map_length). rewrite X.
    destruct (Nat.ltb_spec 1 (List.length (rs_sgoals R))) as [|_]; [lia|].
    rewrite S3. destruct (form_check_ok ALL_INIT R) as [[_ E]|[Hn _]]; [|tauto]. rewrite E. cbn [bind fst].
    change (0 <? 0) with false. cbv iota. rewrite S1. fold (asked_mode l). rewrite raw_rg_completed.
    destruct (asked_mode l); try reflexivity. congruence.
  Qed.
  Lemma rg_whole_dump : forall args l files text R args',
    rg_asked_dump args l files -> asked_mode l <> GR1C_MODE_SYNTAX -> rg_asked args' (without_dump l) files ->
    input_text W (hd_error files) text -> rg_text_means text R -> form_ok ALL_INIT R -> (List.length (rs_sgoals R) <= 1)%nat -> addresses addr ->
    (forall x, In x (rg_drawings (rg_completed R)) -> w_writable W (fst x) = true) ->
    exists fs, drawn addr (rg_drawings (rg_completed R)) fs /\
      forall fuel, rg_program_p orc alloc key date addr fuel W args =
        (r <- rg_program orc alloc key date fuel W args' ;; Ok (fs, put_before (vars_screen R ++ rg_listing R) r)).
  Proof.
    intros args l files text R args' HA Hm HA' Hi HM HF HL Ha Hw. destruct (rg_dump_go args l files HA) as (o & HS & Hrun).
    destruct (dump_trees_ok W addr _ Ha Hw) as (fs & E1 & E2). exists fs. split; [exact E2|].
    intros fuel. rewrite Hrun, (input_open _ _ _ Hi), (rg_phase_is l files text R o HM HF HL HS Hm). unfold rg_dump_and_echo.
    rewrite rg_dump_list_ok by exact HL. rewrite E1. cbn [bind fst snd]. rewrite echo_ok, rg_echo_ok. cbn [bind].
    rewrite (rg_rest_same fuel o l files args' HS HA'). reflexivity.
  Qed.
  Lemma rg_echo_only : forall args l files text R args',
    rg_asked_dump args l files -> asked_mode l <> GR1C_MODE_SYNTAX -> rg_asked args' (without_dump l) files ->
    input_text W (hd_error files) text -> rg_text_means text R -> form_ok ALL_INIT R -> (List.length (rs_sgoals R) <= 1)%nat -> addresses addr ->
    (forall x, In x (rg_drawings (rg_completed R)) -> w_writable W (fst x) = true) ->
    exists listing, (writable_spec R -> rg_listing_of R listing) /\
      forall fuel,
        (forall r, rg_program orc alloc key date fuel W args' = Ok r ->
           exists fs r', rg_program_p orc alloc key date addr fuel W args = Ok (fs, r') /\ echoed (vars_screen R ++ listing) r r') /\
        (forall fs r', rg_program_p orc alloc key date addr fuel W args = Ok (fs, r') ->
           exists r, rg_program orc alloc key date fuel W args' = Ok r /\ echoed (vars_screen R ++ listing) r r').
  Proof.
    intros args l files text R args' HA Hm HA' Hi HM HF HL Ha Hw.
    destruct (rg_whole_dump args l files text R args' HA Hm HA' Hi HM HF HL Ha Hw) as (fs & _ & E).
    exists (rg_listing R). split; [intros X; apply rg_listing_ok; auto|]. destruct (rg_dump_go args l files HA) as (o & HS & _).
    assert (X : forall fuel r, rg_program orc alloc key date fuel W args' = Ok r -> echoed (vars_screen R ++ rg_listing R) r (put_before (vars_screen R ++ rg_listing R) r)).
    { intros fuel r Hr. rewrite <- (rg_rest_same fuel o l files args' HS HA') in Hr. destruct (rg_rest_exits _ _ _ Hr) as (c & t & f & ->). exists c, t, f. auto. }
    intros fuel. split.
    - intros r Hr. rewrite E, Hr. cbn [bind]. eexists _, _. split; [reflexivity|]. eapply X; eauto.
    - intros fs' r' Hr. rewrite E in Hr. apply bind_ok in Hr. destruct Hr as (r & Hr & Y). injection Y as <- <-. exists r. split; auto. eapply X; eauto.
  Qed.
  Lemma rg_files_only : forall args l files text R,
    rg_asked_dump args l files -> asked_mode l <> GR1C_MODE_SYNTAX ->
    input_text W (hd_error files) text -> rg_text_means text R -> form_ok ALL_INIT R -> (List.length (rs_sgoals R) <= 1)%nat -> addresses addr ->
    (forall x, In x (rg_drawings (rg_completed R)) -> w_writable W (fst x) = true) ->
    forall fuel fs r, rg_program_p orc alloc key date addr fuel W args = Ok (fs, r) ->
    drawn addr (rg_drawings (rg_completed R)) fs.
  Proof.
    intros args l files text R HA Hm Hi HM HF HL Ha Hw fuel fs r Hr.
    destruct (rg_dump_go args l files HA) as (o & HS & Hrun). rewrite Hrun in Hr.
    destruct (dump_trees_ok W addr _ Ha Hw) as (fs' & E1 & E2).
    rewrite (input_open _ _ _ Hi), (rg_phase_is l files text R o HM HF HL HS Hm) in Hr. unfold rg_dump_and_echo in Hr.
    rewrite rg_dump_list_ok in Hr by exact HL. rewrite E1 in Hr. cbn [bind fst snd] in Hr. rewrite echo_ok, rg_echo_ok in Hr. cbn [bind] in Hr.
    apply bind_ok in Hr. destruct Hr as (r0 & _ & X). injection X as <- _. exact E2.
  Qed.
  Lemma rg_files_stop : forall args l files text R,
    rg_asked_dump args l files -> asked_mode l <> GR1C_MODE_SYNTAX ->
    input_text W (hd_error files) text -> rg_text_means text R -> form_ok ALL_INIT R -> (List.length (rs_sgoals R) <= 1)%nat -> addresses addr ->
    forall a x b, rg_drawings (rg_completed R) = a ++ x :: b -> (forall y, In y a -> w_writable W (fst y) = true) -> w_writable W (fst x) = false ->
    forall fuel, exists fs, rg_program_p orc alloc key date addr fuel W args = Ok (fs, error_exit) /\ drawn addr a fs.
  Proof.
    intros args l files text R HA Hm Hi HM HF HL Ha a x b Ed Hw Hx fuel. destruct (rg_dump_go args l files HA) as (o & HS & Hrun).
    destruct (dump_trees_stop W addr a x b Ha Hw Hx) as (fs & E1 & E2).
    exists fs. split; [|exact E2]. rewrite Hrun, (input_open _ _ _ Hi), (rg_phase_is l files text R o HM HF HL HS Hm). unfold rg_dump_and_echo.
    rewrite rg_dump_list_ok by exact HL. rewrite Ed, E1. reflexivity.
  Qed.
  Lemma rg_dump_nothing : forall args l files args' text, rg_asked_dump args l files -> rg_asked args' (without_dump l) files ->
    input_text W (hd_error files) text ->
    (asked_mode l = GR1C_MODE_SYNTAX \/ (text_no_formula text /\ ~ exists R, rg_text_means text R) \/
     exists R, rg_text_means text R /\ (~ form_ok ALL_INIT R \/ (1 < List.length (rs_sgoals R))%nat)) ->
    forall fuel r, rg_program orc alloc key date fuel W args' = Ok r ->
    rg_program_p orc alloc key date addr fuel W args = Ok ([], r).
  Proof.
    intros args l files args' text HA HA' Hi H fuel r Hr. destruct (rg_dump_go args l files HA) as (o & HS & Hrun).
    rewrite Hrun, (input_open _ _ _ Hi), (rg_rest_same fuel o l files args' HS HA'), Hr.
    assert (X : rg_dump_phase W addr o text = Ok None); [|rewrite X; reflexivity].
    destruct HS as (S1 & _ & S3 & _). unfold rg_dump_phase. rewrite S1, S3. fold (asked_mode l).
    destruct H as [Hm|[[H1 H2]|(R & HM & HF)]].
    - rewrite (rg_go orc alloc key date W args' (without_dump l) files HA'), (input_open _ _ _ Hi) in Hr.
      unfold asked_mode in Hr. rewrite !chosen_without in Hr by reflexivity. fold (asked_mode l) in Hr. rewrite Hm in *.
      apply bind_ok in Hr. destruct Hr as (q & Hr & _). unfold rg_run in Hr. apply bind_ok in Hr. destruct Hr as (p & -> & Hr). cbn [bind].
      destruct p as [raw|]; [|reflexivity]. destruct (_ <? _)%nat; [reflexivity|]. apply bind_ok in Hr. destruct Hr as (c & -> & Hr). cbn [bind].
      destruct (fst c <? 0); reflexivity.
    - apply rg_text_rejected in H2; auto. rewrite H2. reflexivity.
    - rewrite (rg_text_parse _ _ HM). cbn [bind].
      assert (X : List.length (r_sgoals (raw_of R)) = List.length (rs_sgoals R)) by (cbn; apply map_length). rewrite X.
      destruct (Nat.ltb_spec 1 (List.length (rs_sgoals R))) as [|HL]; [reflexivity|].
      destruct HF as [HF|]; [|lia]. destruct (form_check_ok ALL_INIT R) as [[Y _]|(_ & s & E & _)]; [tauto|]. rewrite E. reflexivity.
  Qed.
  Lemma rg_no_dump_same : forall args l files fuel r,
    rg_asked args l files -> rg_program orc alloc key date fuel W args = Ok r ->
    rg_program_p orc alloc key date addr fuel W args = Ok ([], r).
  Proof.
    intros args l files fuel r (Hl & Hv & Hh & Q1 & Q2 & Q3 & Q4) Hr.
    destruct (proj2 (rg_options_accepted args l files Hl Hv) Hh) as (o & E & S1 & S2 & S3 & S4 & S5 & S6 & S7 & S8).
    unfold rg_program in Hr. unfold rg_program_p. rewrite E in *. cbn [bind] in *.
    assert (L1 : o_logging o = false) by (destruct (o_logging o); auto; exfalso; apply Q2, S7; auto).
    assert (L2 : o_ptdump o = false) by (destruct (o_ptdump o); auto; exfalso; apply Q1, S6; auto).
    rewrite S8, (verbosity_none l Q4), L1, L2 in *. cbn in Hr |- *. rewrite Hr. reflexivity.
  Qed.
End Runs.
Lemma rg_names_differ : forall R, (List.length (rs_sgoals R) <= 1)%nat -> NoDup (map fst (rg_drawings R)).
Proof.
  intros R HL. unfold rg_drawings. rewrite !map_app.
  assert (K : forall k fs x, In x (map fst (dot_names k fs)) -> exists n, x = dot_name k n).
  { intros k fs x. rewrite dot_names_are, in_map_iff. intros (n & <- & _). eauto. }
  assert (S0 : forall x, In x (map fst (map (fun g => ("sys_goal_ptree.dot", Some g)) (rs_sgoals R))) -> x = "sys_goal_ptree.dot").
  { intros x. rewrite map_map, in_map_iff. cbn. intros (g & <- & _). reflexivity. }
  apply nodup_app; [repeat constructor; cbn; intuition discriminate| |].
  - apply nodup_app; [apply dot_names_nodup| |].
    + apply nodup_app; [apply dot_names_nodup| |].
      * apply nodup_app; [apply dot_names_nodup| |].
        -- destruct (rs_sgoals R) as [|g [|h gs]]; cbn in *; [constructor|repeat constructor; auto|lia].
        -- intros x Hx Hy. apply K in Hx. apply S0 in Hy. destruct Hx as (m & ->). discriminate Hy.
      * intros x Hx Hy. rewrite in_app_iff in Hy. apply K in Hx. destruct Hx as (m & ->).
        destruct Hy as [Hy|Hy]; [apply K in Hy; destruct Hy as (n & Hy)|apply S0 in Hy]; discriminate Hy.
    + intros x Hx Hy. rewrite !in_app_iff in Hy. apply K in Hx. destruct Hx as (m & ->).
      destruct Hy as [Hy|[Hy|Hy]]; [apply K in Hy; destruct Hy as (n & Hy)|apply K in Hy; destruct Hy as (n & Hy)|apply S0 in Hy]; discriminate Hy.
  - intros x Hx Hy. rewrite !in_app_iff in Hy.
    destruct Hy as [Hy|[Hy|[Hy|Hy]]]; [apply K in Hy; destruct Hy as (n & ->)|apply K in Hy; destruct Hy as (n & ->)|apply K in Hy; destruct Hy as (n & ->)|apply S0 in Hy; subst x];
      cbn in Hx; destruct Hx as [Hx|[Hx|[]]]; discriminate Hx.
Qed.
