(** C69: option -p of gr1c-rg. Theorems only; proofs are in RgDumpProofs.v and RgDumpRun.v.

    Reading guide. As C67 and C68 (PDump.v). [rg_listing_of R listing]: six lines with labels;
    those for the initial conditions and goals can be read back, those for the transition
    rules are "[] " and nothing else, whatever the rules are (RgDumpSpec.v). *)
From Coq Require Import List ZArith Bool Ascii String.
From Verif Require Import Base Strs Ptree Form EnumProofs Solve FSpec Automaton Synth Nonbool RSpec NbExamples Main ListSpec JsonWrite FormPrint Lex Parse
  LexSpec FileSpec Syntax TextSpec TextProofs Output Options OptSpec Program ProgramSpec ProgramProofs PtDump DumpSpec PDump
  RgParse RgParseProofs Rg RgSpec RgProofs RgDump RgDumpSpec RgDumpRun PRg.
Import ListNotations.
Open Scope string_scope.
Open Scope list_scope.
Open Scope Z_scope.

Theorem C69_echo : forall orc alloc key date W addr args l files text R args',
  rg_asked_dump args l files -> asked_mode l <> GR1C_MODE_SYNTAX -> rg_asked args' (without_dump l) files ->
  input_text W (hd_error files) text -> rg_text_means text R -> form_ok ALL_INIT R -> (List.length (rs_sgoals R) <= 1)%nat -> addresses addr ->
  (forall x, In x (rg_drawings (rg_completed R)) -> w_writable W (fst x) = true) ->
  exists listing, (writable_spec R -> rg_listing_of R listing) /\
    forall fuel,
      (forall r, rg_program orc alloc key date fuel W args' = Ok r ->
         exists fs r', rg_program_p orc alloc key date addr fuel W args = Ok (fs, r') /\ echoed (vars_screen R ++ listing) r r') /\
      (forall fs r', rg_program_p orc alloc key date addr fuel W args = Ok (fs, r') ->
         exists r, rg_program orc alloc key date fuel W args' = Ok r /\ echoed (vars_screen R ++ listing) r r').
Proof. exact rg_echo_only. Qed.
Print Assumptions C69_echo.
Theorem C69_drawn : forall orc alloc key date W addr args l files text R,
  rg_asked_dump args l files -> asked_mode l <> GR1C_MODE_SYNTAX ->
  input_text W (hd_error files) text -> rg_text_means text R -> form_ok ALL_INIT R -> (List.length (rs_sgoals R) <= 1)%nat -> addresses addr ->
  (forall x, In x (rg_drawings (rg_completed R)) -> w_writable W (fst x) = true) ->
  forall fuel fs r, rg_program_p orc alloc key date addr fuel W args = Ok (fs, r) ->
  drawn addr (rg_drawings (rg_completed R)) fs.
Proof. exact rg_files_only. Qed.
Print Assumptions C69_drawn.
Theorem C69_stopped : forall orc alloc key date W addr args l files text R,
  rg_asked_dump args l files -> asked_mode l <> GR1C_MODE_SYNTAX ->
  input_text W (hd_error files) text -> rg_text_means text R -> form_ok ALL_INIT R -> (List.length (rs_sgoals R) <= 1)%nat -> addresses addr ->
  forall a x b, rg_drawings (rg_completed R) = a ++ x :: b -> (forall y, In y a -> w_writable W (fst y) = true) -> w_writable W (fst x) = false ->
  forall fuel, exists fs, rg_program_p orc alloc key date addr fuel W args = Ok (fs, error_exit) /\ drawn addr a fs.
Proof. exact rg_files_stop. Qed.
Print Assumptions C69_stopped.
Theorem C69_names : forall R, (List.length (rs_sgoals R) <= 1)%nat -> NoDup (map fst (rg_drawings R)).
Proof. exact rg_names_differ. Qed.
Print Assumptions C69_names.
Theorem C69_nothing : forall orc alloc key date W addr args l files args' text,
  rg_asked_dump args l files -> rg_asked args' (without_dump l) files -> input_text W (hd_error files) text ->
  (asked_mode l = GR1C_MODE_SYNTAX \/ (text_no_formula text /\ ~ exists R, rg_text_means text R) \/
   exists R, rg_text_means text R /\ (~ form_ok ALL_INIT R \/ (1 < List.length (rs_sgoals R))%nat)) ->
  forall fuel r, rg_program orc alloc key date fuel W args' = Ok r ->
  rg_program_p orc alloc key date addr fuel W args = Ok ([], r).
Proof. exact rg_dump_nothing. Qed.
Print Assumptions C69_nothing.
Theorem C69_without : forall orc alloc key date W addr args l files fuel r,
  rg_asked args l files -> rg_program orc alloc key date fuel W args = Ok r ->
  rg_program_p orc alloc key date addr fuel W args = Ok ([], r).
Proof. exact rg_no_dump_same. Qed.
Print Assumptions C69_without.

(** ** Finding: the rules are not echoed *)
Definition C69_text (rule : string) : string := ("SYS: b;" ++ nl ++ "SYSINIT: !b;" ++ nl ++ "SYSTRANS: [] " ++ rule ++ ";" ++ nl ++ "SYSGOAL: <>b;" ++ nl)%string.
Definition C69_spec (rule : form) : rspec := {|
  rs_evars := []; rs_svars := [("b", -1)]; rs_einit := None; rs_sinit := Some (FNot (FVar "b"));
  rs_etrans := []; rs_strans := [rule]; rs_egoals := []; rs_sgoals := [FVar "b"] |}.
Definition C69_world (text : string) : world := World (fun f => if String.eqb f "lamp.rg" then Some text else None) "" (fun _ => true).
Definition C69_rules_claim : Prop := forall text text' R R' fs fs' c c' screen file file',
  rg_text_means text R -> rg_text_means text' R' ->
  rg_program_p robdd_oracle alloc_max ex_key "now" C67_addr 40 (C69_world text) ["-p"; "-o"; "s"; "lamp.rg"] = Ok (fs, Exits c screen file) ->
  rg_program_p robdd_oracle alloc_max ex_key "now" C67_addr 40 (C69_world text') ["-p"; "-o"; "s"; "lamp.rg"] = Ok (fs', Exits c' screen file') ->
  rs_strans R = rs_strans R'.
Lemma C69_means : forall rule f, rg_yyparse (C69_text rule) = Ok (Some (raw_of (C69_spec f))) ->
  (exists k, yylex (C69_text rule) = Ok k /\ no_formula (symbols k)) -> rg_text_means (C69_text rule) (C69_spec f).
Proof.
  intros rule f E (k & Ek & Hk). apply rg_means_by_parse; [|exact E].
  intros ys H. apply text_symbols_iff in H. destruct H as (ts & H & <-). rewrite Ek in H. injection H as <-. exact Hk.
Qed.
Lemma C69_witness : ~ C69_rules_claim.
Proof.
  intros H.
  assert (M1 : rg_text_means (C69_text "(b -> b')") (C69_spec (FImp (FVar "b") (FNext "b")))).
  { apply C69_means; [vm_compute; reflexivity|]. eexists. split; [vm_compute; reflexivity|reflexivity]. }
  assert (M2 : rg_text_means (C69_text "b'") (C69_spec (FNext "b"))).
  { apply C69_means; [vm_compute; reflexivity|]. eexists. split; [vm_compute; reflexivity|reflexivity]. }
  assert (E : exists fs fs' c c' screen file file',
    rg_program_p robdd_oracle alloc_max ex_key "now" C67_addr 40 (C69_world (C69_text "(b -> b')")) ["-p"; "-o"; "s"; "lamp.rg"] = Ok (fs, Exits c screen file) /\
    rg_program_p robdd_oracle alloc_max ex_key "now" C67_addr 40 (C69_world (C69_text "b'")) ["-p"; "-o"; "s"; "lamp.rg"] = Ok (fs', Exits c' screen file')).
  { do 7 eexists. split; vm_compute; reflexivity. }
  destruct E as (fs & fs' & c & c' & screen & file & file' & E1 & E2).
  pose proof (H _ _ _ _ _ _ _ _ _ _ _ M1 M2 E1 E2) as X. discriminate X.
Qed.
Theorem C69_rules_refuted : ~ C69_rules_claim.
Proof. exact C69_witness. Qed.
Print Assumptions C69_rules_refuted.

(** ** An instance *)
Definition C69_lamp : world := World (w_file C62_world) "" (fun _ => true).
Definition C69_args : list string := ["lamp.rg"; "-p"; "-t"; "aut"; "lost.rg"; "-o"; "lamp.aut"].
Definition C69_opts : list opt := [ODump; OType FORMAT_AUT; OOutput "lamp.aut"].
Definition C69_screen : string :=
"Environment variables (indices; domains): x (0; {0..2})

System variables (indices; domains): b (1; bool)

ENV INIT:  (x=0)
SYS INIT:  (!b)
ENV TRANS:  [] 
SYS TRANS:  [] 
ENV GOALS:  []<> (x=2)
SYS GOAL:  <> b
".
Example C69_instance : rg_asked_dump C69_args C69_opts ["lamp.rg"; "lost.rg"] /\ asked_mode C69_opts <> GR1C_MODE_SYNTAX /\
  rg_asked C62_args (without_dump C69_opts) ["lamp.rg"; "lost.rg"] /\
  input_text C69_lamp (hd_error ["lamp.rg"; "lost.rg"]) C62_text /\ rg_text_means C62_text C62_spec /\ form_ok ALL_INIT C62_spec /\
  (List.length (rs_sgoals C62_spec) <= 1)%nat /\ addresses C67_addr /\
  (forall x, In x (rg_drawings (rg_completed C62_spec)) -> w_writable C69_lamp (fst x) = true) /\ writable_spec C62_spec /\
  exists fs, rg_program_p robdd_oracle alloc_max ex_key "now" C67_addr 40 C69_lamp C69_args =
    Ok (fs, Exits 0 C69_screen (Some ("lamp.aut", C62_file))) /\
    map fst fs = ["env_init_ptree.dot"; "sys_init_ptree.dot"; "env_trans00000_ptree.dot"; "sys_trans00000_ptree.dot"; "sys_trans00001_ptree.dot";
      "env_goal00000_ptree.dot"; "sys_goal_ptree.dot"] /\
    hd_error fs = Some ("env_init_ptree.dot", C67_dot).
Proof.
  destruct C62_instance as (A & _ & _ & I2 & I3 & I4 & _). destruct C67_instance as (_ & _ & _ & _ & _ & _ & I5 & _).
  split.
  { split; [|split; [|split; [|split; [|split]]]].
    - apply rl_file; [reflexivity|]. apply (rl_opt ODump ["-p"]); [exact I|constructor|]. apply (rl_opt (OType FORMAT_AUT) ["-t"; "aut"]); [exact I|exact (w_t FORMAT_AUT "")|].
      apply rl_file; [reflexivity|]. apply (rl_opt (OOutput "lamp.aut") ["-o"; "lamp.aut"]); [exact I|constructor|constructor].
    - intros b H. cbn in H. repeat destruct H as [H|H]; try discriminate H; auto.
    - intros H. cbn in H. repeat destruct H as [H|H]; try discriminate H; auto.
    - left. reflexivity.
    - intros H. cbn in H. repeat destruct H as [H|H]; try discriminate H; auto.
    - intros b H. cbn in H. repeat destruct H as [H|H]; try discriminate H; auto. }
  split; [discriminate|]. split; [exact A|]. split; [reflexivity|]. split; [exact I2|]. split; [exact I3|]. split; [exact I4|]. split; [exact I5|].
  split; [reflexivity|]. split.
  { destruct ex_int_written as ([H1 H2] & _). split; [exact H1|]. intros s Hs. unfold sections_of in *. rewrite !in_app_iff in Hs.
    destruct Hs as [Hs|[Hs|[Hs|[Hs|[Hs|[Hs|Hs]]]]]]; try (apply H2; rewrite !in_app_iff; tauto).
    destruct Hs as [<-|[]]. intros f [<-|[]]. apply (H2 (SGoal false (rs_sgoals ex_int))); [rewrite !in_app_iff; do 6 right; left; reflexivity|left; reflexivity]. }
  eexists. split; [vm_compute; reflexivity|]. split; reflexivity.
Qed.
Example C69_instance_other :
  rg_program_p robdd_oracle alloc_max ex_key "now" C67_addr 40 C69_lamp ["-p"; "-s"; "lamp.rg"] = Ok ([], Exits 0 "" None) /\
  rg_program_p robdd_oracle alloc_max ex_key "now" C67_addr 40 C69_lamp ["-p"; "two.rg"] = Ok ([], Exits 2 "" None) /\
  rg_program_p robdd_oracle alloc_max ex_key "now" C67_addr 40
    (World (w_file C62_world) "" (fun f => String.eqb f "env_init_ptree.dot")) C69_args =
    Ok ([("env_init_ptree.dot", C67_dot)], error_exit).
Proof. repeat (match goal with |- _ /\ _ => split end); vm_compute; reflexivity. Qed.
