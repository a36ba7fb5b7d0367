(** C62: whole runs of gr1c-rg, from the command line to the exit code, stdout and the
    output file, for specifications with integer variables. Theorems only; proofs are in
    RgProofs.v and RgOpts.v.

    Reading guide. [rg_asked args l files]: the command line gives the options [l] and the
    files [files], without help, version and options that add output (RgSpec.v).
    [rg_winnable]: from every initial state (and there is one) the system can force a state of
    its goal, or else the environment gives up one of its goals. [rg_text_means] is the file
    format (RgParse.v): that of gr1c, but for the goal of the system, [SYSGOAL: <> f;]. *)
From Coq Require Import List ZArith Bool Ascii String.
From Verif Require Import Base Strs Ptree Form EnumProofs Solve FSpec Automaton Synth Nonbool RSpec NbExamples Main MainSpec MainExamples ListSpec JsonSpec
  JsonProofs JsonWrite FormatSpec ListProofs Lex Parse LexSpec FileSpec Syntax TextSpec TextProofs Output Options OptSpec Program ProgramSpec ProgramProofs RgParse RgParseProofs Rg RgSpec RgOpts RgProofs.
Import ListNotations.
Open Scope string_scope.
Open Scope list_scope.

(** a run that ends has delivered a strategy for a specification that can be won, or exits
    with an error; it ends, and the error means that the specification cannot be won or that
    the output file cannot be opened *)
Theorem C62_synthesis : forall orc alloc key date W args l files text R,
  rg_asked args l files -> asked_mode l = GR1C_MODE_SYNTHESIS -> input_text W (hd_error files) text ->
  rg_text_means text R -> form_ok ALL_INIT R -> (List.length (rs_sgoals R) <= 1)%nat -> usable R ->
  tools R orc alloc -> keys_ok key -> chars plain date ->
  (exists N, forall fuel, (N <= fuel)%nat -> forall r,
     rg_program orc alloc key date fuel W args = Ok r -> rg_right_run key date W l R r) /\
  (rg_can_start R -> exists N, forall fuel, (N <= fuel)%nat -> exists r,
     rg_program orc alloc key date fuel W args = Ok r /\ rg_right_run key date W l R r /\ rg_exact_run W l R r).
Proof. intros orc alloc key date W args l files text R HA Hm Hi HM HF HL HU HT HK Hd.
  exact (rg_synthesis orc alloc key date W args l files HA text R Hi HM HF HL HU HT HK Hd Hm). Qed.
Print Assumptions C62_synthesis.
Theorem C62_modes : forall args l files, rg_asked args l files ->
  asked_mode l = GR1C_MODE_SYNTAX \/ asked_mode l = GR1C_MODE_SYNTHESIS.
Proof. exact asked_modes. Qed.
Print Assumptions C62_modes.
(** the run that checks the syntax *)
Theorem C62_syntax : forall orc alloc key date W args l files fuel text R,
  rg_asked args l files -> asked_mode l = GR1C_MODE_SYNTAX -> input_text W (hd_error files) text ->
  rg_text_means text R -> form_ok ALL_INIT R -> (List.length (rs_sgoals R) <= 1)%nat ->
  rg_program orc alloc key date fuel W args = Ok (Exits 0 "" None).
Proof. intros orc alloc key date W args l files fuel text R HA Hm Hi HM HF HL.
  exact (rg_syntax orc alloc key date W args l files HA text R Hi HM HF HL fuel Hm). Qed.
Print Assumptions C62_syntax.
(** whatever is asked, the answer to a text that is not a specification is 2; also to a
    specification with two system goals *)
Theorem C62_bad_text : forall orc alloc key date W args l files fuel text,
  rg_asked args l files -> input_text W (hd_error files) text ->
  text_no_formula text -> (~ exists R, rg_text_means text R) ->
  rg_program orc alloc key date fuel W args = Ok (Exits 2 "" None).
Proof. intros orc alloc key date W args l files fuel text HA. exact (rg_bad_text orc alloc key date W args l files HA fuel text). Qed.
Print Assumptions C62_bad_text.
Theorem C62_bad_form : forall orc alloc key date W args l files fuel text R,
  rg_asked args l files -> input_text W (hd_error files) text ->
  rg_text_means text R -> ~ form_ok ALL_INIT R \/ (1 < List.length (rs_sgoals R))%nat ->
  rg_program orc alloc key date fuel W args = Ok (Exits 2 "" None).
Proof. intros orc alloc key date W args l files fuel text R HA. exact (rg_bad_form orc alloc key date W args l files HA fuel text R). Qed.
Print Assumptions C62_bad_form.
Theorem C62_no_file : forall orc alloc key date W args l files fuel f,
  rg_asked args l files -> hd_error files = Some f -> w_file W f = None ->
  rg_program orc alloc key date fuel W args = Ok error_exit.
Proof. intros orc alloc key date W args l files fuel f HA. exact (rg_no_file orc alloc key date W args l files HA fuel f). Qed.
Print Assumptions C62_no_file.
(** the command line *)
Theorem C62_accepted : forall args l files, rg_line args l files -> no_version l ->
  (In OHelp l -> rg_options args = Ok (Stop 0 Usage)) /\
  (~ In OHelp l -> exists o, rg_options args = Ok (Go o) /\ rg_settings l files o).
Proof. exact rg_options_accepted. Qed.
Print Assumptions C62_accepted.
Theorem C62_version : forall args b, rg_version b args -> rg_options args = Ok (Stop 0 (Version b)).
Proof. exact rg_options_version. Qed.
Print Assumptions C62_version.
Theorem C62_rejected : forall args s, (forall a, In a args -> c_string a) ->
  (forall l files, ~ rg_line args l files) -> (forall b, ~ rg_version b args) ->
  rg_options args = Ok s -> s = Stop 1 Nothing.
Proof. exact rg_options_rejected. Qed.
Print Assumptions C62_rejected.
Theorem C62_defined : forall args, (forall a, In a args -> a <> "-" /\ seven_bit a) -> exists s, rg_options args = Ok s.
Proof. exact rg_options_defined. Qed.
Print Assumptions C62_defined.
Theorem C62_stops : forall orc alloc key date fuel W args c p, rg_options args = Ok (Stop c p) ->
  rg_program orc alloc key date fuel W args = Ok (Prints c p).
Proof. exact rg_stops. Qed.
Print Assumptions C62_stops.
(** the exit code is never 3, although that is the code for "not realizable" *)
Theorem C62_exit_codes : forall orc alloc key date fuel W args c s f,
  rg_program orc alloc key date fuel W args = Ok (Exits c s f) -> c = 0%Z \/ c = 2%Z \/ c = (-1)%Z.
Proof. exact rg_exit_codes. Qed.
Print Assumptions C62_exit_codes.

(** a lamp that shall be lit once, while the visitor x comes to room 2 again and again *)
Definition C62_text : string :=
"# reach b
ENV: x[0,2];
SYS: b;
ENVINIT: x = 0;
SYSINIT: !b;
ENVTRANS: [](x = 1 -> x' = 2);
SYSTRANS:
  [](x' < 1 -> !b')
  & [](b -> x' != 2 | !b');
ENVGOAL: []<>(x=2);
SYSGOAL: <>b;
".
(** ... and without an environment goal: the visitor may stay out *)
Definition C62_text_lost : string :=
"ENV: x[0,2];
SYS: b;
SYSINIT: !b;
SYSTRANS: [](b' -> x' > 1);
SYSGOAL: <>b;
".
(** two goals *)
Definition C62_text_two : string :=
"ENV: x[0,2];
SYS: b;
SYSGOAL: <> b;
SYSGOAL: <> x=2;
".
Definition C62_spec : rspec := {|
  rs_evars := [("x", 2%Z)]; rs_svars := [("b", (-1)%Z)];
  rs_einit := Some (FCmp false "x" CEq 0); rs_sinit := Some (FNot (FVar "b"));
  rs_etrans := [FImp (FCmp false "x" CEq 1) (FCmp true "x" CEq 2)];
  rs_strans := [FImp (FCmp true "x" CLt 1) (FNot (FNext "b"));
                FImp (FVar "b") (FOr (FCmp true "x" CNe 2) (FNot (FNext "b")))];
  rs_egoals := [FCmp false "x" CEq 2];
  rs_sgoals := [FVar "b"]
|}.
Definition C62_world : world :=
  World (fun f => if String.eqb f "lamp.rg" then Some C62_text else if String.eqb f "lost.rg" then Some C62_text_lost
                  else if String.eqb f "two.rg" then Some C62_text_two
                  else if String.eqb f "lamp.spc" then Some ex_text else None) "" (fun f => String.eqb f "lamp.aut").
(** the second file is ignored *)
Definition C62_args : list string := ["lamp.rg"; "-t"; "aut"; "lost.rg"; "-o"; "lamp.aut"].
Definition C62_opts : list opt := [OType FORMAT_AUT; OOutput "lamp.aut"].
Definition C62_file : string :=
"1
0 1 0 0 -1 1 1
1 2 1 0 -1 0
2 0 0 0 -1 1 2 1 0
".
Example C62_instance : rg_asked C62_args C62_opts ["lamp.rg"; "lost.rg"] /\ asked_mode C62_opts = GR1C_MODE_SYNTHESIS /\
  input_text C62_world (hd_error ["lamp.rg"; "lost.rg"]) C62_text /\
  rg_text_means C62_text C62_spec /\ form_ok ALL_INIT C62_spec /\ (List.length (rs_sgoals C62_spec) <= 1)%nat /\ usable C62_spec /\
  rg_can_start C62_spec /\ tools C62_spec robdd_oracle alloc_max /\ keys_ok ex_key /\ chars plain "now" /\
  rg_program robdd_oracle alloc_max ex_key "now" 40 C62_world C62_args = Ok (Exits 0 "" (Some ("lamp.aut", C62_file))).
Proof.
  assert (HM : rg_text_means C62_text C62_spec).
  { apply rg_means_by_parse.
    - intros ys H. apply text_symbols_iff in H. destruct H as (ts & H & <-).
      assert (E : exists k, Lex.yylex C62_text = Ok k /\ no_formula (symbols k)) by (eexists; split; [vm_compute; reflexivity|reflexivity]).
      destruct E as (k & E & Hk). rewrite E in H. injection H as <-. exact Hk.
    - vm_compute. reflexivity. }
  split; [|split; [reflexivity|]; split; [reflexivity|]; split; [exact HM|]; split; [|split; [auto|]; split; [|split; [left; discriminate|];
    split; [|split; [exact ex_key_ok|split; [|vm_compute; reflexivity]]]]]].
  - split; [|split; [|split]].
    + apply rl_file; [reflexivity|]. apply (rl_opt (OType FORMAT_AUT) ["-t"; "aut"]); [exact I|exact (w_t FORMAT_AUT "")|].
      apply rl_file; [reflexivity|]. apply (rl_opt (OOutput "lamp.aut") ["-o"; "lamp.aut"]); [exact I|constructor|constructor].
    + intros b H. cbn in H. repeat destruct H as [H|H]; try discriminate H; auto.
    + intros H. cbn in H. repeat destruct H as [H|H]; try discriminate H; auto.
    + unfold quiet. split; [|split; [|split; [|intros b]]]; intros H; cbn in H; repeat destruct H as [H|H]; try discriminate H; auto.
  - destruct (form_check_ok ALL_INIT C62_spec) as [[H _]|(_ & s & H & _)]; [auto|]. exfalso. vm_compute in H. discriminate H.
  - destruct ex_bits as (B1 & B2 & B3 & B4). split; [typed|]. split; [exact B2|]. split; [exact B1|]. split; [exact B3|exact B4].
  - destruct main_instance as (_ & H & _). exact H.
  - cbn. unfold plain. cbn. repeat split; try discriminate; try Lia.lia.
Qed.
(** a specification that cannot be won; a specification for gr1c; two system goals; a missing file; no variables; the
    output file cannot be opened *)
Example C62_instance_other :
  rg_program robdd_oracle alloc_max ex_key "now" 40 C62_world ["-t"; "aut"; "lost.rg"] = Ok error_exit /\
  rg_program robdd_oracle alloc_max ex_key "now" 40 C62_world ["-s"; "lost.rg"] = Ok (Exits 0 "" None) /\
  rg_program robdd_oracle alloc_max ex_key "now" 40 C62_world ["lamp.spc"] = Ok (Exits 2 "" None) /\
  rg_yyparse ex_text = Ok None /\
  rg_program robdd_oracle alloc_max ex_key "now" 40 C62_world ["two.rg"] = Ok (Exits 2 "" None) /\
  rg_yyparse C62_text_two <> Ok None /\
  rg_program robdd_oracle alloc_max ex_key "now" 40 C62_world ["none.rg"; "lamp.rg"] = Ok error_exit /\
  rg_program robdd_oracle alloc_max ex_key "now" 40 C62_world [] = Ok (Exits 2 "" None) /\
  rg_program robdd_oracle alloc_max ex_key "now" 40 C62_world ["--"; "-t"] = Ok error_exit /\
  rg_program robdd_oracle alloc_max ex_key "now" 40 C62_world ["-o"; "x"; "lamp.rg"] = Ok error_exit /\
  rg_program robdd_oracle alloc_max ex_key "now" 40 C62_world ["-r"; "lamp.rg"] = Ok (Prints 1 Nothing) /\
  rg_program robdd_oracle alloc_max ex_key "now" 40 C62_world ["-n"; "one_side_init"; "lamp.rg"] = Ok (Prints 1 Nothing) /\
  rg_program robdd_oracle alloc_max ex_key "now" 40 C62_world ["lamp.rg"; "-V"; "-x"] = Ok (Prints 0 (Version true)) /\
  rg_program robdd_oracle alloc_max ex_key "now" 40 C62_world ["lamp.rg"; "-"] = Crash.
Proof. repeat split; first [vm_compute; reflexivity|vm_compute; discriminate]. Qed.
