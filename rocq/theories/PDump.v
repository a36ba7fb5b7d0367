(** C67 and C68: option -p of gr1c. Theorems only; proofs are in DumpProofs.v and DumpRun.v.

    Reading guide. [asked_dump args l file]: the command line gives the options [l], among
    them -p, and the file. [asked args' (without_dump l) file]: a command line with the same
    options without -p. [completed R]: the specification, with True for the parts that are
    True if left out. [listing_of R listing]: eight lines with labels; with the section words
    of a specification file in place of the labels they are the specification [R] with the
    domains of the variables left out. [drawn]: each file is a DOT graph that shows the parse
    tree of its formula (DumpSpec.v). *)
From Coq Require Import List ZArith Bool Ascii String.
From Verif Require Import Base Strs Ptree Form EnumProofs Solve FSpec Automaton Synth Nonbool RSpec NbExamples Main ListSpec JsonWrite FormPrint Parse
  TextSpec TextProofs Output Options OptSpec Program ProgramSpec ProgramProofs PtDump DumpSpec DumpProofs DumpRun PProgram.
Import ListNotations.
Open Scope string_scope.
Open Scope list_scope.
Open Scope Z_scope.

(** -p writes more to the screen and changes nothing else *)
Theorem C67_echo : forall orc alloc key date W addr args l file text R args',
  asked_dump args l file -> asked_mode l <> GR1C_MODE_SYNTAX -> asked args' (without_dump l) file ->
  input_text W file text -> text_means text R -> form_ok (asked_init l) R -> addresses addr ->
  (forall x, In x (drawings (completed R)) -> w_writable W (fst x) = true) ->
  exists listing, (writable_spec R -> listing_of (completed R) listing) /\
    forall fuel,
      (forall r, gr1c_program orc alloc key date fuel W args' = Ok r ->
         exists files r', gr1c_program_p orc alloc key date addr fuel W args = Ok (files, r') /\ echoed (vars_screen R ++ listing) r r') /\
      (forall files r', gr1c_program_p orc alloc key date addr fuel W args = Ok (files, r') ->
         exists r, gr1c_program orc alloc key date fuel W args' = Ok r /\ echoed (vars_screen R ++ listing) r r').
Proof. exact echo_only. Qed.
Print Assumptions C67_echo.
(** nothing more is written with -s, and for a text that is not accepted *)
Theorem C67_nothing : forall orc alloc key date W addr args l file,
  asked_dump args l file ->
  forall args' text, asked args' (without_dump l) file -> input_text W file text ->
  (asked_mode l = GR1C_MODE_SYNTAX \/ (text_no_formula text /\ ~ exists R, text_means text R) \/
   exists R, text_means text R /\ ~ form_ok (asked_init l) R) ->
  forall fuel r, gr1c_program orc alloc key date fuel W args' = Ok r ->
  gr1c_program_p orc alloc key date addr fuel W args = Ok ([], r).
Proof. exact whole_nothing. Qed.
Print Assumptions C67_nothing.
(** and without -p *)
Theorem C67_without : forall orc alloc key date W addr args l file fuel r,
  asked args l file -> gr1c_program orc alloc key date fuel W args = Ok r ->
  gr1c_program_p orc alloc key date addr fuel W args = Ok ([], r).
Proof. exact no_dump_same. Qed.
Print Assumptions C67_without.
(** the listing as it is printed is not a specification that gr1c reads *)
Theorem C67_refuted : exists R listing, writable_spec R /\ listing_of R listing /\ ~ exists R', text_means listing R'.
Proof. exact listing_not_read. Qed.
Print Assumptions C67_refuted.

(** the files: one for each formula, with its parse tree *)
Theorem C68_drawn : forall orc alloc key date W addr args l file text R,
  asked_dump args l file -> asked_mode l <> GR1C_MODE_SYNTAX ->
  input_text W file text -> text_means text R -> form_ok (asked_init l) R -> addresses addr ->
  (forall x, In x (drawings (completed R)) -> w_writable W (fst x) = true) ->
  forall fuel files r, gr1c_program_p orc alloc key date addr fuel W args = Ok (files, r) ->
  drawn addr (drawings (completed R)) files.
Proof. exact files_only. Qed.
Print Assumptions C68_drawn.
(** at the first file that cannot be written gr1c stops, with nothing on the screen and
    nothing synthesized *)
Theorem C68_stopped : forall orc alloc key date W addr args l file text R,
  asked_dump args l file -> asked_mode l <> GR1C_MODE_SYNTAX ->
  input_text W file text -> text_means text R -> form_ok (asked_init l) R -> addresses addr ->
  forall a x b, drawings (completed R) = a ++ x :: b -> (forall y, In y a -> w_writable W (fst y) = true) -> w_writable W (fst x) = false ->
  forall fuel, exists files, gr1c_program_p orc alloc key date addr fuel W args = Ok (files, error_exit) /\ drawn addr a files.
Proof. exact files_stop. Qed.
Print Assumptions C68_stopped.
(** no file is written twice, or drawings would be lost: the names are all different *)
Theorem C68_names : forall R, NoDup (map fst (drawings R)).
Proof. exact names_differ. Qed.
Print Assumptions C68_names.

(** an instance: the lamp, with the strategy in a file *)
Definition C67_world : world := World (w_file C54_world) "" (fun _ => true).
Definition C67_addr (f : string) (p : list bool) : Z := Zpos (fold_right (fun (b : bool) n => if b then xI n else xO n) xH p).
Definition C67_args : list string := "-p" :: C54_args.
Definition C67_opts : list opt := ODump :: C54_opts.
Definition C67_screen : string :=
"Environment variables (indices; domains): x (0; {0..2})

System variables (indices; domains): b (1; bool)

ENV: x;
SYS: b;
ENV INIT:  (x=0);
SYS INIT:  (!b);
ENV TRANS:  [] ((x=1)->(x'=2));
SYS TRANS:  [] ((x'<1)->(!b')) & [] (b->((x'!=2)|(!b')));
ENV GOALS:  []<> (x=2);
SYS GOALS:  []<> b & []<> (!b);
".
Definition C67_dot : string :=
"digraph PT {
""2;\nx""
""1;\n=""
""1;\n="" -> ""2;\nx""
""1;\n="" -> ""3;\n0""
""3;\n0""
}
".
Example C67_instance : asked_dump C67_args C67_opts (Some "lamp.spc") /\ asked_mode C67_opts <> GR1C_MODE_SYNTAX /\
  asked C54_args (without_dump C67_opts) (Some "lamp.spc") /\ input_text C67_world (Some "lamp.spc") ex_text /\
  text_means ex_text ex_int /\ form_ok (asked_init C67_opts) ex_int /\ addresses C67_addr /\
  (forall x, In x (drawings (completed ex_int)) -> w_writable C67_world (fst x) = true) /\ writable_spec ex_int /\
  exists files, gr1c_program_p robdd_oracle alloc_max ex_key "now" C67_addr 40 C67_world C67_args =
    Ok (files, Exits 0 C67_screen (Some ("lamp.aut", C54_file))) /\
    map fst files = ["env_init_ptree.dot"; "sys_init_ptree.dot"; "env_trans00000_ptree.dot"; "sys_trans00000_ptree.dot"; "sys_trans00001_ptree.dot";
      "env_goal00000_ptree.dot"; "sys_goal00000_ptree.dot"; "sys_goal00001_ptree.dot"] /\
    hd_error files = Some ("env_init_ptree.dot", C67_dot).
Proof.
  destruct C54_instance as (A & _ & _ & _ & _ & I2 & I3 & _). pose proof A as (A1 & (ws & tl & A2 & A3 & A4) & A5 & A6 & A7 & A8 & A9 & A10 & A11).
  split.
  { split; [intros (a & r & E & H); injection E as <- _; cbn in H; repeat destruct H as [H|H]; try discriminate H; auto|].
    split; [exists (["-p"] :: ws), tl; split; [constructor; [constructor|exact A2]|]; split; [exact A3|]; unfold C67_args; rewrite A4; reflexivity|].
    split; [intros b H; cbn in H; repeat destruct H as [H|H]; try discriminate H; auto|].
    split; [intros H; cbn in H; repeat destruct H as [H|H]; try discriminate H; auto|].
    split; [left; reflexivity|].
    split; [intros H; cbn in H; repeat destruct H as [H|H]; try discriminate H; auto|].
    split; [intros b H; cbn in H; repeat destruct H as [H|H]; try discriminate H; auto|].
    split; [discriminate|discriminate]. }
  split; [discriminate|]. split; [exact A|]. split; [reflexivity|]. split; [exact I2|]. split; [exact I3|].
  split; [intros f; unfold C67_addr; induction p as [|a p IH]; intros [|b q] E; cbn in E; auto;
    [destruct b; discriminate E|destruct a; discriminate E|destruct a, b; try discriminate E; injection E as E; f_equal; apply IH; f_equal; exact E]|].
  split; [reflexivity|]. split; [exact (proj1 ex_int_written)|].
  eexists. split; [vm_compute; reflexivity|]. split; reflexivity.
Qed.
(** with -s; where nothing but the first file can be written; a text that is not accepted *)
Example C67_instance_other :
  gr1c_program_p robdd_oracle alloc_max ex_key "now" C67_addr 40 C67_world ["-p"; "-s"; "lamp.spc"] = Ok ([], Exits 0 "" None) /\
  gr1c_program_p robdd_oracle alloc_max ex_key "now" C67_addr 40
    (World (w_file C54_world) "" (fun f => String.eqb f "env_init_ptree.dot")) C67_args =
    Ok ([("env_init_ptree.dot", C67_dot)], error_exit) /\
  gr1c_program_p robdd_oracle alloc_max ex_key "now" C67_addr 40 (World (fun _ => None) "SYS: x" (fun _ => true)) ["-p"] = Ok ([], Exits 2 "" None).
Proof. repeat (match goal with |- _ /\ _ => split end); vm_compute; reflexivity. Qed.
