(** C66: runs of gr1c -P, from the command line to the strategy file and the verification
    model on stdout. Theorems only; proofs are in VerifyRun.v.

    Reading guide. [right_verified]: exit code 3 if the specification is not realizable, else
    a strategy in the file given with -o, and on stdout a Promela model of it with an LTL
    formula that all its runs satisfy (VerifySpec.v; C58 says what the formula and the model
    have to do with the specification). *)
From Coq Require Import List ZArith Bool Ascii String.
From Verif Require Import PromelaSpec SpinSpec SpinExamples.
From Verif Require Import Base Strs Ptree Form EnumProofs Solve FSpec Automaton Synth Nonbool NonboolProofs RSpec NbExamples Main MainSpec MainExamples
  ListSpec JsonSpec JsonProofs JsonWrite FormatSpec TextSpec TextProofs Output Options OptSpec Program ProgramSpec ProgramProofs VerifySpec VerifyRun PProgram.
Import ListNotations.
Open Scope string_scope.
Open Scope list_scope.

Theorem C66_verified : forall orc alloc key date W args l file text R,
  ProgramSpec.asked args l file -> asked_mode l = GR1C_MODE_SYNTHESIS -> In OPromela l -> input_text W file text ->
  text_means text R -> form_ok (asked_init l) R -> usable R -> decidable_init R (asked_init l) ->
  tools R orc alloc -> keys_ok key -> chars plain date -> spin_names (fdefaults R) -> SpinSpec.quiet R ->
  (exists N, forall fuel, (N <= fuel)%nat -> forall r,
     gr1c_program orc alloc key date fuel W args = Ok r -> right_verified key date W l R r) /\
  (can_start R (asked_init l) -> exists N, forall fuel, (N <= fuel)%nat -> exists r,
     gr1c_program orc alloc key date fuel W args = Ok r /\
     right_verified key date W l R r /\ (r = error_exit -> no_output_file W l)).
Proof. exact whole_verified. Qed.
Print Assumptions C66_verified.
(** in the other modes -P and -o change nothing: only mode, interpretation of the initial
    conditions, format and file count *)
Theorem C66_ignored : forall orc alloc key date W fuel args l args' l' file,
  ProgramSpec.asked args l file -> ProgramSpec.asked args' l' file ->
  asked_mode l = asked_mode l' -> asked_mode l <> GR1C_MODE_SYNTHESIS -> asked_init l = asked_init l' -> asked_format l = asked_format l' ->
  gr1c_program orc alloc key date fuel W args = gr1c_program orc alloc key date fuel W args'.
Proof. exact same_run. Qed.
Print Assumptions C66_ignored.

Definition C66_args : list string := "-P" :: C54_args.
Definition C66_opts : list opt := OPromela :: C54_opts.
Example C66_asked : ProgramSpec.asked C66_args C66_opts (Some "lamp.spc").
Proof.
  destruct C54_instance as ((A1 & (ws & tl & A2 & A3 & A4) & A5) & _).
  split; [|split; [|split; [|split; [|split; [|split; [|split; [intros b|split; [discriminate|discriminate]]]]]]]];
    try (intros H; cbn in H; repeat destruct H as [H|H]; try discriminate H; auto; fail).
  - intros (a & r & E & H). injection E as <- _. cbn in H. repeat destruct H as [H|H]; try discriminate H; auto.
  - exists (["-P"] :: ws), tl. split; [constructor; [constructor|exact A2]|]. split; [exact A3|]. unfold C66_args. rewrite A4. reflexivity.
  - intros b H. cbn in H. repeat destruct H as [H|H]; try discriminate H; auto.
Qed.
Example C66_instance : ProgramSpec.asked C66_args C66_opts (Some "lamp.spc") /\ asked_mode C66_opts = GR1C_MODE_SYNTHESIS /\
  In OPromela C66_opts /\ asked_init C66_opts = ALL_INIT /\ input_text C54_world (Some "lamp.spc") ex_text /\
  text_means ex_text ex_int /\ usable ex_int /\ tools ex_int robdd_oracle alloc_max /\ spin_names (fdefaults ex_int) /\ SpinSpec.quiet ex_int /\
  exists model, gr1c_program robdd_oracle alloc_max ex_key "now" 40 C54_world C66_args = Ok (Exits 0 model (Some ("lamp.aut", C54_file))) /\
    substring 73 168 model = "(X envinit && [] (!checketrans || envtrans) && []<> envgoal0000) -> (X sysinit && [] (!checkstrans || systrans) && []<> sysgoal0000 && []<> sysgoal0001 && [] !pmlfault)".
Proof.
  destruct C54_instance as (_ & _ & _ & _ & I1 & I2 & I3 & _). destruct spin_instance as (S1 & S2 & S3 & S4 & _).
  split; [exact C66_asked|]. split; [reflexivity|]. split; [left; reflexivity|]. split; [reflexivity|]. split; [exact I1|]. split; [exact I2|].
  split; [exact S1|]. split; [exact S2|]. split; [exact S3|]. split; [exact S4|].
  eexists. split; [vm_compute; reflexivity|]. vm_compute. reflexivity.
Qed.
(** a file that cannot be written; -P ignored; -P without -o is refused *)
Example C66_instance_other :
  gr1c_program robdd_oracle alloc_max ex_key "now" 40 C54_world ["-P"; "-n"; "ALL_INIT"; "-o"; "x"; "lamp.spc"] = Ok error_exit /\
  gr1c_program robdd_oracle alloc_max ex_key "now" 40 C54_world ["-P"; "-r"; "-o"; "x"; "lamp.spc"] = Ok (Exits 0 (said "Realizable.") None) /\
  gr1c_program robdd_oracle alloc_max ex_key "now" 40 C54_world ["-P"; "lamp.spc"] = Ok (Prints 1 Refused).
Proof. repeat (match goal with |- _ /\ _ => split end); vm_compute; reflexivity. Qed.
