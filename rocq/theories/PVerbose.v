(** C74: gr1c with -v or -l. Theorems only; proofs are in VerboseProofs.v.

    Reading guide. [asked_verbose args l file]: the command line [args] gives the options [l] and
    the input file [file], with -v once, or -l, or both, and without -p, -i and -P. [silent l]: the
    options without -v and -l, as they are given by [args']. [program] is the run of gr1c of C54,
    [program_v] that with a log. [progress mode code msgs]: the messages of a run (VerboseSpec.v).
    [log_text timed clock 1 msgs]: a line for each, the k-th with the time [clock k]. [told place]:
    all that is written there, in order (LogSpec.v). *)
From Coq Require Import List ZArith Bool Ascii String.
From Verif Require Import Base Strs Ptree Form EnumProofs Solve FSpec Automaton Synth Nonbool RSpec NbExamples Main MainSpec MainExamples ListSpec JsonSpec
  JsonProofs JsonWrite FormatSpec TextSpec TextProofs Output Options OptSpec Program ProgramSpec ProgramProofs Logging LogSpec Verbose VerboseSpec VerboseProofs PProgram.
Import ListNotations.
Open Scope string_scope.
Open Scope list_scope.
Open Scope Z_scope.

(** without -l: the messages are on stdout before the strategy; the verdict is there once *)
Theorem C74_stdout : forall orc alloc key date W pid can_open clock args args' l file,
  asked_verbose args l file -> ~ In OLog l -> asked args' (silent l) file ->
  forall fuel c t f, gr1c_program orc alloc key date fuel W args' = Ok (Exits c t f) -> exists st msgs,
    gr1c_program_v orc alloc key date fuel W pid can_open clock args = Ok (VExits c f st) /\ progress (asked_mode l) c msgs /\
    told OnStdout (visible st) = String.append (log_text false clock 1 msgs) (match asked_mode l with GR1C_MODE_REALIZABLE => "" | _ => t end) /\
    forall q, q <> OnStdout -> told q (visible st) = "".
Proof. exact verbose_stdout. Qed.
Print Assumptions C74_stdout.
(** with -l: stdout is as without; the messages are in the log file, with the time *)
Theorem C74_file : forall orc alloc key date W pid can_open clock args args' l file,
  asked_verbose args l file -> In OLog l -> asked args' (silent l) file ->
  (String.length (log_name (clock 0%nat) pid None) <= 255)%nat -> can_open (log_name (clock 0%nat) pid None) = true ->
  forall fuel c t f, gr1c_program orc alloc key date fuel W args' = Ok (Exits c t f) -> exists st msgs,
    gr1c_program_v orc alloc key date fuel W pid can_open clock args = Ok (VExits c f st) /\ progress (asked_mode l) c msgs /\
    told OnStdout (visible st) = t /\ told (InFile (log_name (clock 0%nat) pid None)) (visible st) = log_text true clock 1 msgs /\
    forall q, q <> OnStdout -> q <> InFile (log_name (clock 0%nat) pid None) -> told q (visible st) = "".
Proof. exact verbose_file. Qed.
Print Assumptions C74_file.
(** a log does not make a run end that does not end without, or the other way round *)
Theorem C74_only : forall orc alloc key date W pid can_open clock args args' l file,
  asked_verbose args l file -> asked args' (silent l) file ->
  (In OLog l -> (String.length (log_name (clock 0%nat) pid None) <= 255)%nat /\ can_open (log_name (clock 0%nat) pid None) = true) ->
  forall fuel y, gr1c_program_v orc alloc key date fuel W pid can_open clock args = Ok y ->
    exists c t f, gr1c_program orc alloc key date fuel W args' = Ok (Exits c t f).
Proof. exact verbose_only. Qed.
Print Assumptions C74_only.
(** how far a run gets is in the log: no input file; a text that is not a specification; a form
    that does not fit -n; no strategy, or no output file *)
Theorem C74_no_input : forall orc alloc key date W pid can_open clock args args' l file,
  asked_verbose args l file -> asked args' (silent l) file ->
  (In OLog l -> (String.length (log_name (clock 0%nat) pid None) <= 255)%nat /\ can_open (log_name (clock 0%nat) pid None) = true) ->
  forall fuel g, file = Some g -> w_file W g = None -> exists st,
    gr1c_program_v orc alloc key date fuel W pid can_open clock args = Ok (VExits (-1) None st) /\
    only_logs l (log_name (clock 0%nat) pid None) clock st [running].
Proof. exact stage_no_file. Qed.
Print Assumptions C74_no_input.
Theorem C74_bad_text : forall orc alloc key date W pid can_open clock args args' l file,
  asked_verbose args l file -> asked args' (silent l) file ->
  (In OLog l -> (String.length (log_name (clock 0%nat) pid None) <= 255)%nat /\ can_open (log_name (clock 0%nat) pid None) = true) ->
  forall fuel text, input_text W file text -> text_no_formula text -> (~ exists R, text_means text R) -> exists st,
    gr1c_program_v orc alloc key date fuel W pid can_open clock args = Ok (VExits 2 None st) /\
    only_logs l (log_name (clock 0%nat) pid None) clock st (running :: parsing).
Proof. exact stage_bad_text. Qed.
Print Assumptions C74_bad_text.
Theorem C74_bad_form : forall orc alloc key date W pid can_open clock args args' l file,
  asked_verbose args l file -> asked args' (silent l) file ->
  (In OLog l -> (String.length (log_name (clock 0%nat) pid None) <= 255)%nat /\ can_open (log_name (clock 0%nat) pid None) = true) ->
  forall fuel text R, input_text W file text -> text_means text R -> ~ form_ok (asked_init l) R -> exists st,
    gr1c_program_v orc alloc key date fuel W pid can_open clock args = Ok (VExits 2 None st) /\
    only_logs l (log_name (clock 0%nat) pid None) clock st (running :: parsed).
Proof. exact stage_bad_form. Qed.
Print Assumptions C74_bad_form.
Theorem C74_failed : forall orc alloc key date W pid can_open clock args args' l file,
  asked_verbose args l file -> asked args' (silent l) file ->
  (In OLog l -> (String.length (log_name (clock 0%nat) pid None) <= 255)%nat /\ can_open (log_name (clock 0%nat) pid None) = true) ->
  forall text R, asked_mode l = GR1C_MODE_SYNTHESIS -> input_text W file text -> text_means text R ->
  form_ok (asked_init l) R -> usable R -> decidable_init R (asked_init l) -> tools R orc alloc ->
  exists N, forall fuel, (N <= fuel)%nat -> gr1c_program orc alloc key date fuel W args' = Ok error_exit -> exists st,
    gr1c_program_v orc alloc key date fuel W pid can_open clock args = Ok (VExits (-1) None st) /\
    only_logs l (log_name (clock 0%nat) pid None) clock st (running :: parsed ++ found).
Proof. exact stage_failed. Qed.
Print Assumptions C74_failed.
(** no log file, no run *)
Theorem C74_no_log : forall orc alloc key date W pid can_open clock args l file,
  asked_verbose args l file -> In OLog l ->
  (String.length (log_name (clock 0%nat) pid None) <= 255)%nat -> can_open (log_name (clock 0%nat) pid None) = false ->
  forall fuel, gr1c_program_v orc alloc key date fuel W pid can_open clock args = Ok (VExits (-1) None log_start).
Proof. exact verbose_no_log. Qed.
Print Assumptions C74_no_log.
(** the number of nodes that is logged is that of the strategy that is written *)
Theorem C74_size : forall orc alloc key date W pid can_open clock args args' l file text R,
  asked_verbose args l file -> asked args' (silent l) file ->
  (In OLog l -> (String.length (log_name (clock 0%nat) pid None) <= 255)%nat /\ can_open (log_name (clock 0%nat) pid None) = true) ->
  asked_mode l = GR1C_MODE_SYNTHESIS -> input_text W file text -> text_means text R -> form_ok (asked_init l) R -> usable R ->
  decidable_init R (asked_init l) -> tools R orc alloc -> keys_ok key -> chars plain date ->
  exists N, forall fuel, (N <= fuel)%nat -> forall f st,
    gr1c_program_v orc alloc key date fuel W pid can_open clock args = Ok (VExits 0 f st) ->
    exists A s, strategy_for R (asked_init l) A /\ describes key date (asked_format l) R A s /\
      f = match asked_output l with None => None | Some g => Some (g, s) end /\
      let log timed := log_text timed clock 1 (running :: parsed ++ found ++ [dumping (List.length A)]) in
      let rest := match asked_output l with None => s | Some _ => "" end in
      (In OLog l -> told (InFile (log_name (clock 0%nat) pid None)) (visible st) = log true /\ told OnStdout (visible st) = rest) /\
      (~ In OLog l -> told OnStdout (visible st) = String.append (log false) rest).
Proof. exact verbose_size. Qed.
Print Assumptions C74_size.

(** the lamp of C54 with -v, and decided with -l *)
Definition C74_clock (k : nat) : moment := Moment "20260101" (String.append "2026-01-01 00:00:0" (zdec (Z.of_nat k))).
Definition C74_run := gr1c_program_v robdd_oracle alloc_max ex_key "now" 40 C54_world 7 (fun _ => true) C74_clock.
Definition C74_shown (pl : place) (args : list string) : option (Z * option (string * string) * string) :=
  match C74_run args with Ok (VExits c f st) => Some (c, f, told pl (visible st)) | _ => None end.
Theorem C74_instance :
  asked_verbose ("-v" :: C54_args) (OVerbose false :: C54_opts) (Some "lamp.spc") /\ asked C54_args (silent (OVerbose false :: C54_opts)) (Some "lamp.spc") /\
  asked_verbose ["-l"; "-r"; "lamp.spc"] [OLog; ORealizable] (Some "lamp.spc") /\ asked ["-r"; "lamp.spc"] (silent [OLog; ORealizable]) (Some "lamp.spc") /\
  C74_shown OnStdout ("-v" :: C54_args) = Some (0, Some ("lamp.aut", C54_file),
"Running with verbosity level 1.
Parsing input...
Done.
Realizable.
Synthesizing a strategy...
Done.
Dumping automaton of size 5...
") /\
  C74_shown OnStdout ["-l"; "-r"; "lamp.spc"] = Some (0, None, "Realizable.
") /\
  C74_shown (InFile "gr1c-7-20260101.log") ["-l"; "-r"; "lamp.spc"] = Some (0, None,
"2026-01-01 00:00:01 Running with verbosity level 1.
2026-01-01 00:00:02 Parsing input...
2026-01-01 00:00:03 Done.
2026-01-01 00:00:04 Realizable.
") /\
  C74_shown OnStdout ["-v"; "-r"; "lamp.spc"] = Some (0, None,
"Running with verbosity level 1.
Parsing input...
Done.
Realizable.
") /\
  C74_shown OnStdout ["-v"; "-o"; "x"; "lamp.spc"] = Some (-1, None,
"Running with verbosity level 1.
Parsing input...
Done.
Realizable.
Synthesizing a strategy...
Done.
") /\
  C74_shown OnStdout ["-v"; "lamp"] = Some (-1, None, "Running with verbosity level 1.
").
Proof.
  pose proof (proj1 C54_instance) as HA. pose proof HA as (Q1 & Q2 & Q3 & Q4 & Q5 & Q6 & Q7 & Q8 & Q9).
  assert (K : forall a r, ~ In a ["rg"; "patch"; "autman"; "help"] -> ~ a_command (a :: r)).
  { intros a r H (b & r' & E & X). injection E as <- _. exact (H X). }
  split; [|split; [exact HA|split; [|split; [|repeat (match goal with |- _ /\ _ => split end); vm_compute; reflexivity]]]].
  - split; [apply K; intros H; cbn in H; repeat destruct H as [H|H]; try discriminate H; auto|].
    split. { destruct Q2 as (ws & tl & W1 & W2 & W3). exists (["-v"] :: ws), tl. split; [constructor; [constructor|exact W1]|]. split; [exact W2|]. rewrite W3. reflexivity. }
    split; [intros b [H|H]; [discriminate H|exact (Q3 b H)]|].
    split; [intros [H|H]; [discriminate H|exact (Q4 H)]|]. split; [intros [H|H]; [discriminate H|exact (Q5 H)]|].
    split; [intros H; cbn in H; repeat destruct H as [H|H]; try discriminate H; auto|]. split; [discriminate|left; reflexivity].
  - split; [apply K; intros H; cbn in H; repeat destruct H as [H|H]; try discriminate H; auto|].
    split. { exists [["-l"]; ["-r"]], ["lamp.spc"]. split; [repeat constructor|]. split; [constructor; reflexivity|reflexivity]. }
    split; [intros b H; cbn in H; repeat destruct H as [H|H]; try discriminate H; auto|].
    do 3 (split; [intros H; cbn in H; repeat destruct H as [H|H]; try discriminate H; auto|]). split; [discriminate|right; split; [reflexivity|left; reflexivity]].
  - split; [apply K; intros H; cbn in H; repeat destruct H as [H|H]; try discriminate H; auto|].
    split. { exists [["-r"]], ["lamp.spc"]. split; [repeat constructor|]. split; [constructor; reflexivity|reflexivity]. }
    split; [intros b H; cbn in H; repeat destruct H as [H|H]; try discriminate H; auto|].
    do 3 (split; [intros H; cbn in H; repeat destruct H as [H|H]; try discriminate H; auto|]).
    split; [intros b H; cbn in H; repeat destruct H as [H|H]; try discriminate H; auto|]. split; [|discriminate].
    intros H; cbn in H; repeat destruct H as [H|H]; try discriminate H; destruct H.
Qed.
Print Assumptions C74_instance.
