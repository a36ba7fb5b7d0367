(** C75: gr1c-autman with -v or -l. Theorems only; proofs are in AutmanLogProofs.v.

    Reading guide. [not_stopped args l]: the command line [args] gives the options [l], has no -h
    and no -V, and is not refused. [hushed l]: the options without -v and -l, as given by [args'].
    [level_is l v]: the level of verbosity is [v]. [autman] is the run of gr1c-autman of C59,
    [autman_v] that with a log. [at_level v d]: the messages of [d] that need level [v] or less.
    [log_and l name clock st msgs t]: the messages are in the log file [name], or without -l on
    stdout, [t] follows on stdout, and nothing is written elsewhere (AutmanLogSpec.v).
    [AutmanSpec.told W l n]: the length of states is [n]. *)
From Coq Require Import List ZArith Bool Ascii String.
From Verif Require Import Base Strs AutIOSpec HotSpec TextSpec TextProofs FormatSpec Options OptSpec Program Autman AutmanSpec AutmanExamples
  Logging LogSpec Verbose VerboseSpec AutmanLog AutmanLogSpec AutmanLogProofs.
Import ListNotations.
Open Scope string_scope.
Open Scope list_scope.
Open Scope Z_scope.

(** exit code, output file and what else is on stdout are as without a log *)
Theorem C75_same : forall ptr date W pid can_open clock args args' l v,
  not_stopped args l -> plainly args' (hushed l) -> level_is l v ->
  (In ALog l -> (String.length (log_name (clock 0%nat) pid None) <= 255)%nat /\ can_open (log_name (clock 0%nat) pid None) = true) ->
  forall fuel c t f, autman ptr date fuel W args' = Ok (Exits c t f) -> exists st msgs,
    autman_v ptr date fuel W pid can_open clock args = Ok (VExits c f st) /\ log_and l (log_name (clock 0%nat) pid None) clock st msgs t.
Proof. exact autman_same. Qed.
Print Assumptions C75_same.
(** a log does not make a run end that does not end without *)
Theorem C75_only : forall ptr date W pid can_open clock args args' l v,
  not_stopped args l -> plainly args' (hushed l) -> level_is l v ->
  (In ALog l -> (String.length (log_name (clock 0%nat) pid None) <= 255)%nat /\ can_open (log_name (clock 0%nat) pid None) = true) ->
  forall fuel y, autman_v ptr date fuel W pid can_open clock args = Ok y -> exists c t f, autman ptr date fuel W args' = Ok (Exits c t f).
Proof. exact autman_only. Qed.
Print Assumptions C75_only.
(** how far a run gets is in the log: the reference specification is missing, or is none *)
Theorem C75_no_reference : forall ptr date W pid can_open clock args args' l v,
  not_stopped args l -> plainly args' (hushed l) -> level_is l v ->
  (In ALog l -> (String.length (log_name (clock 0%nat) pid None) <= 255)%nat /\ can_open (log_name (clock 0%nat) pid None) = true) ->
  forall fuel g, named_spec l = Some g -> w_file W g = None -> exists st,
    autman_v ptr date fuel W pid can_open clock args = Ok (VExits (-1) None st) /\
    log_and l (log_name (clock 0%nat) pid None) clock st (at_level v [level_message v; using_file g "reference specification"]) "".
Proof. exact autman_no_reference. Qed.
Print Assumptions C75_no_reference.
Theorem C75_bad_reference : forall ptr date W pid can_open clock args args' l v,
  not_stopped args l -> plainly args' (hushed l) -> level_is l v ->
  (In ALog l -> (String.length (log_name (clock 0%nat) pid None) <= 255)%nat /\ can_open (log_name (clock 0%nat) pid None) = true) ->
  forall fuel g text, named_spec l = Some g -> w_file W g = Some text -> text_no_formula text -> (~ exists R, text_means text R) -> exists st,
    autman_v ptr date fuel W pid can_open clock args = Ok (VExits 2 None st) /\
    log_and l (log_name (clock 0%nat) pid None) clock st
      (at_level v [level_message v; using_file g "reference specification"; parsing_reference]) "".
Proof. exact autman_bad_reference. Qed.
Print Assumptions C75_bad_reference.
(** the strategy is missing; there is no automaton in it *)
Theorem C75_no_input : forall ptr date W pid can_open clock args args' l v,
  not_stopped args l -> plainly args' (hushed l) -> level_is l v ->
  (In ALog l -> (String.length (log_name (clock 0%nat) pid None) <= 255)%nat /\ can_open (log_name (clock 0%nat) pid None) = true) ->
  forall fuel n, AutmanSpec.told W l n -> input_of W l = None -> exists st,
    autman_v ptr date fuel W pid can_open clock args = Ok (VExits (-1) None st) /\
    log_and l (log_name (clock 0%nat) pid None) clock st (at_level v (level_message v :: reference_messages l n ++ [input_message l])) "".
Proof. exact autman_no_input. Qed.
Print Assumptions C75_no_input.
Theorem C75_not_loaded : forall ptr date W pid can_open clock args args' l v,
  not_stopped args l -> plainly args' (hushed l) -> level_is l v ->
  (In ALog l -> (String.length (log_name (clock 0%nat) pid None) <= 255)%nat /\ can_open (log_name (clock 0%nat) pid None) = true) ->
  forall fuel n text t f, AutmanSpec.told W l n -> input_of W l = Some text -> autman ptr date fuel W args' = Ok (Exits 3 t f) -> exists st,
    autman_v ptr date fuel W pid can_open clock args = Ok (VExits 3 f st) /\
    log_and l (log_name (clock 0%nat) pid None) clock st (at_level v (level_message v :: reference_messages l n ++ [input_message l; loading])) t.
Proof. exact autman_not_loaded. Qed.
Print Assumptions C75_not_loaded.
(** the strategy is read: the log has the version of the format and the number of nodes *)
Theorem C75_loaded : forall ptr date W pid can_open clock args args' l v,
  not_stopped args l -> plainly args' (hushed l) -> level_is l v ->
  (In ALog l -> (String.length (log_name (clock 0%nat) pid None) <= 255)%nat /\ can_open (log_name (clock 0%nat) pid None) = true) ->
  forall fuel n text rows c t f, AutmanSpec.told W l n -> input_of W l = Some text -> strategy_file n text rows ->
  autman ptr date fuel W args' = Ok (Exits c t f) -> exists st,
    autman_v ptr date fuel W pid can_open clock args = Ok (VExits c f st) /\
    log_and l (log_name (clock 0%nat) pid None) clock st
      (at_level v (level_message v :: reference_messages l n ++ [input_message l; loading] ++ loaded_messages 1 (List.length rows))) t.
Proof. exact autman_loaded. Qed.
Print Assumptions C75_loaded.
(** the log file cannot be opened *)
Theorem C75_no_log : forall ptr date W pid can_open clock args l v,
  not_stopped args l -> level_is l v -> In ALog l ->
  (String.length (log_name (clock 0%nat) pid None) <= 255)%nat -> can_open (log_name (clock 0%nat) pid None) = false ->
  forall fuel, autman_v ptr date fuel W pid can_open clock args = Ok (VExits (-1) None log_start).
Proof. exact autman_no_log. Qed.
Print Assumptions C75_no_log.

(** the conversion of C59 with -vv, and with -l *)
Definition C75_clock (k : nat) : moment := Moment "20260101" (String.append "2026-01-01 00:00:0" (zdec (Z.of_nat k))).
Definition C75_shown (pl : place) (args : list string) : option (Z * option (string * string) * string) :=
  match autman_v on_key "now" 9 on_world 7 (fun _ => true) C75_clock args with Ok (VExits c f st) => Some (c, f, told pl (visible st)) | _ => None end.
Theorem C75_instance :
  not_stopped ("-vv" :: convert_args) (AVerbose true :: convert_opts) /\ level_is (AVerbose true :: convert_opts) 2 /\
  plainly convert_args (hushed (AVerbose true :: convert_opts)) /\
  not_stopped ("-l" :: convert_args) (ALog :: convert_opts) /\ level_is (ALog :: convert_opts) 1 /\
  plainly convert_args (hushed (ALog :: convert_opts)) /\
  C75_shown OnStdout ("-vv" :: convert_args) = Some (0, None,
"Running with verbosity level 2.
Using file ""on.spc"" for reference specification.
Parsing reference specification file...
Done.
Detected state vector length of 2.
Using file ""on.aut"" for input.
Loading automaton...
Done.
Detected format version 1.
Given automaton has size 2.
   0 (init) : 0,1 -  0 -  1 - [ 0 1]
   1 : 1,1 -  0 -  1 - [ 0 1]
") /\
  C75_shown OnStdout ("-l" :: convert_args) = Some (0, None,
"   0 (init) : 0,1 -  0 -  1 - [ 0 1]
   1 : 1,1 -  0 -  1 - [ 0 1]
") /\
  C75_shown (InFile "gr1c-7-20260101.log") ("-l" :: convert_args) = Some (0, None,
"2026-01-01 00:00:01 Running with verbosity level 1.
2026-01-01 00:00:02 Parsing reference specification file...
2026-01-01 00:00:03 Done.
2026-01-01 00:00:04 Detected state vector length of 2.
2026-01-01 00:00:05 Detected format version 1.
2026-01-01 00:00:06 Given automaton has size 2.
") /\
  C75_shown OnStdout ["-v"; "-i"; "none"] = Some (-1, None, "Running with verbosity level 1.
").
Proof.
  pose proof convert_line as HP. pose proof HP as ((ws & Hw & Ha) & H1 & H2 & _ & _).
  assert (HE : enough convert_opts) by (left; discriminate).
  split; [|split; [left; split; [reflexivity|left; discriminate]|split; [exact HP|split; [|split; [right; split; [reflexivity|split; [reflexivity|left; reflexivity]]|split; [exact HP|]]]]]].
  - split; [exists (["-vv"] :: ws); split; [constructor; [apply (aw_vv "")|exact Hw]|rewrite Ha; reflexivity]|].
    split; [intros [X|X]; [discriminate X|auto]|]. split; [intros [X|X]; [discriminate X|auto]|exact HE].
  - split; [exists (["-l"] :: ws); split; [constructor; [apply aw_l|exact Hw]|rewrite Ha; reflexivity]|].
    split; [intros [X|X]; [discriminate X|auto]|]. split; [intros [X|X]; [discriminate X|auto]|exact HE].
  - repeat (match goal with |- _ /\ _ => split end); vm_compute; reflexivity.
Qed.
Print Assumptions C75_instance.
