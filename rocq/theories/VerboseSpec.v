(** Specification: what -v and -l add to a run of gr1c. Not a model of code. *)
From Coq Require Import List ZArith Bool Ascii String.
From Verif Require Import Base Strs Options OptSpec Program ProgramSpec Logging LogSpec.
Import ListNotations.
Open Scope string_scope.
Open Scope list_scope.
Open Scope Z_scope.

(** -v once or -l; none of -p, -i and -P. 256 more times -v is the same. *)
Definition asked_verbose (args : list string) (l : list opt) (file : option string) : Prop :=
  ~ a_command args /\ line args l file /\ no_version l /\ ~ In OHelp l /\ ~ In ODump l /\ ~ In OPromela l /\
  asked_mode l <> GR1C_MODE_INTERACTIVE /\ (verbosity l mod 256 = 1 \/ (verbosity l mod 256 = 0 /\ In OLog l)).
(** the other options *)
Definition silent (l : list opt) : list opt :=
  filter (fun o => match o with OVerbose _ | OLog => false | _ => true end) l.

(** ** Messages *)
Definition running := "Running with verbosity level 1.".
Definition parsing := ["Parsing input..."].
Definition parsed := ["Parsing input..."; "Done."].
Definition found := ["Realizable."; "Synthesizing a strategy..."; "Done."].
Definition dumping (n : nat) := String.append "Dumping automaton of size " (zdec (Z.of_nat n) ++ "...").
(** the messages of a run with exit code [c], up to where it gets *)
Inductive progress (m : run_option_t) : Z -> list string -> Prop :=
| pr_no_input : progress m (-1) [running]
| pr_no_syntax : progress m 2 (running :: parsing)
| pr_bad_form : progress m 2 (running :: parsed)
| pr_bad_spec : m <> GR1C_MODE_SYNTAX -> progress m (-1) (running :: parsed)
| pr_syntax : m = GR1C_MODE_SYNTAX -> progress m 0 (running :: parsed)
| pr_not : m <> GR1C_MODE_SYNTAX -> progress m 3 (running :: parsed ++ ["Not realizable."])
| pr_realizable : m = GR1C_MODE_REALIZABLE -> progress m 0 (running :: parsed ++ ["Realizable."])
| pr_failed : m = GR1C_MODE_SYNTHESIS -> progress m (-1) (running :: parsed ++ found)
| pr_strategy n : m = GR1C_MODE_SYNTHESIS -> progress m 0 (running :: parsed ++ found ++ [dumping n]).
(** the text of the log: one line for each message, the [k]-th with its time *)
Fixpoint log_text (timed : bool) (clock : nat -> moment) (k : nat) (msgs : list string) : string :=
  match msgs with
  | [] => ""
  | x :: r => String.append (time_mark timed (clock k)) (x ++ newline ++ log_text timed clock (S k) r)
  end.
(** nothing but these messages is written, to the log file [name] or to stdout *)
Definition only_logs (l : list opt) (name : string) (clock : nat -> moment) (st : lstate) (msgs : list string) : Prop :=
  (In OLog l -> told (InFile name) (visible st) = log_text true clock 1 msgs /\ told OnStdout (visible st) = "") /\
  (~ In OLog l -> told OnStdout (visible st) = log_text false clock 1 msgs).
