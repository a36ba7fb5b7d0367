(** Specification: what -v and -l add to a run of gr1c-autman. Not a model of code. *)
From Coq Require Import List ZArith Bool Ascii String.
From Verif Require Import Base Strs Options Program AutmanSpec Logging LogSpec VerboseSpec.
Import ListNotations.
Open Scope string_scope.
Open Scope list_scope.
Open Scope Z_scope.

Fixpoint times (l : list aopt) : Z :=
  match l with [] => 0 | AVerbose b :: r => (if b then 2 else 1) + times r | _ :: r => times r end.
(** the level of verbosity: how often v is given, up to a multiple of 256; -l makes 0 to 1 *)
Definition level_is (l : list aopt) (v : Z) : Prop :=
  (v = times l mod 256 /\ (v <> 0 \/ ~ In ALog l)) \/ (v = 1 /\ times l mod 256 = 0 /\ In ALog l).
Definition not_stopped (args : list string) (l : list aopt) : Prop :=
  aline args l /\ ~ In AHelp l /\ ~ In AVersion l /\ enough l.
Definition hushed (l : list aopt) : list aopt :=
  filter (fun o => match o with AVerbose _ | ALog => false | _ => true end) l.

(** ** Messages, each with the level it needs *)
Definition at_level (v : Z) (d : list (Z * string)) : list string := map snd (filter (fun x => fst x <=? v) d).
Definition level_message (v : Z) : Z * string := (1, String.append "Running with verbosity level " (zdec v ++ ".")).
Definition using_file (f what : string) : Z * string := (2, String.append "Using file """ (f ++ """ for " ++ what ++ ".")).
Definition parsing_reference : Z * string := (1, "Parsing reference specification file...").
Definition reference_messages (l : list aopt) (n : Z) : list (Z * string) :=
  match named_spec l with
  | None => []
  | Some f => [using_file f "reference specification"; parsing_reference; (1, "Done."); (1, String.append "Detected state vector length of " (zdec n ++ "."))]
  end.
Definition input_message (l : list aopt) : Z * string :=
  match named_input l with None => (2, "Using stdin for input.") | Some f => using_file f "input" end.
Definition loading : Z * string := (2, "Loading automaton...").
Definition loaded_messages (version : Z) (size : nat) : list (Z * string) :=
  [(2, "Done."); (1, String.append "Detected format version " (zdec version ++ ".")); (1, String.append "Given automaton has size " (zdec (Z.of_nat size) ++ "."))].
(** [msgs] in the log, on stdout [t], and nothing else *)
Definition log_and (l : list aopt) (name : string) (clock : nat -> moment) (st : lstate) (msgs : list string) (t : string) : Prop :=
  (In ALog l -> told (InFile name) (visible st) = log_text true clock 1 msgs /\ told OnStdout (visible st) = t /\
     forall q, q <> OnStdout -> q <> InFile name -> told q (visible st) = "") /\
  (~ In ALog l -> told OnStdout (visible st) = String.append (log_text false clock 1 msgs) t /\
     forall q, q <> OnStdout -> told q (visible st) = "").
