(** Specification: what a run of gr1c -P should deliver. Not a model of code. *)
From Coq Require Import List ZArith Bool Ascii String.
From Verif Require Import PromelaSpec SpinSpec.
From Verif Require Import Base Game Strs Ptree Form Support EnumProofs Solve FSpec Automaton Nonbool RSpec MainSpec ListSpec TextSpec Output
  Options OptSpec Program ProgramSpec.
Import ListNotations.
Open Scope string_scope.

(** the strategy is in the file, and stdout has a Promela model of it that passes *)
Definition delivered_verified (W : world) (l : list opt) (text : string) (r : outcome) : Prop :=
  exists f model formula P defs spec, asked_output l = Some f /\ w_writable W f = true /\
    r = Exits 0 model (Some (f, text)) /\ spin_model model formula P defs spec /\ obeys P defs spec.
Definition right_verified (key : nat -> string) (date : string) (W : world) (l : list opt) (R : rspec) (r : outcome) : Prop :=
  (~ realizable R (asked_init l) /\ r = Exits 3 "" None) \/
  (realizable R (asked_init l) /\
    (r = error_exit \/
     exists A text, strategy_for R (asked_init l) A /\ describes key date (asked_format l) R A text /\ delivered_verified W l text r)).
