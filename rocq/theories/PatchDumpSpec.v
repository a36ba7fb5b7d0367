(** Specification: what gr1c-patch -p writes. Not a model of code. *)
From Coq Require Import List ZArith Bool Ascii String.
From Verif Require Import Base Strs Ptree Form RSpec FormPrint TextSpec Options OptSpec Program ProgramSpec DumpSpec GrPatch GrPatchSpec.
Import ListNotations.
Open Scope string_scope.
Open Scope Z_scope.

Definition patch_asked_dump (args : list string) (l : list popt) (files : list string) (q : request) (a : string) : Prop :=
  pline args l files /\ no_pversion l /\ ~ In PHelp l /\ (In PDump l /\ ~ In PLog l /\ forall b, ~ In (PVerbose b) l) /\
  ~ conflict l /\ ~ both_stdin l files /\ asked_for l = Some q /\ the_aut l = Some a.
Definition without_pdump (l : list popt) : list popt :=
  filter (fun o => match o with PDump => false | _ => true end) l.
(** the formula of -f *)
Definition goal_is (l : list popt) (g : option form) : Prop :=
  match the_goal l, g with
  | None, None => True
  | Some s, Some g => formula_means s g
  | _, _ => False
  end.
(** it is about variables of [R], without primes *)
Definition goal_known (R : rspec) (g : option form) : Prop :=
  match g with None => True | Some g => incl (fvars g) (names (rs_vars R)) /\ fnexts g = [] end.
(** the file for it *)
Definition goal_drawing (g : option form) : list (string * option form) :=
  match g with None => [] | Some g => [("clformula_ptree.dot", Some g)] end.
Definition patch_drawings (g : option form) (R : rspec) : list (string * option form) :=
  (goal_drawing g ++ drawings (completed R))%list.
(** files that are read *)
Definition reads (l : list popt) (files : list string) (f : string) : Prop :=
  hd_error files = Some f \/ the_aut l = Some f \/ the_changes l = Some f.
(** the variables with numbers, and domains that are not theirs *)
Definition patch_domain_text (d : Z) : string := if d =? 0 then "bool" else "{0.." ++ zdec d ++ "}".
Definition patch_numbered_vars (i : nat) (ds : list vdecl) : string :=
  match ds with
  | [] => "(none)"
  | _ => String.concat ", " (map (fun p : nat * vdecl =>
           fst (snd p) ++ " (" ++ zdec (Z.of_nat (fst p)) ++ "; " ++ patch_domain_text (snd (snd p)) ++ ")")
           (List.combine (seq i (List.length ds)) ds))
  end.
Definition patch_vars_screen (R : rspec) : string :=
  "Environment variables (indices; domains): " ++ patch_numbered_vars 0 (rs_evars R) ++ nl ++ nl ++
  "System variables (indices; domains): " ++ patch_numbered_vars (List.length (rs_evars R)) (rs_svars R) ++ nl ++ nl.
