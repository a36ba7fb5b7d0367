(** Specification: what gr1c-rg -p writes. Not a model of code. *)
From Coq Require Import List ZArith Bool Ascii String.
From Verif Require Import Base Strs Ptree Form RSpec FormPrint TextSpec Options OptSpec Program ProgramSpec RgParse RgSpec DumpSpec.
Import ListNotations.
Open Scope string_scope.
Open Scope Z_scope.

Definition rg_asked_dump (args : list string) (l : list opt) (files : list string) : Prop :=
  rg_line args l files /\ no_version l /\ ~ In OHelp l /\ In ODump l /\ ~ In OLog l /\ (forall b, ~ In (OVerbose b) l).
(** transition rules that are left out are True *)
Definition rg_completed (R : rspec) : rspec := {|
  rs_evars := rs_evars R; rs_svars := rs_svars R; rs_einit := rs_einit R; rs_sinit := rs_sinit R;
  rs_etrans := or_true (rs_etrans R); rs_strans := or_true (rs_strans R);
  rs_egoals := rs_egoals R; rs_sgoals := rs_sgoals R |}.
(** what is left of a specification without variables and transition rules *)
Definition without_rules (R : rspec) : rspec := {|
  rs_evars := []; rs_svars := []; rs_einit := rs_einit R; rs_sinit := rs_sinit R; rs_etrans := []; rs_strans := [];
  rs_egoals := rs_egoals R; rs_sgoals := rs_sgoals R |}.
(** six lines with labels. With the section words of a specification file in place of the
    labels, they are the initial conditions and goals of the specification. The lines for the
    transition rules are the same for all specifications. *)
Definition or_none (b : option string) : string := match b with Some s => s | None => "  (none)" end.
Definition if_any (word : string) (b : option string) : string := match b with Some s => word ++ s ++ ";" ++ nl | None => "" end.
Definition rg_listing_of (R : rspec) (listing : string) : Prop :=
  exists ei si eg sg,
    listing = "ENV INIT:" ++ ei ++ nl ++ "SYS INIT:" ++ si ++ nl ++ "ENV TRANS:  [] " ++ nl ++ "SYS TRANS:  [] " ++ nl ++
      "ENV GOALS:" ++ or_none eg ++ nl ++ "SYS GOAL:" ++ or_none sg ++ nl /\
    rg_text_means ("ENVINIT:" ++ ei ++ ";" ++ nl ++ "SYSINIT:" ++ si ++ ";" ++ nl ++ if_any "ENVGOAL:" eg ++ if_any "SYSGOAL:" sg)
      (without_rules R).
(** the files: as for gr1c, but for the goal of the system *)
Definition rg_drawings (R : rspec) : list (string * option form) :=
  ([("env_init_ptree.dot", rs_einit R); ("sys_init_ptree.dot", rs_sinit R)] ++
   dot_names "env_trans" (rs_etrans R) ++ dot_names "sys_trans" (rs_strans R) ++ dot_names "env_goal" (rs_egoals R) ++
   map (fun g => ("sys_goal_ptree.dot", Some g)) (rs_sgoals R))%list.
