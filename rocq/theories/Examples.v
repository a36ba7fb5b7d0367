(** Small specifications used in the examples beside the theorems. *)
From Coq Require Import List ZArith Bool String.
From Verif Require Import Base Game Strs Ptree Form Solve FSpec.
Import ListNotations.
Open Scope string_scope.
Open Scope list_scope.
Open Scope Z_scope.

(** ENV: x; SYS: y; SYSTRANS: [](y' -> x'); ENVGOAL: []<>x; SYSGOAL: []<>y & []<>!y *)
Definition ex_follow : fspec := {|
  fs_evars := [("x", -1)]; fs_svars := [("y", -1)];
  fs_einit := Some (FNot (FVar "x")); fs_sinit := Some (FNot (FVar "y"));
  fs_etrans := FTrue;
  fs_strans := FImp (FNext "y") (FNext "x");
  fs_egoals := [FVar "x"];
  fs_sgoals := [FVar "y"; FNot (FVar "y")]
|}.
(** the same with SYSTRANS: [](y -> False): a state with y=1 is losing whenever the
    environment can move; y must stay 0, so the goal []<>y is out of reach, unless
    the environment stops meeting its goal *)
Definition ex_stuck : fspec := {|
  fs_evars := [("x", -1)]; fs_svars := [("y", -1)];
  fs_einit := None; fs_sinit := Some (FNot (FVar "y"));
  fs_etrans := FImp (FVar "x") (FNext "x");
  fs_strans := FNot (FVar "y");
  fs_egoals := [FNot (FVar "x")];
  fs_sgoals := [FVar "y"]
|}.
(** SYS: y; SYSINIT: False; SYSGOAL: []<>True *)
Definition ex_no_init : fspec := {|
  fs_evars := []; fs_svars := [("y", -1)];
  fs_einit := None; fs_sinit := Some FFalse;
  fs_etrans := FTrue; fs_strans := FTrue; fs_egoals := []; fs_sgoals := [FTrue]
|}.

(** SYS: y; SYSGOAL: []<>!y & []<>y *)
Definition ex_lost : fspec := {|
  fs_evars := []; fs_svars := [("y", -1)];
  fs_einit := None; fs_sinit := None;
  fs_etrans := FTrue; fs_strans := FTrue; fs_egoals := [];
  fs_sgoals := [FNot (FVar "y"); FVar "y"]
|}.
(** SYS: x; SYSINIT: x; ENVTRANS: [](!x); SYSTRANS: [](False) *)
Definition ex_halt : fspec := {|
  fs_evars := []; fs_svars := [("x", -1)];
  fs_einit := None; fs_sinit := Some (FVar "x");
  fs_etrans := FNot (FVar "x"); fs_strans := FFalse; fs_egoals := []; fs_sgoals := [FTrue]
|}.
(** SYS: x; SYSINIT: x; ENVTRANS: [](!x); no SYSTRANS *)
Definition ex_idle : fspec := {|
  fs_evars := []; fs_svars := [("x", -1)];
  fs_einit := None; fs_sinit := Some (FVar "x");
  fs_etrans := FNot (FVar "x"); fs_strans := FTrue; fs_egoals := []; fs_sgoals := [FTrue]
|}.
(** ENV: x; SYS: y; SYSINIT: False; SYSTRANS: [](False) *)
Definition ex_empty : fspec := {|
  fs_evars := [("x", -1)]; fs_svars := [("y", -1)];
  fs_einit := None; fs_sinit := Some FFalse;
  fs_etrans := FTrue; fs_strans := FFalse; fs_egoals := []; fs_sgoals := [FTrue]
|}.
(** ENV: x; SYS: y; ENVINIT: False *)
Definition ex_no_env : fspec := {|
  fs_evars := [("x", -1)]; fs_svars := [("y", -1)];
  fs_einit := Some FFalse; fs_sinit := None;
  fs_etrans := FTrue; fs_strans := FTrue; fs_egoals := []; fs_sgoals := [FTrue]
|}.

(** SYS: y; ENVGOAL: []<>y & []<>!y; SYSGOAL: []<>False *)
Definition ex_toggle : fspec := {|
  fs_evars := []; fs_svars := [("y", -1)];
  fs_einit := None; fs_sinit := None;
  fs_etrans := FTrue; fs_strans := FTrue; fs_egoals := [FVar "y"; FNot (FVar "y")];
  fs_sgoals := [FFalse]
|}.

Ltac scoped := unfold well_scoped, all_boolean, opt_form, state_form, incl; simpl;
  intuition (subst; simpl in *; auto; intuition (subst; auto)).

Lemma ex_follow_scoped : well_scoped ex_follow.
Proof. scoped. Qed.
Lemma ex_follow_bool : all_boolean ex_follow.
Proof. scoped. Qed.
Lemma ex_stuck_scoped : well_scoped ex_stuck.
Proof. scoped. Qed.
Lemma ex_stuck_bool : all_boolean ex_stuck.
Proof. scoped. Qed.
Lemma ex_no_init_scoped : well_scoped ex_no_init.
Proof. scoped. Qed.
Lemma ex_no_init_bool : all_boolean ex_no_init.
Proof. scoped. Qed.
Lemma ex_lost_scoped : well_scoped ex_lost.
Proof. scoped. Qed.
Lemma ex_lost_bool : all_boolean ex_lost.
Proof. scoped. Qed.
Lemma ex_halt_scoped : well_scoped ex_halt.
Proof. scoped. Qed.
Lemma ex_halt_bool : all_boolean ex_halt.
Proof. scoped. Qed.
Lemma ex_idle_scoped : well_scoped ex_idle.
Proof. scoped. Qed.
Lemma ex_idle_bool : all_boolean ex_idle.
Proof. scoped. Qed.
Lemma ex_empty_scoped : well_scoped ex_empty.
Proof. scoped. Qed.
Lemma ex_empty_bool : all_boolean ex_empty.
Proof. scoped. Qed.
Lemma ex_no_env_scoped : well_scoped ex_no_env.
Proof. scoped. Qed.
Lemma ex_no_env_bool : all_boolean ex_no_env.
Proof. scoped. Qed.
Lemma ex_toggle_scoped : well_scoped ex_toggle.
Proof. scoped. Qed.
Lemma ex_toggle_bool : all_boolean ex_toggle.
Proof. scoped. Qed.
