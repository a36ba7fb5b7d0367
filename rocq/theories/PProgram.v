(** C54: whole runs of gr1c, from the command line to the exit code, stdout and the
    output file. Theorems only; proofs are in ProgramProofs.v.

    Reading guide. [asked args l file]: the command line gives the options [l] and the
    input file [file] (or none), without help, version and -v, -l, -p; -P comes with -o and
    -i with a file (OptSpec.v, ProgramSpec.v). [asked_mode], [asked_init], [asked_format], [asked_output]:
    what these options ask for. [text_means] is the file format (TextSpec.v). *)
From Coq Require Import List ZArith Bool Ascii String.
From Verif Require Import Base Strs Ptree Form EnumProofs Solve FSpec Automaton Synth Nonbool RSpec NbExamples Main MainSpec MainExamples ListSpec JsonSpec
  JsonProofs JsonWrite FormatSpec TextSpec TextProofs Output Options OptSpec Program ProgramSpec ProgramProofs.
Import ListNotations.
Open Scope string_scope.
Open Scope list_scope.

(** the run that synthesizes, and ends, answers right *)
Theorem C54_synthesis : forall orc alloc key date W args l file text R,
  asked args l file -> asked_mode l = GR1C_MODE_SYNTHESIS -> ~ In OPromela l -> input_text W file text ->
  text_means text R -> form_ok (asked_init l) R -> usable R -> decidable_init R (asked_init l) ->
  tools R orc alloc -> keys_ok key -> chars plain date ->
  (exists N, forall fuel, (N <= fuel)%nat -> forall r,
     gr1c_program orc alloc key date fuel W args = Ok r -> right_run key date W l R r) /\
  (can_start R (asked_init l) -> exists N, forall fuel, (N <= fuel)%nat -> exists r,
     gr1c_program orc alloc key date fuel W args = Ok r /\
     right_run key date W l R r /\ (r = error_exit -> no_output_file W l)).
Proof. intros orc alloc key date W args l file text R HA Hm Hp Hi HM HF HU HD HT HK Hd.
  exact (whole_synthesis orc alloc key date W args l file HA text R Hi HM HF HU HD HT HK Hd Hm Hp). Qed.
Print Assumptions C54_synthesis.
(** the run that decides *)
Theorem C54_realizable : forall orc alloc key date W args l file text R,
  asked args l file -> asked_mode l = GR1C_MODE_REALIZABLE -> input_text W file text ->
  text_means text R -> form_ok (asked_init l) R -> usable R -> decidable_init R (asked_init l) ->
  exists N, forall fuel, (N <= fuel)%nat ->
    (realizable R (asked_init l) /\ gr1c_program orc alloc key date fuel W args = Ok (Exits 0 (said "Realizable.") None)) \/
    (~ realizable R (asked_init l) /\ gr1c_program orc alloc key date fuel W args = Ok (Exits 3 (said "Not realizable.") None)).
Proof. intros orc alloc key date W args l file text R HA Hm Hi HM HF HU HD.
  exact (whole_realizable orc alloc key date W args l file HA text R Hi HM HF HU HD Hm). Qed.
Print Assumptions C54_realizable.
(** the run that checks the syntax *)
Theorem C54_syntax : forall orc alloc key date W args l file fuel text R,
  asked args l file -> asked_mode l = GR1C_MODE_SYNTAX -> input_text W file text ->
  text_means text R -> form_ok (asked_init l) R -> gr1c_program orc alloc key date fuel W args = Ok (Exits 0 "" None).
Proof. intros orc alloc key date W args l file fuel text R HA. exact (whole_syntax orc alloc key date W args l file HA fuel text R). Qed.
Print Assumptions C54_syntax.
(** whatever is asked, the answer to a text that is not a specification is 2 *)
Theorem C54_bad_text : forall orc alloc key date W args l file fuel text,
  asked args l file -> input_text W file text ->
  text_no_formula text -> (~ exists R, text_means text R) ->
  gr1c_program orc alloc key date fuel W args = Ok (Exits 2 "" None).
Proof. intros orc alloc key date W args l file fuel text HA. exact (whole_bad_text orc alloc key date W args l file HA fuel text). Qed.
Print Assumptions C54_bad_text.
Theorem C54_bad_form : forall orc alloc key date W args l file fuel text R,
  asked args l file -> input_text W file text ->
  text_means text R -> ~ form_ok (asked_init l) R ->
  gr1c_program orc alloc key date fuel W args = Ok (Exits 2 "" None).
Proof. intros orc alloc key date W args l file fuel text R HA. exact (whole_bad_form orc alloc key date W args l file HA fuel text R). Qed.
Print Assumptions C54_bad_form.
Theorem C54_no_file : forall orc alloc key date W args l file fuel f,
  asked args l file -> file = Some f -> w_file W f = None ->
  gr1c_program orc alloc key date fuel W args = Ok error_exit.
Proof. intros orc alloc key date W args l file fuel f HA. exact (whole_no_file orc alloc key date W args l file HA fuel f). Qed.
Print Assumptions C54_no_file.
(** command lines that stop early: C55 says which these are *)
Theorem C54_stops : forall orc alloc key date fuel W args,
  (forall p a, read_options args = Ok (Sub p a) -> gr1c_program orc alloc key date fuel W args = Ok (Runs p a)) /\
  (forall c p, read_options args = Ok (Stop c p) -> gr1c_program orc alloc key date fuel W args = Ok (Prints c p)).
Proof. exact whole_stops. Qed.
Print Assumptions C54_stops.

(** a room and a lamp: the specification of C47 in a file *)
Definition C54_world : world :=
  World (fun f => if String.eqb f "lamp.spc" then Some ex_text else None) "" (fun f => String.eqb f "lamp.aut").
Definition C54_args : list string := ["-n"; "ALL_INIT"; "-t"; "aut"; "-o"; "lamp.aut"; "lamp.spc"].
Definition C54_opts : list opt := [OInit ALL_INIT; OType FORMAT_AUT; OOutput "lamp.aut"].
Definition C54_file : string :=
"1
0 1 0 0 0 1 3
1 2 0 0 0 1 4 3 2
2 1 1 0 1 1 1
3 2 1 0 1 1 4 1 0
4 0 0 1 0 1 4 3 2
".
Example C54_instance : asked C54_args C54_opts (Some "lamp.spc") /\ asked_mode C54_opts = GR1C_MODE_SYNTHESIS /\
  ~ In OPromela C54_opts /\ asked_init C54_opts = ALL_INIT /\ input_text C54_world (Some "lamp.spc") ex_text /\
  text_means ex_text ex_int /\ form_ok ALL_INIT ex_int /\ usable ex_int /\ decidable_init ex_int ALL_INIT /\
  can_start ex_int ALL_INIT /\ tools ex_int robdd_oracle alloc_max /\ keys_ok ex_key /\
  gr1c_program robdd_oracle alloc_max ex_key "now" 40 C54_world C54_args = Ok (Exits 0 "" (Some ("lamp.aut", C54_file))).
Proof.
  destruct ex_text_run as (H1 & H2 & _ & H3 & H4 & _).
  split; [|split; [reflexivity|]; split; [intros H; cbn in H; repeat destruct H as [H|H]; try discriminate H; auto|]; split; [reflexivity|]; split; [reflexivity|]; split; [exact H1|]; split; [exact H2|]; split; [exact H3|];
    split; [intros X; discriminate X|]; split; [split; [left; discriminate|exact I]|]; split; [exact H4|]; split; [exact ex_key_ok|vm_compute; reflexivity]].
  split; [|split; [|split; [|split; [|split; [|split; [|split; [intros b|split; [discriminate|discriminate]]]]]]]];
    try (intros H; cbn in H; repeat destruct H as [H|H]; try discriminate H; auto; fail).
  - intros (a & r & E & H). injection E as <- _. cbn in H. repeat destruct H as [H|H]; try discriminate H; auto.
  - exists [["-n"; "ALL_INIT"]; ["-t"; "aut"]; ["-o"; "lamp.aut"]], ["lamp.spc"].
    split; [|split; [constructor; reflexivity | reflexivity]]. constructor; [|repeat constructor; exact (w_t FORMAT_AUT "")].
    apply (w_n ALL_INIT "all_init" "ALL_INIT" "" in_all); [|exact I].
    do 3 (apply sl_upper; [unfold letter; cbn; Lia.lia|]). apply sl_same.
    do 4 (apply sl_upper; [unfold letter; cbn; Lia.lia|]). apply sl_nil.
  - intros b H. cbn in H. repeat destruct H as [H|H]; try discriminate H; auto.
Qed.
(** the same specification decided; a missing file; a text that ends too early *)
Example C54_instance_other :
  gr1c_program robdd_oracle alloc_max ex_key "now" 40 C54_world ["-r"; "lamp.spc"] = Ok (Exits 0 (said "Realizable.") None) /\
  gr1c_program robdd_oracle alloc_max ex_key "now" 40 C54_world ["-s"; "lamp"] = Ok error_exit /\
  gr1c_program robdd_oracle alloc_max ex_key "now" 40 (World (fun _ => None) "SYS: x" (fun _ => true)) [] = Ok (Exits 2 "" None) /\
  gr1c_program robdd_oracle alloc_max ex_key "now" 40 C54_world ["-o"; "x"; "lamp.spc"] = Ok error_exit.
Proof. repeat split; vm_compute; reflexivity. Qed.
