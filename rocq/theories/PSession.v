(** C65: runs of gr1c -i, from the command line and the lines typed to what is printed.
    Theorems only; proofs are in SessionProofs.v and SessionRun.v.

    Reading guide. [asked args l file]: the command line gives the options [l] and the file
    (ProgramSpec.v). An entry of a session is a command about the game (InteractSpec.v) or a
    question about the specification; [conversation] says what is printed for the entries,
    [gets_lost] that sysnext is asked where there is nothing to list (SessionSpec.v). *)
From Coq Require Import List ZArith Bool Arith Ascii String.
From Verif Require Import Base Strs Ptree Form Support EnumProofs Solve FSpec Automaton Synth SynthSpec MainExamples AutIO AutIOSpec
  Interactive InteractSpec SessionSpec
  Nonbool RSpec MainSpec ListSpec TextSpec JsonWrite Options OptSpec Program ProgramSpec SessionRun SessionExamples.
Import ListNotations.
Open Scope string_scope.
Open Scope list_scope.

(** Boolean variables: every session is answered as C32, C33 and the documentation say *)
Theorem C65_session : forall orc alloc key date W args l file text R,
  ProgramSpec.asked args l file -> asked_mode l = GR1C_MODE_INTERACTIVE -> input_text W file text ->
  text_means text R -> form_ok (asked_init l) R -> usable R ->
  GrPatchSpec.no_ints R -> rs_svars R <> [] ->
  oracle_ok (2 * (List.length (rs_evars R) + List.length (rs_svars R))) orc ->
  (Z.of_nat (List.length (rs_sgoals R)) < 2 ^ 31)%Z ->
  exists N, forall fuel, (N <= fuel)%nat -> forall es last, Forall (entry_ok (session_game R)) es -> ends last ->
    w_stdin W = typed_text es last ->
    (gets_lost (session_game R) es -> gr1c_program orc alloc key date fuel W args = Crash) /\
    (~ gets_lost (session_game R) es -> exists t, gr1c_program orc alloc key date fuel W args = Ok (Exits 0 t None) /\
       conversation (session_game R) (opening (session_game R)) es t).
Proof. exact whole_session. Qed.
Print Assumptions C65_session.
(** integer variables are refused, whatever is typed *)
Theorem C65_integers : forall orc alloc key date W args l file text R,
  ProgramSpec.asked args l file -> asked_mode l = GR1C_MODE_INTERACTIVE -> input_text W file text ->
  text_means text R -> form_ok (asked_init l) R -> usable R ->
  (exists x d, In (x, d) (rs_vars R) /\ (0 <= d)%Z) ->
  exists N, forall fuel, (N <= fuel)%nat -> gr1c_program orc alloc key date fuel W args = Ok error_exit.
Proof. exact whole_ints. Qed.
Print Assumptions C65_integers.
(** addvar is a command of the list that help prints and of the documentation, but no command *)
Theorem C65_addvar_refuted :
  (exists a b, help_page = (a ++ "addvar env (sys) VARIABLE" ++ b)%string) /\
  (forall F r, has_newline r = false -> (String.length r < 240)%nat ->
    entry_ok F (Ask (QOther ("addvar " ++ r)%string)) /\
    forall t, query_reply F (QOther ("addvar " ++ r)%string) t <-> t = ("Unrecognized command: addvar " ++ r ++ newline_text)%string) /\
  gr1c_program robdd_oracle alloc_max ex_key "now" 40 (talk_world ("addvar env z" ++ newline_text)) ["-i"; "talk.spc"] =
    Ok (Exits 0 (">>> Unrecognized command: addvar env z" ++ newline_text ++ newline_text ++ ">>> ")%string None).
Proof. exact (Logic.conj (proj1 addvar_unknown) (Logic.conj (proj2 addvar_unknown) addvar_run)). Qed.
Print Assumptions C65_addvar_refuted.
Example C65_instance : ProgramSpec.asked ["-i"; "talk.spc"] [OInteractive] (Some "talk.spc") /\
  asked_mode [OInteractive] = GR1C_MODE_INTERACTIVE /\ input_text (talk_world talk_typed) (Some "talk.spc") talk_text /\
  text_means talk_text talk /\ form_ok (asked_init [OInteractive]) talk /\ usable talk /\ GrPatchSpec.no_ints talk /\ rs_svars talk <> [] /\
  oracle_ok (2 * (List.length (rs_evars talk) + List.length (rs_svars talk))) robdd_oracle /\
  Forall (entry_ok (session_game talk)) talk_entries /\ ends ("quit" ++ newline_text)%string /\
  w_stdin (talk_world talk_typed) = typed_text talk_entries ("quit" ++ newline_text)%string /\
  gr1c_program robdd_oracle alloc_max ex_key "now" 40 (talk_world talk_typed) ["-i"; "talk.spc"] = Ok (Exits 0 talk_out None).
Proof.
  exact (Logic.conj talk_asked (Logic.conj eq_refl (Logic.conj eq_refl (Logic.conj talk_means (Logic.conj talk_form (Logic.conj talk_usable
    (Logic.conj talk_no_ints (Logic.conj (fun H : rs_svars talk = [] => eq_ind (rs_svars talk) (fun l => match l with [] => False | _ => True end) I [] H)
    (Logic.conj (robdd_oracle_ok _) (Logic.conj talk_ok (Logic.conj (or_intror (ex_intro _ newline_text eq_refl)) (Logic.conj eq_refl talk_run)))))))))))).
Qed.
(** sysnext where the system is lost reads behind the end of the levels; -i with the lamp of
    C47, which has an integer variable *)
Example C65_instance_lost :
  gr1c_program robdd_oracle alloc_max ex_key "now" 40 (talk_world ("sysnext 0 1 1 0" ++ newline_text)) ["-i"; "talk.spc"] = Crash.
Proof. exact talk_lost. Qed.
Example C65_instance_integers : (exists x d, In (x, d) (rs_vars NbExamples.ex_int) /\ (0 <= d)%Z) /\
  gr1c_program robdd_oracle alloc_max ex_key "now" 40 (World (fun _ => Some TextProofs.ex_text) "" (fun _ => false)) ["-i"; "lamp.spc"] = Ok error_exit.
Proof. exact lamp_refused. Qed.
