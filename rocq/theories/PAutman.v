(** Property C59: gr1c-autman reads, checks, converts and exports strategy files as its
    usage message says.

    Reading guide. [autman key date fuel W args]: the program run with the arguments, [W]
    saying what files and stdin contain and which files can be written; [key] prints node
    addresses, [date] the time (JSON). [plainly args l]: the arguments are the options [l],
    none of -h, -V, -l, -v. [strategy_file n text rows]: a "gr1c automaton" file of nodes
    0, 1, 2, ... with states of length [n], comments and blank lines; [conveys]: the text in
    the output format describes these nodes; [handed]: it goes to the -o file, or to stdout
    (AutmanSpec.v). [spin_model], [obeys]: Promela models (PromelaSpec.v, property C58). *)
From Coq Require Import List ZArith Bool Arith String.
From Verif Require Import PromelaSpec SpinSpec.
From Verif Require Import Base Solve FSpec RSpec Main MainSpec Automaton AutIO AutIOSpec AutIOProofs ReadSpec HotSpec Lex LexSpec TextSpec JsonSpec FormatSpec
  Output Options OptSpec Program ProgramSpec Autman AutmanSpec AutmanProofs AutmanModel AutmanExamples.
Import ListNotations.
Open Scope string_scope.
Open Scope list_scope.
Open Scope Z_scope.

(** -t with -i: the nodes of the file, in the format asked for *)
Theorem C59_convert : forall (key : nat -> string) date (W : world) fuel args l fmt file stext R text rows,
  keys_ok key -> chars plain date ->
  plainly args l -> asked_task l = Convert fmt ->
  named_spec l = Some file -> w_file W file = Some stext -> text_means stext R ->
  input_of W l = Some text -> strategy_file (Z.of_nat (List.length (rs_vars R))) text rows ->
  exists t r, conveys key date fmt (rs_evars R) (rs_svars R) rows t /\ handed W l "" t r /\
    autman key date fuel W args = Ok r.
Proof. intros key date W fuel args l fmt file stext R text rows H1 H2. exact (converts key date W H1 H2 fuel args l fmt file stext R text rows). Qed.
Print Assumptions C59_convert.

(** -t with -L: formats that need no names of variables *)
Theorem C59_convert_plain : forall key date (W : world) fuel args l fmt n text rows,
  plainly args l -> asked_task l = Convert fmt -> In fmt [FORMAT_TEXT; FORMAT_AUT] ->
  named_spec l = None -> given_length l = Some n ->
  input_of W l = Some text -> strategy_file n text rows ->
  exists t r, conveys key date fmt [] [] rows t /\ handed W l "" t r /\
    autman key date fuel W args = Ok r.
Proof. exact converts_plain. Qed.
Print Assumptions C59_convert_plain.

(** -s, or nothing: the version of a file *)
Theorem C59_check : forall key date (W : world) fuel args l n text,
  plainly args l -> asked_task l = CheckSyntax -> told W l n -> input_of W l = Some text ->
  (forall rows, strategy_file n text rows ->
    exists r, handed W l ("1" ++ TextSpec.nl)%string "" r /\ autman key date fuel W args = Ok r) /\
  (forall (v1 : bool) A, AutIOSpec.writable n A -> aut_aut_dumpver A n (if v1 then 1 else 0) = Ok (text, 0) -> short_lines text ->
    exists r, handed W l ((if v1 then "1" else "0") ++ TextSpec.nl)%string "" r /\ autman key date fuel W args = Ok r).
Proof. exact checks. Qed.
Print Assumptions C59_check.

(** -P: the model passes if every path of the strategy satisfies the specification and all
    moves are answered; if it passes, every path satisfies the specification *)
Theorem C59_model : forall (key : nat -> string) (date : string) R, well_typed R -> spin_names R ->
  exists N, forall fuel, (N <= fuel)%nat -> forall (W : world) args l file stext text rows A,
    plainly args l -> asked_task l = WriteModel ->
    named_spec l = Some file -> w_file W file = Some stext -> text_means stext R ->
    input_of W l = Some text -> strategy_file (Z.of_nat (List.length (rs_vars R))) text rows ->
    FormatSpec.numbered A rows -> formed R A ->
    exists t formula P defs f r, spin_model t formula P defs f /\
      handed W l (match named_output l with Some _ => formula ++ TextSpec.nl | None => "" end)%string t r /\
      autman key date fuel W args = Ok r /\
      ((forall p, from_start A p -> assumed R p -> SpinSpec.asked R p) -> (forall x, In x A -> answered R A x) -> obeys P defs f) /\
      (obeys P defs f -> forall p, from_start A p -> assumed R p -> SpinSpec.asked R p).
Proof. exact write_model. Qed.
Print Assumptions C59_model.

(** the model of a right strategy passes *)
Theorem C59_passes : forall (key : nat -> string) (date : string) R, well_typed R -> spin_names R ->
  exists N, forall fuel, (N <= fuel)%nat -> forall (W : world) args l file stext text rows A,
    plainly args l -> asked_task l = WriteModel ->
    named_spec l = Some file -> w_file W file = Some stext -> text_means stext R ->
    input_of W l = Some text -> strategy_file (Z.of_nat (List.length (rs_vars R))) text rows ->
    FormatSpec.numbered A rows -> correct (fspec_of R) A -> starts_well R A -> env_passive R A ->
    exists t formula P defs f r, spin_model t formula P defs f /\ obeys P defs f /\
      handed W l (match named_output l with Some _ => formula ++ TextSpec.nl | None => "" end)%string t r /\
      autman key date fuel W args = Ok r.
Proof. exact model_correct. Qed.
Print Assumptions C59_passes.

(** what gr1c -t aut writes is such a file, of a right strategy *)
Theorem C59_gr1c_file : forall (key : nat -> string) date R A text,
  implements R A -> describes key date FORMAT_AUT R A text ->
  AutIOSpec.writable (Z.of_nat (List.length (rs_vars R))) A -> short_lines text ->
  correct (fspec_of R) A /\
  exists rows, FormatSpec.numbered A rows /\ strategy_file (Z.of_nat (List.length (rs_vars R))) text rows.
Proof. exact gr1c_file. Qed.
Print Assumptions C59_gr1c_file.

(** errors: neither -i nor a good -L, or a format that needs -i *)
Theorem C59_refused : forall key date fuel W args l,
  plainly args l -> ~ enough l -> autman key date fuel W args = Ok (Prints 1 Nothing).
Proof. exact refused. Qed.
Print Assumptions C59_refused.

(** a specification that is missing or malformed *)
Theorem C59_no_reference : forall key date fuel W args l file,
  plainly args l -> named_spec l = Some file ->
  (w_file W file = None -> autman key date fuel W args = Ok (Exits (-1) "" None)) /\
  (forall text, w_file W file = Some text -> text_no_formula text -> ~ (exists R, text_means text R) ->
    autman key date fuel W args = Ok (Exits 2 "" None)).
Proof. exact no_reference. Qed.
Print Assumptions C59_no_reference.

(** a strategy file that is missing *)
Theorem C59_no_input : forall key date fuel W args l n,
  plainly args l -> enough l -> told W l n -> input_of W l = None ->
  autman key date fuel W args = Ok (Exits (-1) "" None).
Proof. exact no_input. Qed.
Print Assumptions C59_no_input.

(** a strategy file without nodes *)
Theorem C59_no_nodes : forall key date fuel W args l n pre ls,
  plainly args l -> enough l -> told W l n ->
  comments_ok (pre ++ ls) -> rows_of (pre ++ ls) = [] -> short_lines (AutIOSpec.file_text pre ls) ->
  input_of W l = Some (AutIOSpec.file_text pre ls) ->
  autman key date fuel W args = Ok (Exits 3 "" None).
Proof. exact no_nodes. Qed.
Print Assumptions C59_no_nodes.

(** -h and -V, after other options and before anything *)
Theorem C59_stops : forall key date fuel W args rest,
  (up_to args ["-h"] rest -> autman key date fuel W args = Ok (Prints 0 Usage)) /\
  (up_to args ["-V"] rest -> autman key date fuel W args = Ok (Prints 0 (Version true))).
Proof. exact stops. Qed.
Print Assumptions C59_stops.

(** command lines: options as in the usage message; or -h, or -V; or a number that -L cannot
    hold; or refused; or a single dash *)
Theorem C59_lines : forall key date fuel W args, Forall c_string args ->
  (exists l, aline args l /\ ~ In AHelp l /\ ~ In AVersion l) \/
  (exists rest, up_to args ["-h"] rest) \/ (exists rest, up_to args ["-V"] rest) \/
  (exists s n rest, up_to args ["-L"; s] rest /\ says_number s n /\ ~ int_ok n) \/
  autman key date fuel W args = Ok (Prints 1 Nothing) \/
  (autman key date fuel W args = Crash /\ In "-" args).
Proof. exact all_lines. Qed.
Print Assumptions C59_lines.

(** a case that meets the hypotheses *)
Theorem C59_instance : text_means on_text on_spec /\ strategy_file 2 on_file on_rows /\ FormatSpec.numbered on_aut on_rows /\
  well_typed on_spec /\ spin_names on_spec /\ correct (fspec_of on_spec) on_aut /\ starts_well on_spec on_aut /\ env_passive on_spec on_aut /\
  (plainly convert_args convert_opts /\ asked_task convert_opts = Convert FORMAT_TEXT /\ named_spec convert_opts = Some "on.spc" /\
   input_of on_world convert_opts = Some on_file /\
   autman on_key "now" 9 on_world convert_args = Ok (Exits 0
"   0 (init) : 0,1 -  0 -  1 - [ 0 1]
   1 : 1,1 -  0 -  1 - [ 0 1]
" None)) /\
  (plainly plain_args plain_opts /\ asked_task plain_opts = Convert FORMAT_AUT /\ named_spec plain_opts = None /\ given_length plain_opts = Some 2 /\
   input_of on_world plain_opts = Some on_file /\
   autman on_key "now" 9 on_world plain_args = Ok (Exits 0
"1
0 0 1 1 0 1 0 1
1 1 1 0 0 1 0 1
" None)) /\
  (plainly model_args model_opts /\ asked_task model_opts = WriteModel /\ named_spec model_opts = Some "on.spc" /\
   exists t, autman on_key "now" 9 on_world model_args = Ok (Exits 0
"([] (!checketrans || envtrans)) -> (X sysinit && [] (!checkstrans || systrans) && []<> sysgoal0000 && [] !pmlfault)
" (Some ("on.pml", t)))).
Proof. exact autman_instance. Qed.
Print Assumptions C59_instance.

(** the usage message says that -s prints -1 if the file is wrong, that FILE may be -, and
    that -s checks the syntax. Nothing is printed; a single dash, and a file with a line
    that is no node, crash *)
Theorem C59_usage_refuted : exists (W : world) text, w_stdin W = text /\
  autman on_key "now" 9 (World (w_file W) "# no nodes" (w_writable W)) ["-s"; "-L"; "2"] = Ok (Exits 3 "" None) /\
  autman on_key "now" 9 W ["-L"; "2"] = Ok (Exits 0 ("1" ++ TextSpec.nl)%string None) /\
  autman on_key "now" 9 W ["-L"; "2"; "-"] = Crash /\
  autman on_key "now" 9 (World (w_file W) (text ++ "x")%string (w_writable W)) ["-L"; "2"] = Crash.
Proof. exact autman_usage. Qed.
Print Assumptions C59_usage_refuted.
