(** C55: the command line of gr1c. Theorems only; proofs are in OptProofs.v. *)
From Coq Require Import List ZArith Bool Arith Ascii String.
From Verif Require Import Base Solve Output JsonSpec Options OptSpec OptProofs.
Import ListNotations.
Open Scope string_scope.
Open Scope list_scope.

(** options and an input file: the settings are those of the last option of each kind;
    help is printed if asked for; interactive mode without a file and -P without -o are
    refused *)
Theorem C55_accepted : forall args l file, ~ a_command args -> line args l file -> no_version l ->
  exists o, settings l file o /\
   (In OHelp l -> read_options args = Ok (Stop 0 Usage)) /\
   (~ In OHelp l ->
     (chosen mode_of GR1C_MODE_SYNTHESIS l = GR1C_MODE_INTERACTIVE /\ file = None) \/
     (In OPromela l /\ chosen output_of None l = None) ->
     read_options args = Ok (Stop 1 Refused)) /\
   (~ In OHelp l ->
     ~ (chosen mode_of GR1C_MODE_SYNTHESIS l = GR1C_MODE_INTERACTIVE /\ file = None) ->
     ~ (In OPromela l /\ chosen output_of None l = None) ->
     read_options args = Ok (Go o)).
Proof. exact options_accepted. Qed.
Print Assumptions C55_accepted.
(** the version is printed whatever follows *)
Theorem C55_version : forall args b, asks_version args b -> read_options args = Ok (Stop 0 (Version b)).
Proof. exact options_version. Qed.
Print Assumptions C55_version.
(** sub-commands *)
Theorem C55_commands : forall a rest,
  (In a ["rg"; "patch"; "autman"] -> read_options (a :: rest) = Ok (Sub ("gr1c-" ++ a) rest)) /\
  read_options ["help"] = Ok (Stop 0 Usage) /\ (rest <> [] -> read_options ("help" :: rest) = Ok (Stop 1 Nothing)).
Proof. exact options_command. Qed.
Print Assumptions C55_commands.
(** everything else is rejected *)
Theorem C55_rejected : forall args s, (forall a, In a args -> c_string a) -> ~ a_command args ->
  (forall l file, ~ line args l file) -> (forall b, ~ asks_version args b) ->
  read_options args = Ok s -> s = Stop 1 Nothing.
Proof. exact options_rejected. Qed.
Print Assumptions C55_rejected.
(** no undefined behaviour unless an argument is a lone dash or has bytes above 127 *)
Theorem C55_defined : forall args, (forall a, In a args -> a <> "-" /\ seven_bit a) -> exists s, read_options args = Ok s.
Proof. exact options_defined. Qed.
Print Assumptions C55_defined.
(** a lone dash: argv[i][2] is read, behind the end of the argument *)
Theorem C55_dash_refuted : read_options ["-"] = Crash /\ read_options ["-r"; "-"; "f.spc"] = Crash.
Proof. split; reflexivity. Qed.
Print Assumptions C55_dash_refuted.
(** an option is not always an option of the manual: names are compared up to their length *)
Theorem C55_prefix_refuted :
  read_options ["-t"; "dotty"; "f.spc"] = read_options ["-t"; "dot"; "f.spc"] /\
  read_options ["--helpless"] = Ok (Stop 0 Usage).
Proof. split; reflexivity. Qed.
Print Assumptions C55_prefix_refuted.

Definition C55_args : list string := ["-t"; "dot"; "-n"; "All_Init"; "-r"; "-o"; "out"; "-t"; "txt"; "f.spc"].
Definition C55_opts : list opt := [OType FORMAT_DOT; OInit ALL_INIT; ORealizable; OOutput "out"; OType FORMAT_TEXT].
Example C55_instance : line C55_args C55_opts (Some "f.spc") /\ no_version C55_opts /\ ~ a_command C55_args /\
  quiet C55_opts /\
  read_options C55_args =
    Ok (Go (Opts GR1C_MODE_REALIZABLE false false false ALL_INIT FORMAT_TEXT 0 true (Some "f.spc") (Some "out") false)).
Proof.
  split; [|split; [|split; [|split]]].
  - exists [["-t"; "dot"]; ["-n"; "All_Init"]; ["-r"]; ["-o"; "out"]; ["-t"; "txt"]], ["f.spc"].
    split; [|split; [constructor; reflexivity | reflexivity]].
    constructor; [exact (w_t FORMAT_DOT "")|]. constructor.
    { apply (w_n ALL_INIT "all_init" "All_Init" "" in_all).
      - apply sl_upper; [unfold letter; cbn; Lia.lia|]. do 3 apply sl_same. apply sl_upper; [unfold letter; cbn; Lia.lia|].
        do 3 apply sl_same. apply sl_nil.
      - exact I. }
    repeat constructor. exact (w_t FORMAT_TEXT "").
  - intros b H. cbn in H. repeat destruct H as [H|H]; try discriminate H; auto.
  - intros (a & r & E & H). injection E as <- _. cbn in H. repeat destruct H as [H|H]; try discriminate H; auto.
  - unfold quiet. split; [|split; [|split; [|intros b]]]; intros H; cbn in H; repeat destruct H as [H|H]; try discriminate H; auto.
  - reflexivity.
Qed.
Example C55_instance_version : asks_version ["-s"; "--version"; "-x"] false.
Proof.
  exists [OSyntax], [["-s"]], ["--version"], ["-x"]. split; [repeat constructor|]. split.
  - intros b [H|[]]. discriminate H.
  - split; [exact (w_version "")|reflexivity].
Qed.
(** two input files are rejected *)
Example C55_instance_rejected : read_options ["a.spc"; "b.spc"] = Ok (Stop 1 Nothing) /\
  read_options ["-x"] = Ok (Stop 1 Nothing) /\ read_options ["-t"; "xml"] = Ok (Stop 1 Nothing).
Proof. repeat split; reflexivity. Qed.
