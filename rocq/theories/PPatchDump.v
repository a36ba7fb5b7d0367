(** C70: option -p of gr1c-patch. Theorems only; proofs are in PatchDumpRun.v.

    Reading guide. As C67 and C68 (PDump.v). [goal_is l g]: [g] is the formula given with -f,
    if there is one; [goal_known R g]: it is about variables of [R], without primes.
    [patch_drawings g R]: the DOT files and what they show; the formula of -f comes first.
    [reads l files f]: [f] is the file of the specification, the strategy or the changes.
    [patch_vars_screen R]: the variables with numbers; their domains are wrong
    (PatchDumpSpec.v, C70_domains_refuted). *)
From Coq Require Import List ZArith Bool Ascii String Lia.
From Verif Require Import InteractSpec PatchSpec PatchExamples.
From Verif Require Import Base Strs Ptree Form EnumProofs Solve FSpec Automaton Synth Nonbool RSpec Main ListSpec JsonWrite FormPrint
  LexSpec FileSpec Syntax TextSpec TextProofs Output Options OptSpec Program ProgramSpec ProgramProofs PtDump DumpSpec PDump
  GrPatch GrPatchSpec GrPatchExamples PatchDump PatchDumpSpec PatchDumpRun.
Import ListNotations.
Open Scope string_scope.
Open Scope list_scope.
Open Scope Z_scope.

Theorem C70_echo : forall orc alloc key date broken W addr args l files q a args' g text R,
  patch_asked_dump args l files q a -> patch_asked args' (without_pdump l) files q a -> goal_is l g ->
  input_text W (hd_error files) text -> text_means text R -> form_ok UNDEFINED_INIT R -> goal_known R g -> addresses addr ->
  (forall x, In x (patch_drawings g R) -> w_writable W (fst x) = true) ->
  (forall f, reads l files f -> ~ In f (map fst (patch_drawings g R))) ->
  exists listing, (writable_spec R -> listing_of (completed R) listing) /\
    forall fuel,
      (forall c t f, patch_program orc alloc key date broken fuel W args' = Ok (Exits c t f) ->
         exists fs, patch_program_p orc alloc key date broken addr fuel W args = Ok (fs, Exits c (patch_vars_screen R ++ listing ++ t)%string f)) /\
      (forall fs c t' f, patch_program_p orc alloc key date broken addr fuel W args = Ok (fs, Exits c t' f) ->
         exists t, t' = (patch_vars_screen R ++ listing ++ t)%string /\ patch_program orc alloc key date broken fuel W args' = Ok (Exits c t f)).
Proof. exact patch_echo_only. Qed.
Print Assumptions C70_echo.
Theorem C70_drawn : forall orc alloc key date broken W addr args l files q a g text R,
  patch_asked_dump args l files q a -> goal_is l g ->
  input_text W (hd_error files) text -> text_means text R -> form_ok UNDEFINED_INIT R -> goal_known R g -> addresses addr ->
  (forall x, In x (patch_drawings g R) -> w_writable W (fst x) = true) ->
  (forall f, reads l files f -> ~ In f (map fst (patch_drawings g R))) ->
  forall fuel fs r, patch_program_p orc alloc key date broken addr fuel W args = Ok (fs, r) -> drawn addr (patch_drawings g R) fs.
Proof. exact patch_files_only. Qed.
Print Assumptions C70_drawn.
Theorem C70_stopped : forall orc alloc key date broken W addr args l files q a g text R,
  patch_asked_dump args l files q a -> goal_is l g ->
  input_text W (hd_error files) text -> text_means text R -> form_ok UNDEFINED_INIT R -> goal_known R g -> addresses addr ->
  (forall f, reads l files f -> ~ In f (map fst (patch_drawings g R))) ->
  forall u x v, patch_drawings g R = u ++ x :: v -> (forall y, In y u -> w_writable W (fst y) = true) -> w_writable W (fst x) = false ->
  forall fuel, exists fs, patch_program_p orc alloc key date broken addr fuel W args = Ok (fs, error_exit) /\ drawn addr u fs.
Proof. exact patch_files_stop. Qed.
Print Assumptions C70_stopped.
(** there is no specification, or it is refused, or the formula of -f is *)
Theorem C70_early : forall orc alloc key date broken W addr args l files q a args' g,
  patch_asked_dump args l files q a -> patch_asked args' (without_pdump l) files q a -> goal_is l g -> addresses addr ->
  (forall x, In x (goal_drawing g) -> w_writable W (fst x) = true) -> (forall f, reads l files f -> ~ In f (map fst (goal_drawing g))) ->
  ((exists f, hd_error files = Some f /\ w_file W f = None) \/
   exists text, input_text W (hd_error files) text /\
     (text_no_formula text /\ (~ exists R, text_means text R) \/
      exists R, text_means text R /\ (~ form_ok UNDEFINED_INIT R \/ ~ goal_known R g))) ->
  exists fs, drawn addr (goal_drawing g) fs /\
    forall fuel r, patch_program orc alloc key date broken fuel W args' = Ok r ->
    patch_program_p orc alloc key date broken addr fuel W args = Ok (fs, r).
Proof. exact patch_early. Qed.
Print Assumptions C70_early.
Theorem C70_names : forall g R, NoDup (map fst (patch_drawings g R)).
Proof. exact patch_names_differ. Qed.
Print Assumptions C70_names.
Theorem C70_without : forall orc alloc key date broken W addr args l files q a fuel r,
  patch_asked args l files q a -> patch_program orc alloc key date broken fuel W args = Ok r ->
  patch_program_p orc alloc key date broken addr fuel W args = Ok ([], r).
Proof. exact patch_no_dump_same. Qed.
Print Assumptions C70_without.

(** ** An instance: the run of add_run (GrPatchExamples.v) with -p *)
Definition C70_world : world := World (w_file rooms_world) (w_stdin rooms_world) (fun _ => true).
Definition C70_args : list string := ["-m"; " x"; "-p"; "-f"; "x = 1"; "-a"; "-"; "-t"; "aut"; "--"; "rooms.spc"].
Definition C70_opts : list popt := [PMetric " x"; PDump; PGoal "x = 1"; PAut "-"; PType FORMAT_AUT].
Definition C70_goal : option form := Some (FCmp false "x" CEq 1).
Definition C70_screen : string :=
"Environment variables (indices; domains): e (0; {0..-1})

System variables (indices; domains): x (1; {0..3})

ENV: e;
SYS: x;
ENV INIT:  ;
SYS INIT:  (x=0);
ENV TRANS:  [] True;
SYS TRANS:  [] ((x=0)->(x'<2)) & [] ((x=1)->(x'<3)) & [] ((x=2)->(x'>0)) & [] ((x=3)->(x'>1)) & [] ((e'&(x<3))->(x'<3));
ENV GOALS:  []<> (!e);
SYS GOALS:  []<> (x=0) & []<> (x=3) & []<> (x=2);
".
Definition C70_run (W : world) (args : list string) := patch_program_p robdd_oracle alloc_max ex_key "now" (fun _ => NULL) C67_addr 40 W args.
Definition C70_dot : string :=
"digraph PT {
""2;\nx""
""1;\n=""
""1;\n="" -> ""2;\nx""
""1;\n="" -> ""3;\n1""
""3;\n1""
}
".
Lemma C70_asked : patch_asked_dump C70_args C70_opts ["rooms.spc"] (Add "x = 1") "-".
Proof.
  split; [|split; [intros b; no_such|split; [no_such|split; [split; [right; left; reflexivity|split; [no_such|intros b; no_such]]|
    split; [intros [[X Y]|[X Y]]; cbn in *; congruence|split; [intros [X Y]; discriminate X|split; reflexivity]]]]]].
  apply (pl_opt (PMetric " x") ["-m"; " x"]); [constructor|]. apply (pl_opt PDump ["-p"]); [constructor|].
  apply (pl_opt (PGoal "x = 1") ["-f"; "x = 1"]); [constructor|].
  apply (pl_opt (PAut "-") ["-a"; "-"]); [constructor|].
  apply (pl_opt (PType FORMAT_AUT) ["-t"; "aut"]); [exact (pw_t FORMAT_AUT "")|constructor].
Qed.
Lemma C70_known : goal_known rooms C70_goal.
Proof. split; [intros x [<-|[]]; right; left; reflexivity|reflexivity]. Qed.
Lemma C70_ran : exists fs, C70_run C70_world C70_args = Ok (fs, Exits 0 (C70_screen ++ add_file)%string None) /\
  map fst fs = ["clformula_ptree.dot"; "env_init_ptree.dot"; "sys_init_ptree.dot"; "env_trans00000_ptree.dot"; "sys_trans00000_ptree.dot";
    "sys_trans00001_ptree.dot"; "sys_trans00002_ptree.dot"; "sys_trans00003_ptree.dot"; "sys_trans00004_ptree.dot"; "env_goal00000_ptree.dot";
    "sys_goal00000_ptree.dot"; "sys_goal00001_ptree.dot"; "sys_goal00002_ptree.dot"] /\
  hd_error fs = Some ("clformula_ptree.dot", C70_dot).
Proof. eexists. split; [vm_compute; reflexivity|]. split; reflexivity. Qed.
Example C70_instance : patch_asked_dump C70_args C70_opts ["rooms.spc"] (Add "x = 1") "-" /\
  patch_asked add_args (without_pdump C70_opts) ["rooms.spc"] (Add "x = 1") "-" /\ goal_is C70_opts C70_goal /\
  input_text C70_world (Some "rooms.spc") rooms_text /\ text_means rooms_text rooms /\ form_ok UNDEFINED_INIT rooms /\ goal_known rooms C70_goal /\
  addresses C67_addr /\ (forall x, In x (patch_drawings C70_goal rooms) -> w_writable C70_world (fst x) = true) /\
  (forall f, reads C70_opts ["rooms.spc"] f -> ~ In f (map fst (patch_drawings C70_goal rooms))) /\ writable_spec rooms /\
  exists fs, C70_run C70_world C70_args = Ok (fs, Exits 0 (C70_screen ++ add_file)%string None) /\ hd_error fs = Some ("clformula_ptree.dot", C70_dot).
Proof.
  split; [exact C70_asked|]. split; [exact add_asked'|]. split; [exact add_means|]. split; [reflexivity|]. split; [exact rooms_means|].
  split; [exact rooms_form|]. split; [exact C70_known|]. split; [apply C67_instance|]. split; [reflexivity|]. split.
  - intros f [H|[H|H]]; [injection H as <-|injection H as <-|discriminate H]; intros X; cbn in X; repeat destruct X as [X|X]; discriminate X || exact X.
  - split.
    + split; [repeat constructor; simpl; intuition discriminate|]. intros s H. cbn in H.
      repeat match goal with H : _ \/ _ |- _ => destruct H as [<-|H] end; [..|destruct H]; cbn;
        unfold writable_form, writable_decl, identifier, int_number; cbn;
        intros; repeat match goal with H : _ \/ _ |- _ => destruct H as [<-|H] end; try contradiction;
        repeat split; try discriminate; try lia; auto.
    + destruct C70_ran as (fs & E & _ & H). eauto.
Qed.
(** a formula with a variable that is not there; no specification; nothing but the first file
    can be written; not even that *)
Example C70_instance_other :
  C70_run C70_world ["-p"; "-f"; "y"; "-a"; "rooms.aut"; "rooms.spc"] =
    Ok ([("clformula_ptree.dot", String.concat nl ["digraph PT {"; in_quotes "1;\ny"; "}"; ""])], Exits 1 "" None) /\
  C70_run C70_world ["-p"; "-r"; "1"; "-a"; "rooms.aut"; "other.spc"] = Ok ([], error_exit) /\
  C70_run (World (w_file rooms_world) (w_stdin rooms_world) (String.eqb "clformula_ptree.dot")) C70_args = Ok ([("clformula_ptree.dot", C70_dot)], error_exit) /\
  C70_run rooms_world C70_args = Ok ([], error_exit).
Proof. repeat (match goal with |- _ /\ _ => split end); vm_compute; reflexivity. Qed.

(** ** Findings *)
(** the domains that are shown are not those of the variables *)
Definition C70_domains_claim : Prop := forall W args l files q a g text R fs c t f,
  patch_asked_dump args l files q a -> goal_is l g ->
  input_text W (hd_error files) text -> text_means text R -> form_ok UNDEFINED_INIT R -> goal_known R g ->
  C70_run W args = Ok (fs, Exits c t f) -> c = 0 -> String.prefix (vars_screen R) t = true.
Lemma C70_domains : ~ C70_domains_claim.
Proof.
  intros H. destruct C70_ran as (fs & E & _).
  assert (X := H C70_world C70_args C70_opts ["rooms.spc"] (Add "x = 1") "-" C70_goal rooms_text rooms fs 0 _ None C70_asked add_means eq_refl rooms_means
    rooms_form C70_known E eq_refl).
  vm_compute in X. discriminate X.
Qed.
Theorem C70_domains_refuted : ~ C70_domains_claim.
Proof. exact C70_domains. Qed.
Print Assumptions C70_domains_refuted.
(** a file that is to be read can be overwritten before it is *)
Definition C70_spoiled : world := World (fun f => if String.eqb f "clformula_ptree.dot" then Some rooms_text else w_file rooms_world f) "" (fun _ => true).
Definition C70_apart_claim : Prop := forall W args c t f,
  patch_program robdd_oracle alloc_max ex_key "now" (fun _ => NULL) 40 W args = Ok (Exits c t f) -> (forall x, w_writable W x = true) ->
  exists fs t', C70_run W ("-p" :: args) = Ok (fs, Exits c t' f).
Lemma C70_apart : ~ C70_apart_claim.
Proof.
  intros H.
  assert (E : patch_program robdd_oracle alloc_max ex_key "now" (fun _ => NULL) 40 C70_spoiled ["-f"; "x = 1"; "-a"; "none.aut"; "clformula_ptree.dot"] = Ok error_exit)
    by (vm_compute; reflexivity).
  destruct (H _ _ _ _ _ E (fun _ => eq_refl)) as (fs & t & X). vm_compute in X. discriminate X.
Qed.
Theorem C70_apart_refuted : ~ C70_apart_claim.
Proof. exact C70_apart. Qed.
Print Assumptions C70_apart_refuted.
