(** C63: whole runs of gr1c-patch, from the command line to the exit code, stdout and the
    output file: -r, -f and -e, with a strategy read from a file. Theorems only; proofs are
    in GrPatchOpts.v, GrPatchProofs.v, GrPatchMade.v and GrPatchRuns.v.

    Reading guide (GrPatchSpec.v). [patch_asked args l files q a]: the command line gives the
    options [l] and the files [files] and asks for [q], to be done to the strategy in the file
    [a]. [ready ... l q R A xs]: there are, besides, a text of the specification [R] and the
    file of a correct strategy [A] for it, and the names [xs] are given with -m.
    [writes_out ... B r]: the outcome [r] is exit code 0 with the strategy [B] in the format
    asked for, on stdout or in the file that was named. [broken] is what is left of a formula
    that is not one (-f), which the program goes on with. *)
From Coq Require Import List ZArith Bool Ascii String.
From Verif Require Import InteractSpec PatchSpec PatchExamples.
From Verif Require Import Base Game Strs Ptree Form Support EnumProofs Solve FSpec Automaton SynthSpec Synth RSpec Main MainSpec ListSpec JsonSpec
  JsonWrite FormatSpec LexSpec FileSpec Syntax TextSpec Output Options OptSpec Program ProgramSpec HotSpec Metric MetricSpec AddSpec
  GrPatch GrPatchSpec GrPatchOpts GrPatchProofs GrPatchRuns GrPatchExamples.
Import ListNotations.
Open Scope string_scope.
Open Scope list_scope.
Open Scope Z_scope.

(** -r: a run that ends has delivered a strategy for the specification without the goal, or
    exits with an error *)
Theorem C63_remove : forall orc alloc key date broken W args l R A xs i,
  ready orc alloc key date W args l (Remove (Z.of_nat i)) R A xs ->
  (3 <= List.length (rs_sgoals R))%nat -> (i < List.length (rs_sgoals R))%nat ->
  in_order (fspec_of R) A -> not_skipped (fspec_of R) i A ->
  exists N, forall fuel, (N <= fuel)%nat -> forall r,
    patch_program orc alloc key date broken fuel W args = Ok r ->
    r = error_exit \/
    exists B, B <> [] /\ correct (without i (fspec_of R)) B /\ keeps (fspec_of R) i A B /\ writes_out key date W l R B r.
Proof. exact run_remove. Qed.
Print Assumptions C63_remove.
(** it ends, and the error means that the goal is never taken up, or that the output file
    cannot be opened *)
Theorem C63_remove_exact : forall orc alloc key date broken W args l R A xs i,
  ready orc alloc key date W args l (Remove (Z.of_nat i)) R A xs ->
  (3 <= List.length (rs_sgoals R))%nat -> (i < List.length (rs_sgoals R))%nat ->
  in_order (fspec_of R) A -> not_skipped (fspec_of R) i A ->
  GrPatchSpec.env_moves R -> (rs_evars R <> [] \/ rs_etrans R = []) -> seeks (fspec_of R) A ->
  apart (fspec_of R) (HotSpec.after (fspec_of R) i) (HotSpec.after (fspec_of R) (HotSpec.after (fspec_of R) i)) ->
  exits_fit (fspec_of R) i A ->
  exists N, forall fuel, (N <= fuel)%nat -> exists r,
    patch_program orc alloc key date broken fuel W args = Ok r /\
    (r = error_exit <-> ~ taken_up (fspec_of R) i A \/ no_out_file W l).
Proof. exact run_remove_exact. Qed.
Print Assumptions C63_remove_exact.
(** there is no goal of that number; or there are not more than two *)
Theorem C63_remove_range : forall orc alloc key date broken W args l files a R xs d st,
  patch_asked args l files (Remove d) a -> spec_given W files R -> measured R l xs -> aut_text W a st -> 0 <= d ->
  (Z.of_nat (goal_count R) <= d -> exists N, forall fuel, (N <= fuel)%nat ->
     patch_program orc alloc key date broken fuel W args = Ok (Exits 1 "" None)) /\
  (d < Z.of_nat (goal_count R) -> (goal_count R < 3)%nat -> exists N, forall fuel, (N <= fuel)%nat ->
     patch_program orc alloc key date broken fuel W args = Ok error_exit).
Proof. exact run_remove_range. Qed.
Print Assumptions C63_remove_range.

(** -f: a run that ends has delivered a strategy for the specification with the goal put
    behind the nearest one (-m) or the last one, or exits with an error *)
Theorem C63_add : forall orc alloc key date broken W args l R A xs s g,
  ready orc alloc key date W args l (Add s) R A xs ->
  formula_means s g -> goal_typed R g -> (2 <= List.length (rs_sgoals R))%nat ->
  in_order (fspec_of R) A -> proceeds (fspec_of R) A ->
  exists N, forall fuel, (N <= fuel)%nat -> forall r,
    patch_program orc alloc key date broken fuel W args = Ok r ->
    r = error_exit \/
    exists i, comes_behind xs R g i /\
      (apart (fspec_of R) i (HotSpec.after (fspec_of R) i) -> new_apart (fspec_of R) g (HotSpec.after (fspec_of R) i) ->
       exists B, B <> [] /\ correct (AddSpec.with_goal (S i) g (fspec_of R)) B /\
         AddSpec.starts (fspec_of R) (HotSpec.after (fspec_of R) i) A B /\
         (GrPatchSpec.env_moves R ->
          in_order_but (AddSpec.with_goal (S i) g (fspec_of R)) (moved i (HotSpec.after (fspec_of R) i)) (S i) B) /\
         writes_out key date W l R B r).
Proof. exact run_add. Qed.
Print Assumptions C63_add.
(** a formula with an undeclared variable, or with a primed one *)
Theorem C63_bad_goal : forall orc alloc key date broken W args l files q a text R fuel s g,
  patch_asked args l files q a -> input_text W (hd_error files) text -> text_means text R -> form_ok UNDEFINED_INIT R ->
  the_goal l = Some s -> formula_means s g -> ~ (incl (fvars g) (names (rs_vars R)) /\ fnexts g = []) ->
  patch_program orc alloc key date broken fuel W args = Ok (Exits 1 "" None).
Proof. intros orc alloc key date broken W args l files q a text R fuel s g HA Hi HM HF.
  exact (patch_bad_goal orc alloc key date broken W args l files q a HA text R Hi HM HF fuel s g). Qed.
Print Assumptions C63_bad_goal.

(** -e, Boolean variables: a run that ends has delivered a strategy for the changed rules, or
    exits with an error *)
Theorem C63_change : forall orc alloc key date broken W args l R A xs f N cs,
  ready orc alloc key date W args l (Change f) R A xs -> change_given W R f N cs ->
  in_order (fspec_of R) A -> patchable (fspec_of R) N cs A ->
  env_moves_in (fspec_of R) (changed (fspec_of R) cs) ->
  (rs_evars R = [] -> forall s e, ~ In (RelaxEnv s e) cs) ->
  exists M, forall fuel, (M <= fuel)%nat -> forall r,
    patch_program orc alloc key date broken fuel W args = Ok r ->
    r = error_exit \/
    exists B, B <> [] /\ serves (fspec_of R) (changed (fspec_of R) cs) B /\ in_order (fspec_of R) B /\
      starts_kept (fspec_of R) N cs A B /\ writes_out key date W l R B r.
Proof. exact run_change. Qed.
Print Assumptions C63_change.
(** if a node outside of N has to be changed there is an error *)
Theorem C63_change_outside : forall orc alloc key date broken W args l R A xs f N cs x,
  ready orc alloc key date W args l (Change f) R A xs -> change_given W R f N cs -> in_order (fspec_of R) A ->
  In x A -> unfit (fspec_of R) A cs x -> ~ In (astate x) N ->
  exists M, forall fuel, (M <= fuel)%nat -> patch_program orc alloc key date broken fuel W args = Ok error_exit.
Proof. exact run_change_outside. Qed.
Print Assumptions C63_change_outside.
(** if no node has to be changed the strategy is written as it was *)
Theorem C63_change_unaffected : forall orc alloc key date broken W args l R A xs f N cs,
  ready orc alloc key date W args l (Change f) R A xs -> change_given W R f N cs -> in_order (fspec_of R) A ->
  (forall x, In x A -> ~ unfit (fspec_of R) A cs x) -> (forall x, In x A -> atrans x <> []) -> A <> [] ->
  exists M, forall fuel, (M <= fuel)%nat -> exists r,
    patch_program orc alloc key date broken fuel W args = Ok r /\
    (r = error_exit <-> no_out_file W l) /\
    (r = error_exit \/ exists B, same_strategy A B /\ writes_out key date W l R B r).
Proof. exact run_change_unaffected. Qed.
Print Assumptions C63_change_unaffected.

(** files that are missing: the specification, the strategy, the changes *)
Theorem C63_no_spec : forall orc alloc key date broken W args l files q a fuel f,
  patch_asked args l files q a -> goal_readable l -> hd_error files = Some f -> w_file W f = None ->
  patch_program orc alloc key date broken fuel W args = Ok error_exit.
Proof. intros orc alloc key date broken W args l files q a fuel f HA.
  exact (patch_no_file orc alloc key date broken W args l files q a HA fuel f). Qed.
Print Assumptions C63_no_spec.
Theorem C63_no_strategy : forall orc alloc key date broken W args l files q a R xs,
  patch_asked args l files q a -> spec_given W files R -> measured R l xs -> goal_fits R l ->
  String.prefix "-" a = false -> w_file W a = None ->
  exists N, forall fuel, (N <= fuel)%nat -> patch_program orc alloc key date broken fuel W args = Ok error_exit.
Proof. exact run_no_strategy. Qed.
Print Assumptions C63_no_strategy.
Theorem C63_no_changes : forall orc alloc key date broken W args l files a R xs f st,
  patch_asked args l files (Change f) a -> spec_given W files R -> measured R l xs -> aut_text W a st -> w_file W f = None ->
  exists N, forall fuel, (N <= fuel)%nat -> patch_program orc alloc key date broken fuel W args = Ok error_exit.
Proof. exact run_no_changes. Qed.
Print Assumptions C63_no_changes.
(** a text that is not a specification; variables of the specification used as they must not be *)
Theorem C63_bad_text : forall orc alloc key date broken W args l files q a fuel text,
  patch_asked args l files q a -> goal_readable l -> input_text W (hd_error files) text ->
  text_no_formula text -> (~ exists R, text_means text R) ->
  patch_program orc alloc key date broken fuel W args = Ok (Exits 2 "" None).
Proof. intros orc alloc key date broken W args l files q a fuel text HA.
  exact (patch_bad_text orc alloc key date broken W args l files q a HA fuel text). Qed.
Print Assumptions C63_bad_text.
Theorem C63_bad_form : forall orc alloc key date broken W args l files q a fuel text R,
  patch_asked args l files q a -> goal_readable l -> input_text W (hd_error files) text ->
  text_means text R -> ~ form_ok UNDEFINED_INIT R ->
  patch_program orc alloc key date broken fuel W args = Ok (Exits 2 "" None).
Proof. intros orc alloc key date broken W args l files q a fuel text R HA.
  exact (patch_bad_form orc alloc key date broken W args l files q a HA fuel text R). Qed.
Print Assumptions C63_bad_form.

(** the command line *)
Theorem C63_accepted : forall args l files, pline args l files -> no_pversion l ->
  (conflict l -> patch_options args = Ok (PStop 1 Nothing)) /\
  (~ conflict l -> In PHelp l -> patch_options args = Ok (PStop 0 Usage)) /\
  (~ conflict l -> ~ In PHelp l -> asked_for l = None -> patch_options args = Ok (PStop 1 Nothing)) /\
  (~ conflict l -> ~ In PHelp l -> asked_for l <> None -> both_stdin l files -> patch_options args = Ok (PStop 1 Refused)) /\
  (~ conflict l -> ~ In PHelp l -> asked_for l <> None -> ~ both_stdin l files ->
     exists o, patch_options args = Ok (PGo o) /\ psettings l files o).
Proof. exact patch_options_accepted. Qed.
Print Assumptions C63_accepted.
Theorem C63_version : forall args b, pversion b args -> patch_options args = Ok (PStop 0 (Version b)).
Proof. exact patch_options_version. Qed.
Print Assumptions C63_version.
Theorem C63_rejected : forall args s, (forall a, In a args -> c_string a) ->
  (forall l files, ~ pline args l files) -> (forall b, ~ pversion b args) ->
  patch_options args = Ok s -> s = PStop 1 Nothing.
Proof. exact patch_options_rejected. Qed.
Print Assumptions C63_rejected.
Theorem C63_stops : forall orc alloc key date broken fuel W args c p, patch_options args = Ok (PStop c p) ->
  patch_program orc alloc key date broken fuel W args = Ok (Prints c p).
Proof. exact patch_stops. Qed.
Print Assumptions C63_stops.
(** exit codes; with an error nothing is written *)
Theorem C63_exit_codes : forall orc alloc key date broken fuel W args c s f,
  patch_program orc alloc key date broken fuel W args = Ok (Exits c s f) ->
  (c = 0 \/ c = 1 \/ c = 2 \/ c = -1) /\ (c <> 0 -> s = "" /\ f = None).
Proof. exact patch_exit_codes. Qed.
Print Assumptions C63_exit_codes.

(** strategies that gr1c has written are of the form expected above, if goals that follow
    each other cannot hold at the same time *)
Theorem C63_gr1c : forall flags R orc alloc, usable R -> tools R orc alloc -> rs_sgoals R <> [] ->
  (flags = ALL_ENV_EXIST_SYS_INIT -> one_sided R) ->
  exists N, forall fuel, (N <= fuel)%nat -> forall A ev sv,
    gr1c_main orc alloc fuel MODE_SYNTHESIS flags (raw_of R) = Ok (Strategy A ev sv) ->
    let F := fspec_of R in let k := List.length (rs_sgoals R) in
    correct F A /\ in_order F A /\ seeks F A /\
    (forall i, (3 <= k)%nat -> (i < k)%nat ->
       (forall j, (j < k)%nat -> HotSpec.after F j = i -> apart F j i) -> not_skipped F i A) /\
    (forall i, (2 <= k)%nat -> (i < k)%nat -> apart F i (HotSpec.after F i) -> proceeds F A).
Proof. exact gr1c_ready. Qed.
Print Assumptions C63_gr1c.

(** rooms in a row, and the goals to visit room 0, 3 and 2: the goal 3 is removed, in the
    strategy written by gr1c; then the goal 1 is added and put behind 0 *)
Example C63_instance_gr1c : gr1c_program robdd_oracle alloc_max ex_key "now" 40 rooms_world ["-t"; "aut"; "rooms.spc"] = Ok (Exits 0 rooms_file None).
Proof. vm_compute. reflexivity. Qed.
Example C63_instance_remove : ready robdd_oracle alloc_max ex_key "now" rooms_world rm_args rm_opts (Remove (Z.of_nat 1)) rooms rooms_aut [] /\
  (3 <= List.length (rs_sgoals rooms))%nat /\ (1 < List.length (rs_sgoals rooms))%nat /\
  in_order (fspec_of rooms) rooms_aut /\ not_skipped (fspec_of rooms) 1 rooms_aut /\
  GrPatchSpec.env_moves rooms /\ (rs_evars rooms <> [] \/ rs_etrans rooms = []) /\ seeks (fspec_of rooms) rooms_aut /\
  apart (fspec_of rooms) 2 0 /\ exits_fit (fspec_of rooms) 1 rooms_aut /\ taken_up (fspec_of rooms) 1 rooms_aut /\ ~ no_out_file rooms_world rm_opts /\
  patch_program robdd_oracle alloc_max ex_key "now" (fun _ => NULL) 40 rooms_world rm_args = Ok (Exits 0 "" (Some ("new.aut", rm_file))).
Proof. exact rm_run. Qed.
Example C63_instance_add : ready robdd_oracle alloc_max ex_key "now" rooms_world add_args add_opts (Add "x = 1") rooms rooms_aut ["x"] /\
  formula_means "x = 1" (FCmp false "x" CEq 1) /\ goal_typed rooms (FCmp false "x" CEq 1) /\ (2 <= List.length (rs_sgoals rooms))%nat /\
  in_order (fspec_of rooms) rooms_aut /\ proceeds (fspec_of rooms) rooms_aut /\ full_domains rooms /\
  comes_behind ["x"] rooms (FCmp false "x" CEq 1) 0 /\ apart (fspec_of rooms) 0 (HotSpec.after (fspec_of rooms) 0) /\
  new_apart (fspec_of rooms) (FCmp false "x" CEq 1) (HotSpec.after (fspec_of rooms) 0) /\
  patch_program robdd_oracle alloc_max ex_key "now" (fun _ => NULL) 40 rooms_world add_args = Ok (Exits 0 add_file None).
Proof. exact add_run. Qed.
(** a transition of the strategy is forbidden *)
Example C63_instance_change :
  ready robdd_oracle alloc_max ex_key "now" detour_world (e_args "cut.txt") (e_opts "cut.txt") (Change "cut.txt") detour detour_aut [] /\
  change_given detour_world detour "cut.txt" n3 cut /\ in_order (fspec_of detour) detour_aut /\
  patchable (fspec_of detour) n3 cut detour_aut /\ env_moves_in (fspec_of detour) (changed (fspec_of detour) cut) /\
  (forall s e, ~ In (RelaxEnv s e) cut) /\ (exists x, In x detour_aut /\ unfit (fspec_of detour) detour_aut cut x) /\
  patch_program robdd_oracle alloc_max ex_key "now" (fun _ => NULL) 40 detour_world (e_args "cut.txt") = Ok (Exits 0 cut_file None).
Proof. exact cut_run. Qed.
Example C63_instance_outside : change_given detour_world detour "out.txt" n2 cut /\
  (exists x, In x detour_aut /\ unfit (fspec_of detour) detour_aut cut x /\ ~ In (astate x) n2) /\
  patch_program robdd_oracle alloc_max ex_key "now" (fun _ => NULL) 40 detour_world (e_args "out.txt") = Ok error_exit.
Proof. exact out_run. Qed.
Example C63_instance_unaffected : change_given detour_world detour "unused.txt" n3 unused /\
  (forall x, In x detour_aut -> ~ unfit (fspec_of detour) detour_aut unused x) /\ (forall x, In x detour_aut -> atrans x <> []) /\ detour_aut <> [] /\
  ~ no_out_file detour_world (e_opts "unused.txt") /\
  patch_program robdd_oracle alloc_max ex_key "now" (fun _ => NULL) 40 detour_world (e_args "unused.txt") = Ok (Exits 0 detour_file None).
Proof. exact unused_run. Qed.
(** other runs: a goal number that is too big; too few goals; missing files; an unknown variable and a primed one; no
    request; -e together with -f; both texts from stdin; the program goes on with what was left of a formula; any name
    beginning with a dash is stdin; "goal" and 4294967296 are the number 0 *)
Definition C63_run (args : list string) : out outcome :=
  patch_program robdd_oracle alloc_max ex_key "now" (fun _ => tree_of (FCmp false "x" CEq 1)) 40 rooms_world args.
Example C63_instance_other :
  C63_run ["-a"; "rooms.aut"; "-r"; "3"; "rooms.spc"] = Ok (Exits 1 "" None) /\
  patch_program robdd_oracle alloc_max ex_key "now" (fun _ => NULL) 40 detour_world ["-a"; "d.aut"; "-r"; "0"] = Ok error_exit /\
  C63_run ["-a"; "rooms.aut"; "-r"; "1"; "none.spc"] = Ok error_exit /\
  C63_run ["-a"; "none.aut"; "-r"; "1"; "rooms.spc"] = Ok error_exit /\
  C63_run ["-a"; "rooms.aut"; "-e"; "none.txt"; "rooms.spc"] = Ok error_exit /\
  C63_run ["-a"; "rooms.aut"; "-f"; "y"; "rooms.spc"] = Ok (Exits 1 "" None) /\
  C63_run ["-a"; "rooms.aut"; "rooms.spc"] = Ok (Prints 1 Nothing) /\
  C63_run ["-a"; "rooms.aut"; "-e"; "c"; "-f"; "x = 1"; "rooms.spc"] = Ok (Prints 1 Nothing) /\
  C63_run ["-r"; "1"; "rooms.spc"] = Ok (Prints 1 Nothing) /\
  C63_run ["-r"; "1"; "-a"; "-"] = Ok (Prints 1 Refused) /\
  C63_run ["-m"; "x"; "-f"; "x = 1 &"; "-a"; "rooms.aut"; "-t"; "aut"; "rooms.spc"] = Ok (Exits 0 add_file None) /\
  C63_run ["-m"; "x"; "-f"; "x = 1"; "-a"; "-rooms.aut"; "-t"; "aut"; "rooms.spc"] = Ok (Exits 0 add_file None) /\
  C63_run ["-a"; "rooms.aut"; "-r"; "goal"; "rooms.spc"] = C63_run ["-a"; "rooms.aut"; "-r"; "0"; "rooms.spc"] /\
  C63_run ["-a"; "rooms.aut"; "-r"; "4294967296"; "rooms.spc"] = C63_run ["-a"; "rooms.aut"; "-r"; "0"; "rooms.spc"].
Proof. repeat (match goal with |- _ /\ _ => split end); vm_compute; reflexivity. Qed.
