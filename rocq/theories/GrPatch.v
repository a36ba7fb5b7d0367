(** Model of main() of exp/grpatch.c (gr1c-patch): from the command line to the exit code.

    As for gr1c and gr1c-rg (Options.v, Program.v, Rg.v): arguments contain no NUL
    character; options that add output (-v, -l, -p) lead to [Other], and so does -e for a
    specification with non-Boolean variables; messages on stderr, the BDD manager (531-534)
    and the clean-up are left out; temporary files can always be made. If the output file
    cannot be opened the model still composes the text, which is then dropped. *)
From Coq Require Import List ZArith Bool Arith Ascii String.
From Verif Require Import Base Strs Ptree Support Solve Automaton Nonbool Main FormCheck AutIO Lex Parse Output
  Options Program Metric Hotswap AddGoal Patch.
Import ListNotations.
Open Scope string_scope.
Open Scope list_scope.
Open Scope Z_scope.

(** grpatch.c:44-87; indices of arguments are replaced by the arguments; [po_patch] is
    run_option == GR1C_MODE_PATCH *)
Record popts := POpts {
  po_help : bool; po_ptdump : bool; po_logging : bool; po_verbose : Z; po_reading : bool;
  po_format : output_format; po_patch : bool; po_metric : option string; po_edges : option string;
  po_aut : option string; po_formula : option string; po_remove : Z; po_output : option string;
  po_input : option string
}.
Definition default_popts : popts :=
  POpts false false false 0 true FORMAT_JSON false None None None None (-1) None None.
Definition pset_help o := POpts true (po_ptdump o) (po_logging o) (po_verbose o) (po_reading o) (po_format o) (po_patch o) (po_metric o) (po_edges o) (po_aut o) (po_formula o) (po_remove o) (po_output o) (po_input o).
Definition pset_ptdump o := POpts (po_help o) true (po_logging o) (po_verbose o) (po_reading o) (po_format o) (po_patch o) (po_metric o) (po_edges o) (po_aut o) (po_formula o) (po_remove o) (po_output o) (po_input o).
Definition pset_logging o := POpts (po_help o) (po_ptdump o) true (po_verbose o) (po_reading o) (po_format o) (po_patch o) (po_metric o) (po_edges o) (po_aut o) (po_formula o) (po_remove o) (po_output o) (po_input o).
(** verbose is an unsigned char *)
Definition pmore_verbose k o := POpts (po_help o) (po_ptdump o) (po_logging o) ((po_verbose o + k) mod 256) (po_reading o) (po_format o) (po_patch o) (po_metric o) (po_edges o) (po_aut o) (po_formula o) (po_remove o) (po_output o) (po_input o).
Definition pstop_reading o := POpts (po_help o) (po_ptdump o) (po_logging o) (po_verbose o) false (po_format o) (po_patch o) (po_metric o) (po_edges o) (po_aut o) (po_formula o) (po_remove o) (po_output o) (po_input o).
Definition pset_format f o := POpts (po_help o) (po_ptdump o) (po_logging o) (po_verbose o) (po_reading o) f (po_patch o) (po_metric o) (po_edges o) (po_aut o) (po_formula o) (po_remove o) (po_output o) (po_input o).
Definition pset_metric m o := POpts (po_help o) (po_ptdump o) (po_logging o) (po_verbose o) (po_reading o) (po_format o) (po_patch o) (Some m) (po_edges o) (po_aut o) (po_formula o) (po_remove o) (po_output o) (po_input o).
Definition pset_edges f o := POpts (po_help o) (po_ptdump o) (po_logging o) (po_verbose o) (po_reading o) (po_format o) true (po_metric o) (Some f) (po_aut o) (po_formula o) (po_remove o) (po_output o) (po_input o).
Definition pset_aut f o := POpts (po_help o) (po_ptdump o) (po_logging o) (po_verbose o) (po_reading o) (po_format o) (po_patch o) (po_metric o) (po_edges o) (Some f) (po_formula o) (po_remove o) (po_output o) (po_input o).
Definition pset_formula f o := POpts (po_help o) (po_ptdump o) (po_logging o) (po_verbose o) (po_reading o) (po_format o) true (po_metric o) (po_edges o) (po_aut o) (Some f) (po_remove o) (po_output o) (po_input o).
Definition pset_remove k o := POpts (po_help o) (po_ptdump o) (po_logging o) (po_verbose o) (po_reading o) (po_format o) true (po_metric o) (po_edges o) (po_aut o) (po_formula o) k (po_output o) (po_input o).
Definition pset_output f o := POpts (po_help o) (po_ptdump o) (po_logging o) (po_verbose o) (po_reading o) (po_format o) (po_patch o) (po_metric o) (po_edges o) (po_aut o) (po_formula o) (po_remove o) (Some f) (po_input o).
Definition pset_input f o := POpts (po_help o) (po_ptdump o) (po_logging o) (po_verbose o) (po_reading o) (po_format o) (po_patch o) (po_metric o) (po_edges o) (po_aut o) (po_formula o) (po_remove o) (po_output o) (Some f).

Inductive pscanned := PContinue (o : popts) | PReturn (code : Z) (p : printed).
(** grpatch.c:89-208: the loop. The argument of -r goes through strtol and an int. *)
Fixpoint patch_scan (o : popts) (args : list string) : out pscanned :=
  match args with
  | [] => Ok (PContinue o)
  | a :: rest =>
      c0 <- char_at a 0 ;;
      dash <- (if po_reading o && is c0 "-" then c1 <- char_at a 1 ;; Ok (Some c1) else Ok None) ;;
      match dash with
      | Some c1 =>
          if negb (is c1 "-") then
            c2 <- char_at a 2 ;;
            if negb (is c2 NUL) && negb (is c1 "v" && is c2 "v") then Ok (PReturn 1 Nothing)
            else if is c1 "h" then patch_scan (pset_help o) rest
            else if is c1 "V" then Ok (PReturn 0 (Version true))
            else if is c1 "v" then
              (* lines 105-111: j runs up to 3 *)
              patch_scan (pmore_verbose (if is c2 "v" then 2 else 1) o) rest
            else if is c1 "l" then patch_scan (pset_logging o) rest
            else if is c1 "p" then patch_scan (pset_ptdump o) rest
            else if is c1 "m" then
              match rest with [] => Ok (PReturn 1 Nothing) | b :: rest' => patch_scan (pset_metric b o) rest' end
            else if is c1 "t" then
              match rest with
              | [] => Ok (PReturn 1 Nothing)
              | b :: rest' =>
                  if begins "txt" b then patch_scan (pset_format FORMAT_TEXT o) rest'
                  else if begins "tulip" b then patch_scan (pset_format FORMAT_TULIP o) rest'
                  else if begins "dot" b then patch_scan (pset_format FORMAT_DOT o) rest'
                  else if begins "aut" b then patch_scan (pset_format FORMAT_AUT o) rest'
                  else if begins "json" b then patch_scan (pset_format FORMAT_JSON o) rest'
                  else Ok (PReturn 1 Nothing)
              end
            else if is c1 "e" then
              match rest with [] => Ok (PReturn 1 Nothing) | b :: rest' => patch_scan (pset_edges b o) rest' end
            else if is c1 "a" then
              match rest with [] => Ok (PReturn 1 Nothing) | b :: rest' => patch_scan (pset_aut b o) rest' end
            else if is c1 "o" then
              match rest with [] => Ok (PReturn 1 Nothing) | b :: rest' => patch_scan (pset_output b o) rest' end
            else if is c1 "f" then
              match rest with [] => Ok (PReturn 1 Nothing) | b :: rest' => patch_scan (pset_formula b o) rest' end
            else if is c1 "r" then
              match rest with
              | [] => Ok (PReturn 1 Nothing)
              | b :: rest' =>
                  let k := to_int (fst (strtol b)) in
                  if k <? 0 then Ok (PReturn 1 Nothing) else patch_scan (pset_remove k o) rest'
              end
            else Ok (PReturn 1 Nothing)
          else
            c2 <- char_at a 2 ;;
            if is c2 NUL then patch_scan (pstop_reading o) rest
            else if begins "--help" a then patch_scan (pset_help o) rest
            else if begins "--version" a then Ok (PReturn 0 (Version false))
            else Ok (PReturn 1 Nothing)
      | None =>
          match po_input o with
          | None => patch_scan (pset_input a o) rest
          | Some _ => patch_scan o rest
          end
      end
  end.

Inductive pstart_t := PStop (code : Z) (p : printed) | PGo (o : popts).
Definition given {A} (o : option A) : bool := match o with Some _ => true | None => false end.
(** grpatch.c:210-258. [Refused] is the message "Reading spec from stdin in some cases while
    patching is not yet implemented." argv[aut_input_index] is read outside of the array if
    there is no -a. *)
Definition patch_options (args : list string) : out pstart_t :=
  r <- patch_scan default_popts args ;;
  match r with
  | PReturn c p => Ok (PStop c p)
  | PContinue o =>
      if given (po_edges o) && given (po_formula o) then Ok (PStop 1 Nothing)
      else if given (po_edges o) && negb (given (po_aut o)) then Ok (PStop 1 Nothing)
      else if given (po_formula o) && negb (given (po_aut o)) then Ok (PStop 1 Nothing)
      else if (0 <=? po_remove o) && negb (given (po_aut o)) then Ok (PStop 1 Nothing)
      else if po_help o then Ok (PStop 0 Usage)
      else
        refused <- (if negb (given (po_input o)) && po_patch o
                    then match po_aut o with Some a => Ok (begins "-" a) | None => Crash end
                    else Ok false) ;;
        if refused : bool then Ok (PStop 1 Refused)
        else if negb (po_patch o) then Ok (PStop 1 Nothing) else Ok (PGo o)
  end.

Section Program.
  Variables (orc : oracle) (alloc : nat -> aut -> nat) (ptr : nat -> string) (date : string)
    (** what gen_tree_ptr is after yyparse failed on the text: the last formula for which an
        action was run *)
    (broken : string -> ptree).

  (** grpatch.c:279-301: the argument of -f, parsed from a file that holds it and a newline;
      what yyparse returns is not looked at *)
  Definition clf_tokens (ts : list ysym) : out (option ptree) :=
    let fuel := S (List.length ts) in
    r <- (match ts with
          | k :: _ =>
              if starts_formula k then
                match formula false NULL ts with
                | Some (tr, r) => pexps fuel {| p_spc := spc_init; p_gen := tr |} r
                | None => Ok None
                end
              else pexps fuel pstate0 ts
          | [] => pexps fuel pstate0 ts
          end) ;;
    Ok (option_map p_gen r).
  Definition clf_parse (f : option string) : out ptree :=
    match f with
    | None => Ok NULL
    | Some s =>
        ts <- yylex (s ++ String "010" "") ;;
        r <- clf_tokens (symbols ts) ;;
        Ok (match r with Some t => t | None => broken s end)
    end.
  (** grpatch.c:349-356 *)
  Definition clf_list (raw : raw_t) : ptree :=
    match r_svars raw with NULL => r_evars raw | _ => link (r_svars raw) (r_evars raw) end.
  (** grpatch.c:369-396, 494-501: the specification with its arrays of transition rules, and
      the list of non-Boolean variables; [None] is an error exit. The rules are merged only
      for -f and -r (568-588, 609-628); merge_ptrees of a single tree is that tree. *)
  Definition patch_prepare (fuel : nat) (sp : raw_t) : out (option (raw_t * spc_t * ptree)) :=
    obind (expand_nonbool_GR1 fuel ALL_ENV_EXIST_SYS_INIT (with_defaults sp)) (fun sp' =>
    vs <- expand_nonbool_variables (r_evars sp') (r_svars sp') ;;
    match vs with
    | (ev, sv, nb) =>
        Ok (Some (sp', {| evar_list := ev; svar_list := sv;
                          env_init := r_einit sp'; sys_init := r_sinit sp';
                          env_trans := merge_ptrees (r_etrans sp') PT_AND; sys_trans := merge_ptrees (r_strans sp') PT_AND;
                          env_goals := r_egoals sp'; sys_goals := r_sgoals sp' |}, nb))
    end).
  (** grpatch.c:503-514; expand_to_bool returns NULL if it fails *)
  Fixpoint expand_clf (fuel : nat) (nonbool clf : ptree) : out ptree :=
    match nonbool with
    | NULL => Ok clf
    | pnd _ n v l _ =>
        clf' <- (match clf with
                 | NULL => Ok NULL
                 | _ => match n with Some x => expand_to_bool fuel clf x v | None => Crash end
                 end) ;;
        expand_clf fuel l clf'
    end.
  (** grpatch.c:272-277, 527-529; the empty list is NULL *)
  Definition metric_offsets (spc : spc_t) (m : option string) : out (list (Z * Z)) :=
    match m with
    | None | Some EmptyString => Ok []
    | Some s => o <- get_offsets (evar_list spc) (svar_list spc) s ;; Ok (match o with Some l => l | None => [] end)
    end.

  (** what is printed and the exit code; or not modelled *)
  Inductive presult := PAnswer (r : string * Z) | POther.
  (** grpatch.c:546-690: the patching and the output. [strategy] is the text read for -a. *)
  Definition patch_strategy (fuel : nat) (o : popts) (changes : option string) (strategy : string)
      (raw : raw_t) (sp' : raw_t) (spc : spc_t) (nonbool clf : ptree) (offw : list (Z * Z)) : out presult :=
    let original := Z.of_nat (tree_size (r_evars raw) + tree_size (r_svars raw)) in
    p <- (match po_edges o with
          | Some _ =>
              match changes with
              | None => Ok (Some ([], -1))                                     (* 552-556 *)
              | Some text =>
                  match nonbool with
                  | NULL => A <- patch_localfixpoint spc (r_etrans sp') (r_strans sp') orc alloc fuel strategy text ;;
                            Ok (Some (A, 0))
                  | _ => Ok None
                  end
              end
          | None =>
              match po_formula o with
              | Some _ => A <- add_metric_sysgoal spc nonbool orc alloc fuel original strategy offw clf ;; Ok (Some (A, 0))
              | None =>
                  if 0 <=? po_remove o then
                    if Z.of_nat (List.length (sys_goals spc)) - 1 <? po_remove o then Ok (Some ([], 1))  (* 601-607 *)
                    else A <- rm_sysgoal spc nonbool orc alloc fuel original strategy (po_remove o) ;; Ok (Some (A, 0))
                  else Ok (Some ([], 1))                                        (* 638-641 *)
              end
          end) ;;
    match p with
    | None => Ok POther
    | Some (A, c) =>
        if c =? 0 then
          match A with
          | [] => Ok (PAnswer ("", -1))                                         (* 644-647 *)
          | _ =>
              r <- compact_all A (evar_list spc) (svar_list spc) nonbool ;;
              s <- write_strategy ptr date (po_format o) (negb (is_null nonbool)) (fst (fst r)) (snd (fst r)) (snd r) ;;
              Ok (PAnswer (s, 0))
          end
        else Ok (PAnswer ("", c))
    end.

  (** grpatch.c:325-690 on the text of the specification; [W] gives the other files *)
  Definition patch_run (fuel : nat) (W : world) (o : popts) (clf : ptree) (text : string) : out presult :=
    p <- yyparse text ;;
    match p with
    | None => Ok (PAnswer ("", 2))                                              (* 333-334 *)
    | Some raw =>
        c <- check_gr1c_form raw UNDEFINED_INIT ;;
        if fst c <? 0 then Ok (PAnswer ("", 2))                                 (* 338-343 *)
        else
          b <- check_vars clf (clf_list raw) NULL ;;
          match b with
          | Some _ => Ok (PAnswer ("", 1))                                      (* 357-360 *)
          | None =>
              q <- patch_prepare fuel raw ;;
              match q with
              | None => Ok (PAnswer ("", -1))                                   (* 494-499 *)
              | Some (sp', spc, nonbool) =>
                  clf' <- expand_clf fuel nonbool clf ;;
                  offw <- metric_offsets spc (po_metric o) ;;
                  match po_aut o with
                  | None => Crash                                               (* argv[-1] *)
                  | Some a =>
                      match (if begins "-" a then Some (w_stdin W) else w_file W a) with
                      | None => Ok (PAnswer ("", -1))                           (* 539-543 *)
                      | Some strategy =>
                          patch_strategy fuel o (match po_edges o with Some e => w_file W e | None => None end)
                            strategy raw sp' spc nonbool clf' offw
                      end
                  end
              end
          end
    end.

  (** grpatch.c:322-731, with the formula of -f and the text of the specification *)
  Definition patch_answer (fuel : nat) (W : world) (o : popts) (clf : ptree) (text : string) : out outcome :=
    r <- patch_run fuel W o clf text ;;
    Ok (match r with
        | POther => Other
        | PAnswer r => deliver W (po_output o) r
        end).
  (** grpatch.c:50-731: the whole program *)
  Definition patch_program (fuel : nat) (W : world) (args : list string) : out outcome :=
    s <- patch_options args ;;
    match s with
    | PStop c p => Ok (Prints c p)
    | PGo o =>
        if negb (po_verbose o =? 0) || po_logging o || po_ptdump o then Ok Other
        else
          clf <- clf_parse (po_formula o) ;;
          match open_input W (po_input o) with
          | None => Ok (Exits (-1) "" None)                                     (* 316-320 *)
          | Some text => patch_answer fuel W o clf text
          end
    end.
End Program.
