(** Model of main() of src/rg_main.c (gr1c-rg): from the command line to the exit code.

    As for gr1c (Options.v, Main.v, Output.v, Program.v): arguments contain no NUL
    character; options that add output (-v, -l, -p) lead to [Other] (RgDump.v has -p); messages on stderr, the
    BDD manager (448-453) and the clean-up are left out. If the output file cannot be opened
    the model still composes the text, which is then dropped. *)
From Coq Require Import List ZArith Bool Arith Ascii String.
From Verif Require Import Base Ptree Support Solve Automaton Synth Nonbool Main FormCheck AutIO Lex Parse Output
  Options Program Reach RgParse.
Import ListNotations.
Open Scope string_scope.
Open Scope list_scope.
Open Scope Z_scope.

(** rg_main.c:60-69. RG_MODE_SYNTAX and RG_MODE_SYNTHESIS are named as in main.c; RG_MODE_REALIZABLE
    is never set. *)
Definition rg_default_opts : opts :=
  Opts GR1C_MODE_SYNTHESIS false false false ALL_INIT FORMAT_JSON 0 true None None false.

(** rg_main.c:86-185: the loop. There is no -r, -i or -P; "-n" knows one name; arguments
    that are no options are ignored after the first. *)
Fixpoint rg_scan (o : opts) (args : list string) : out scanned :=
  match args with
  | [] => Ok (Continue o)
  | a :: rest =>
      c0 <- char_at a 0 ;;
      dash <- (if o_reading o && is c0 "-" then c1 <- char_at a 1 ;; Ok (Some c1) else Ok None) ;;
      match dash with
      | Some c1 =>
          if negb (is c1 "-") then
            c2 <- char_at a 2 ;;
            if negb (is c2 NUL) && negb (is c1 "v" && is c2 "v") then Ok (Return 1 Nothing)
            else if is c1 "h" then rg_scan (set_help o) rest
            else if is c1 "V" then Ok (Return 0 (Version true))
            else if is c1 "v" then
              (* lines 99-106: j runs up to 3 *)
              rg_scan (more_verbose (if is c2 "v" then 2 else 1) o) rest
            else if is c1 "l" then rg_scan (set_logging o) rest
            else if is c1 "s" then rg_scan (set_run GR1C_MODE_SYNTAX o) rest
            else if is c1 "p" then rg_scan (set_ptdump o) rest
            else if is c1 "t" then
              match rest with
              | [] => Ok (Return 1 Nothing)
              | b :: rest' =>
                  if begins "txt" b then rg_scan (set_format FORMAT_TEXT o) rest'
                  else if begins "tulip" b then rg_scan (set_format FORMAT_TULIP o) rest'
                  else if begins "dot" b then rg_scan (set_format FORMAT_DOT o) rest'
                  else if begins "aut" b then rg_scan (set_format FORMAT_AUT o) rest'
                  else if begins "json" b then rg_scan (set_format FORMAT_JSON o) rest'
                  else Ok (Return 1 Nothing)
              end
            else if is c1 "n" then
              match rest with
              | [] => Ok (Return 1 Nothing)
              | b0 :: rest' =>
                  b <- lower_all b0 ;;
                  if begins "all_init" b then rg_scan (set_init_flags ALL_INIT o) rest'
                  else Ok (Return 1 Nothing)
              end
            else if is c1 "o" then
              match rest with
              | [] => Ok (Return 1 Nothing)
              | b :: rest' => rg_scan (set_output b o) rest'
              end
            else Ok (Return 1 Nothing)
          else
            c2 <- char_at a 2 ;;
            if is c2 NUL then rg_scan (stop_reading o) rest
            else if begins "--help" a then rg_scan (set_help o) rest
            else if begins "--version" a then Ok (Return 0 (Version false))
            else Ok (Return 1 Nothing)
      | None =>
          match o_input o with
          | None => rg_scan (set_input a o) rest
          | Some _ => rg_scan o rest
          end
      end
  end.

(** rg_main.c:85-201 *)
Definition rg_options (args : list string) : out start_t :=
  r <- rg_scan rg_default_opts args ;;
  match r with
  | Return c p => Ok (Stop c p)
  | Continue o => if o_help o then Ok (Stop 0 Usage) else Ok (Go o)
  end.

(** rg_main.c:252-271: omission implies empty; the goals are left alone *)
Definition rg_defaults (sp : raw_t) : raw_t :=
  {| r_evars := r_evars sp; r_svars := r_svars sp; r_einit := r_einit sp; r_sinit := r_sinit sp;
     r_etrans := or_const_true (r_etrans sp); r_strans := or_const_true (r_strans sp);
     r_egoals := r_egoals sp; r_sgoals := r_sgoals sp |}.
(** rg_main.c:391-422: the specification handed to the solver and the list of non-Boolean
    variables; [None] is an error exit. merge_ptrees of a single tree is that tree, so
    lines 402-422 are one call for a nonempty array. *)
Definition rg_prepare (fuel : nat) (flags : init_flags_t) (sp : raw_t)
    : out (option (spc_t * ptree)) :=
  obind (expand_nonbool_GR1 fuel flags (rg_defaults sp)) (fun sp' =>
  vs <- expand_nonbool_variables (r_evars sp') (r_svars sp') ;;
  match vs with
  | (ev, sv, nb) =>
      match r_etrans sp', r_strans sp' with
      | [], _ | _, [] => Ok None
      | et, st =>
          Ok (Some ({| evar_list := ev; svar_list := sv;
                       env_init := r_einit sp'; sys_init := r_sinit sp';
                       env_trans := merge_ptrees et PT_AND; sys_trans := merge_ptrees st PT_AND;
                       env_goals := r_egoals sp'; sys_goals := r_sgoals sp' |}, nb))
      end
  end).

(** rg_main.c:252-271, 391-567: from the parsed specification to the strategy. The default
    for environment goals and lines 445-541 are [rg_synthesize] (Reach.v). *)
Definition rg_main (orc : oracle) (alloc : nat -> aut -> nat) (fuel : nat) (flags : init_flags_t) (sp : raw_t)
    : out main_result :=
  p <- rg_prepare fuel flags sp ;;
  match p with
  | None => Ok SpecError
  | Some (spc, nonbool_var_list) =>
      strategy <- rg_synthesize spc orc alloc fuel ;;
      match strategy with
      | [] => Ok SynthFailed                            (* 540-542 *)
      | _ =>                                            (* 545-554 *)
          r <- compact_all strategy (evar_list spc) (svar_list spc) nonbool_var_list ;;
          Ok (Strategy (fst (fst r)) (snd (fst r)) (snd r))
      end
  end.

(** rg_main.c:224-590: what is printed, and the exit code *)
Definition rg_run (orc : oracle) (alloc : nat -> aut -> nat) (ptr : nat -> string) (date : string)
    (fuel : nat) (run : run_option_t) (flags : init_flags_t) (fmt : output_format) (text : string)
    : out (string * Z) :=
  p <- rg_yyparse text ;;
  match p with
  | None => Ok ("", 2)                                       (* line 226 *)
  | Some raw =>
      if (1 <? List.length (r_sgoals raw))%nat then Ok ("", 2)     (* lines 230-235 *)
      else
        c <- check_gr1c_form raw flags ;;
        if fst c <? 0 then Ok ("", 2)                        (* line 242 *)
        else
          match run with
          | GR1C_MODE_SYNTAX => Ok ("", 0)                   (* line 245 *)
          | _ =>
              r <- rg_main orc alloc fuel flags raw ;;
              match r with
              | Strategy A ev sv =>
                  s <- write_strategy ptr date fmt
                         (negb (is_null (nonbool_items (link (r_evars raw) (r_svars raw))))) A ev sv ;;
                  Ok (s, 0)
              | _ => Ok ("", -1)                             (* lines 396, 542 *)
              end
          end
  end.

(** rg_main.c:204-590: main() after the options *)
Definition rg_rest (orc : oracle) (alloc : nat -> aut -> nat) (ptr : nat -> string) (date : string)
    (fuel : nat) (W : world) (o : opts) : out outcome :=
  match open_input W (o_input o) with
  | None => Ok (Exits (-1) "" None)                          (* line 217 *)
  | Some text =>
      r <- rg_run orc alloc ptr date fuel (o_run o) (o_init o) (o_format o) text ;;
      Ok (match o_run o with
          | GR1C_MODE_SYNTAX => Exits (snd r) (fst r) None
          | _ => deliver W (o_output o) r
          end)
  end.
(** rg_main.c:56-: the whole program *)
Definition rg_program (orc : oracle) (alloc : nat -> aut -> nat) (ptr : nat -> string) (date : string)
    (fuel : nat) (W : world) (args : list string) : out outcome :=
  s <- rg_options args ;;
  match s with
  | Sub p a => Ok (Runs p a)
  | Stop c p => Ok (Prints c p)
  | Go o =>
      if negb (o_verbose o =? 0) || o_logging o || o_ptdump o then Ok Other
      else rg_rest orc alloc ptr date fuel W o
  end.
