(** Model of src/main.c:361-388 and 510-638: gr1c from the parsed specification to
    the strategy, for the modes that decide realizability and that synthesize.

    Left out: option handling, parsing and the form check (lines 130-360; the form
    check is modelled separately), patching-only variables, logging, the manager
    (567-570), and the writing of the result (640-). The specification record
    [raw_t] stands for the global [spc]. [fuel] bounds all loops. *)
From Coq Require Import List ZArith Bool.
From Verif Require Import Base Ptree Support Solve Automaton Synth Nonbool.
Import ListNotations.

(** main.c:47-50 run_option; the remaining modes are not modelled here *)
Inductive run_mode := MODE_REALIZABLE | MODE_SYNTHESIS.

(** how the run ends, and the exit code of the process: an error of expansion or of
    missing rules (-1 or 2, lines 526, 542, 553), "Not realizable." (3),
    "Realizable." (0), an error of synthesis (-1), or a strategy together with the
    variable lists used to print it (0) *)
Inductive main_result :=
| SpecError
| NotRealizable
| Realizable
| SynthFailed
| Strategy (A : aut) (evars svars : ptree).

Definition gr1c_main (orc : oracle) (alloc : nat -> aut -> nat) (fuel : nat) (mode : run_mode)
    (flags : init_flags_t) (sp : raw_t) : out main_result :=
  p <- prepare fuel flags sp ;;
  match p with
  | None => Ok SpecError
  | Some (spc, nonbool_var_list) =>
      T <- check_realizable spc fuel flags ;;             (* line 594 *)
      match T with
      | None => Ok NotRealizable                            (* 601-602, exit code 3 *)
      | Some _ =>
          match mode with
          | MODE_REALIZABLE => Ok Realizable
          | MODE_SYNTHESIS =>
              strategy <- synthesize spc orc alloc fuel flags ;;   (* 617 *)
              match strategy with
              | [] => Ok SynthFailed                        (* 620-623 *)
              | _ =>                                        (* 628-638 *)
                  r <- compact_all strategy (evar_list spc) (svar_list spc) nonbool_var_list ;;
                  Ok (Strategy (fst (fst r)) (snd (fst r)) (snd r))
              end
          end
      end
  end.
