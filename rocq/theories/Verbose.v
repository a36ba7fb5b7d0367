(** Model of main() of src/main.c with -v once, or -l, or both: level of verbosity 1. At this
    level only main.c writes to the log (solve.c, solve_operators.c and util.c test verbose > 1).
    As Program.v, with the log of Logging.v; all of stdout is in the log state, in order. Not
    modelled: other levels, and -p, -i and -P with -v or -l. [clock k]: the time at the [k]-th
    use of the log; [can_open]: the log files that can be opened. *)
From Coq Require Import List ZArith Bool Ascii String.
From Verif Require Import Base Ptree Support Solve Automaton Nonbool Main FormCheck AutIO Lex Parse Output Options Program Logging.
Import ListNotations.
Open Scope string_scope.
Open Scope Z_scope.

Inductive voutcome := VExits (code : Z) (file : option (string * string)) (log : lstate) | VOther.

Section Verbose.
  Variables (orc : oracle) (alloc : nat -> aut -> nat) (ptr : nat -> string) (date : string) (fuel : nat) (W : world).
  Variables (pid : Z) (can_open : string -> bool) (clock : nat -> moment).

  Definition is_stdout (p : option fptr) : bool := match p with Some Stdout => true | _ => false end.
  (** main.c:595-611 *)
  Definition say_verdict (m : run_option_t) (text : string) (st : lstate) : out lstate :=
    let st1 := match m with
               | GR1C_MODE_REALIZABLE => if is_stdout (l_fp st) then st else put (Stream Stdout) (text ++ nl) st
               | _ => st
               end in
    logprint (clock 4) text [] st1.
  (** main.c:613-619, and what follows for a strategy that is found *)
  Definition say_synthesis (st : lstate) : out lstate :=
    st1 <- logprint (clock 5) "Synthesizing a strategy..." [] st ;; logprint (clock 6) "Done." [] st1.
  (** main.c:728-729 *)
  Definition finish (o : opts) (st : lstate) : out lstate := if o_logging o then closelogfile st else Ok st.
  (** main.c:322-738 *)
  Definition verbose_go (o : opts) (st : lstate) : out voutcome :=
    st1 <- logprint (clock 1) "Running with verbosity level %d." [AInt 1] st ;;
    match open_input W (o_input o) with
    | None => Ok (VExits (-1) None st1)
    | Some text =>
        st2 <- logprint (clock 2) "Parsing input..." [] st1 ;;
        p <- yyparse text ;;
        match p with
        | None => Ok (VExits 2 None st2)
        | Some raw =>
            st3 <- logprint (clock 3) "Done." [] st2 ;;
            c <- check_gr1c_form raw (o_init o) ;;
            if fst c <? 0 then Ok (VExits 2 None st3)
            else match o_run o with
            | GR1C_MODE_SYNTAX => Ok (VExits 0 None st3)
            | m =>
                r <- gr1c_main orc alloc fuel (match m with GR1C_MODE_REALIZABLE => MODE_REALIZABLE | _ => MODE_SYNTHESIS end) (o_init o) raw ;;
                match r with
                | SpecError => Ok (VExits (-1) None st3)
                | NotRealizable =>
                    st4 <- say_verdict m "Not realizable." st3 ;; st5 <- finish o st4 ;; Ok (VExits 3 None st5)
                | Realizable =>
                    st4 <- say_verdict m "Realizable." st3 ;; st5 <- finish o st4 ;; Ok (VExits 0 None st5)
                | SynthFailed =>
                    st4 <- say_verdict m "Realizable." st3 ;; st5 <- say_synthesis st4 ;; Ok (VExits (-1) None st5)
                | Strategy A ev sv =>
                    st4 <- say_verdict m "Realizable." st3 ;;
                    st5 <- say_synthesis st4 ;;
                    s <- write_strategy ptr date (o_format o)
                           (negb (is_null (nonbool_items (link (r_evars raw) (r_svars raw))))) A ev sv ;;
                    let dumping := logprint (clock 7) "Dumping automaton of size %d..." [AInt (Z.of_nat (List.length A))] st5 in
                    match o_output o with
                    | None =>
                        st6 <- dumping ;; st7 <- finish o (put (Stream Stdout) s st6) ;; Ok (VExits 0 None st7)
                    | Some f =>
                        if w_writable W f then st6 <- dumping ;; st7 <- finish o st6 ;; Ok (VExits 0 (Some (f, s)) st7)
                        else Ok (VExits (-1) None st5)
                    end
                end
            end
        end
    end.
  (** main.c:313-321 and the rest *)
  Definition gr1c_program_v (args : list string) : out voutcome :=
    s <- read_options args ;;
    match s with
    | Go o =>
        let verbose := if o_logging o && (o_verbose o =? 0) then 1 else o_verbose o in
        if o_ptdump o || o_promela o || negb (verbose =? 1) then Ok VOther
        else match o_run o with
        | GR1C_MODE_INTERACTIVE => Ok VOther
        | _ =>
            st <- (if o_logging o then openlogfile (clock 0) pid can_open None log_start
                   else Ok (Some (setlogopt 1 (setlogstream (Some Stdout) log_start)))) ;;
            match st with
            | None => Ok (VExits (-1) None log_start)
            | Some st => verbose_go o st
            end
        end
    | _ => Ok VOther
    end.
End Verbose.
