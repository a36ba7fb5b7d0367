(** Model of main() of aux/autman.c with -v and -l, at any level of verbosity; as Autman.v, with
    the log of Logging.v. All of stdout is in the log state. The functions that main calls write
    nothing to the log. [VOther]: the command lines that stop early (C59_stops, C59_refused).
    The log file is not closed. A pair: the number of uses of the log so far, and its state. *)
From Coq Require Import List ZArith Bool Ascii String.
From Verif Require Import Base Strs Ptree Automaton Nonbool AutIO AutWrite Parse Hotswap Spin Output Options Program Autman Logging Verbose.
Import ListNotations.
Open Scope string_scope.
Open Scope Z_scope.

Section AutmanLog.
  Variables (ptr : nat -> string) (date : string) (fuel : nat) (W : world).
  Variables (pid : Z) (can_open : string -> bool) (clock : nat -> moment).
  (** if (verbose >= need) logprint( fmt, ... ) *)
  Definition note (verbose need : Z) (fmt : string) (args : list larg) (s : nat * lstate) : out (nat * lstate) :=
    if need <=? verbose then st <- logprint (clock (fst s)) fmt args (snd s) ;; Ok (S (fst s), st) else Ok s.
  (** autman.c:215-240 *)
  Definition read_reference_v (v : Z) (o : aopts) (s : nat * lstate) : out ((nat * lstate) * reference) :=
    match ao_spec o with
    | None => Ok (s, RefSpec None (ao_len o))
    | Some f =>
        s1 <- note v 2 "Using file ""%s"" for reference specification." [AStr f] s ;;
        match w_file W f with
        | None => Ok (s1, RefError (-1))
        | Some text =>
            s2 <- note v 1 "Parsing reference specification file..." [] s1 ;;
            p <- yyparse text ;;
            match p with
            | None => Ok (s2, RefError 2)
            | Some raw =>
                s3 <- note v 1 "Done." [] s2 ;;
                let state_len := Z.of_nat (tree_size (r_evars raw) + tree_size (r_svars raw)) in
                s4 <- note v 1 "Detected state vector length of %d." [AInt state_len] s3 ;;
                Ok (s4, RefSpec (Some raw) state_len)
            end
        end
    end.
  (** autman.c:242-254, the messages *)
  Definition say_input (v : Z) (o : aopts) (s : nat * lstate) : out (nat * lstate) :=
    match ao_input o with
    | None => note v 2 "Using stdin for input." [] s
    | Some f => if begins "-" f then note v 2 "Using stdin for input." [] s else note v 2 "Using file ""%s"" for input." [AStr f] s
    end.
  (** autman.c:212-324 *)
  Definition autman_go_v (v : Z) (o : aopts) (st : lstate) : out voutcome :=
    s1 <- note v 1 "Running with verbosity level %d." [AInt v] (1%nat, st) ;;
    r <- read_reference_v v o s1 ;;
    match r with
    | (s2, RefError c) => Ok (VExits c None (snd s2))
    | (s2, RefSpec spc state_len) =>
        s3 <- say_input v o s2 ;;
        match autman_input W o with
        | None => Ok (VExits (-1) None (snd s3))
        | Some text =>
            s4 <- note v 2 "Loading automaton..." [] s3 ;;
            l <- aut_aut_loadver state_len text ;;
            match l with
            | None => Ok (VExits 3 None (snd s4))
            | Some (L, version) =>
                s5 <- note v 2 "Done." [] s4 ;;
                s6 <- note v 1 "Detected format version %d." [AInt version] s5 ;;
                s7 <- note v 1 "Given automaton has size %d." [AInt (Z.of_nat (List.length L))] s6 ;;
                t <- autman_write ptr date fuel o spc state_len L version ;;
                match ao_output o with
                | None => Ok (VExits 0 None (put (Stream Stdout) (fst t ++ snd t) (snd s7)))
                | Some f => if w_writable W f then Ok (VExits 0 (Some (f, snd t)) (put (Stream Stdout) (fst t) (snd s7)))
                            else Ok (VExits (-1) None (snd s7))
                end
            end
        end
    end.
  (** autman.c:204-211 and the rest *)
  Definition autman_v (args : list string) : out voutcome :=
    s <- autman_args default_aopts args ;;
    match s with
    | AReturn _ _ => Ok VOther
    | AContinue o =>
        if autman_refuses o then Ok VOther
        else
          let verbose := if ao_logging o && (ao_verbose o =? 0) then 1 else ao_verbose o in
          st <- (if ao_logging o then openlogfile (clock 0) pid can_open None log_start
                 else Ok (Some (setlogopt 1 (setlogstream (Some Stdout) log_start)))) ;;
          match st with
          | None => Ok (VExits (-1) None log_start)
          | Some st => autman_go_v verbose o st
          end
    end.
End AutmanLog.
