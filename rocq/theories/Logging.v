(** Model of logging.c (whole file) and of the way util.c:455-460 and 543-547 (print_GR1_spec)
    and util.c:755-760 and 793-796 (print_support) write to another stream.

    A stream that has been opened by openlogfile is [Handle n name]: the [n]-th one, for the
    file [name]. Using a stream after fclose is undefined ([Crash]), as is fputc to NULL and a
    conversion without its argument. fclose, fprintf, time and strftime (but for the room it
    has) do not fail. logfilename is read by openlogfile only, which sets it before. A text
    that is written by several calls for one stream is taken as one. [None]: exit(-1). *)
From Coq Require Import List ZArith Bool Ascii String Arith.
From Verif Require Import Base Strs.
Import ListNotations.
Open Scope string_scope.
Open Scope Z_scope.

Inductive fptr := Stdout | Handle (n : nat) (name : string).
Inductive dest := Stream (p : fptr) | Stderr.
(** what the clock says: %Y%m%d and %Y-%m-%d %H:%M:%S *)
Record moment := Moment { m_day : string; m_time : string }.
(** logging.c:20-24; the streams that are open, how many have been opened, and what has been
    written, the oldest first *)
Record lstate := LState { l_fp : option fptr; l_opt : Z; l_open : list nat; l_count : nat; l_out : list (dest * string) }.
Definition log_start : lstate := LState None 0 [] 0 [].
(** the arguments of a variadic function; a double by its text *)
Inductive larg := AInt (z : Z) | AStr (s : string) | ADouble (text : string).

Definition put (d : dest) (s : string) (st : lstate) : lstate :=
  LState (l_fp st) (l_opt st) (l_open st) (l_count st) (l_out st ++ [(d, s)])%list.
Definition in_use (p : fptr) (st : lstate) : bool :=
  match p with Stdout => true | Handle n _ => existsb (Nat.eqb n) (l_open st) end.
Definition write (p : fptr) (s : string) (st : lstate) : out lstate :=
  if in_use p st then Ok (put (Stream p) s st) else Crash.

(** logging.c:26-34 setlogstream *)
Definition setlogstream (fp : option fptr) (st : lstate) : lstate :=
  LState (Some (match fp with None => Stdout | Some p => p end)) (l_opt st) (l_open st) (l_count st) (l_out st).
(** logging.c:42-45 setlogopt *)
Definition setlogopt (options : Z) (st : lstate) : lstate :=
  LState (l_fp st) options (l_open st) (l_count st) (l_out st).
(** logging.c:88-97 closelogfile; logfp keeps its value *)
Definition closelogfile (st : lstate) : out lstate :=
  match l_fp st with
  | Some (Handle n name) =>
      if in_use (Handle n name) st
      then Ok (LState (l_fp st) (l_opt st) (filter (fun k => negb (Nat.eqb n k)) (l_open st)) (l_count st) (l_out st))
      else Crash
  | _ => Ok st
  end.
(** logging.c:53-86 openlogfile. strncpy takes 255 characters; strftime needs room for its
    text and a NUL in what is left of the 256. *)
Definition openlogfile (now : moment) (pid : Z) (can_open : string -> bool) (prefix : option string) (st : lstate) : out (option lstate) :=
  let base := match prefix with Some p => substring 0 255 p | None => "gr1c-" ++ zdec pid end in
  let tail := "-" ++ m_day now ++ ".log" in
  if (String.length tail + 1 <=? 256 - String.length base)%nat then
    st1 <- closelogfile st ;;
    (if can_open (base ++ tail) then
       let p := Handle (l_count st1) (base ++ tail) in
       Ok (Some (LState (Some p) (l_opt st1) (l_count st1 :: l_open st1) (S (l_count st1)) (l_out st1)))
     else Ok None)
  else Ok (Some (put Stderr "ERROR: strftime() failed to create timestamp." st)).

(** logging.c:122-147 (and 190-213): the loop over fmt. A percent sign at the end is followed
    by the NUL, which is written, and the loop goes on behind it. *)
Fixpoint log_format (fmt : string) (args : list larg) : out string :=
  match fmt with
  | "" => Ok ""
  | String c r =>
      if Ascii.eqb c "%" then
        match r with
        | "" => Crash
        | String k r' =>
            if Ascii.eqb k "f" then
              match args with ADouble t :: a => s <- log_format r' a ;; Ok (t ++ s) | _ => Crash end
            else if Ascii.eqb k "d" then
              match args with AInt z :: a => s <- log_format r' a ;; Ok (zdec z ++ s) | _ => Crash end
            else if Ascii.eqb k "s" then
              match args with AStr t :: a => s <- log_format r' a ;; Ok (t ++ s) | _ => Crash end
            else s <- log_format r' args ;; Ok (String k s)
        end
      else s <- log_format r args ;; Ok (String c s)
  end.
Definition lnewline : string := String "010" "".
Definition no_log : string := "WARNING: Attempted to write to non-existent log.".
(** logging.c:111-120 (and 163-172): the time, if it is to be shown *)
Definition stamp (now : moment) (st : lstate) : string :=
  if Z.land (l_opt st) 1 =? 0 then m_time now ++ " " else "".
(** logging.c:99-149 logprint *)
Definition logprint (now : moment) (fmt : string) (args : list larg) (st : lstate) : out lstate :=
  match l_fp st with
  | None => Ok (put Stderr no_log st)
  | Some p => s <- log_format fmt args ;; write p (stamp now st ++ s ++ lnewline) st
  end.
(** logging.c:152-173 logprint_startline *)
Definition logprint_startline (now : moment) (st : lstate) : out lstate :=
  match l_fp st with
  | None => Ok (put Stderr no_log st)
  | Some p => if Z.land (l_opt st) 1 =? 0 then write p (m_time now ++ " ") st else Ok st
  end.
(** logging.c:175-179 logprint_endline *)
Definition logprint_endline (st : lstate) : out lstate :=
  match l_fp st with None => Crash | Some p => write p lnewline st end.
(** logging.c:181-214 logprint_raw *)
Definition logprint_raw (fmt : string) (args : list larg) (st : lstate) : out lstate :=
  match l_fp st with
  | None => Ok (put Stderr no_log st)
  | Some p => s <- log_format fmt args ;;
              match fmt with "" => Ok st | _ => write p s st end
  end.
(** a line of print_GR1_spec or print_support *)
Definition log_line (now : moment) (fmt : string) (args : list larg) (st : lstate) : out lstate :=
  a <- logprint_startline now st ;; b <- logprint_raw fmt args a ;; logprint_endline b.
Fixpoint log_lines (now : moment) (ls : list (string * list larg)) (st : lstate) : out lstate :=
  match ls with [] => Ok st | (f, a) :: r => st1 <- log_line now f a st ;; log_lines now r st1 end.
(** util.c:455-460, the lines, 543-547; [outf] is not NULL *)
Definition log_aside (now : moment) (outf : fptr) (ls : list (string * list larg)) (st : lstate) : out lstate :=
  let prev_logf := l_fp st in
  let prev_logoptions := l_opt st in
  st1 <- log_lines now ls (setlogopt 1 (setlogstream (Some outf) st)) ;;
  Ok (setlogopt prev_logoptions (setlogstream prev_logf st1)).

(** calls in any order; the streams that are set are NULL and stdout *)
Inductive lop :=
| LSet (to_stdout : bool) | LOpt (options : Z) | LOpen (prefix : option string) | LClose
| LPrint (fmt : string) (args : list larg) | LStart | LRaw (fmt : string) (args : list larg) | LEnd
| LAside (ls : list (string * list larg)).
Section Session.
  Variables (pid : Z) (can_open : string -> bool).
  Definition log_call (now : moment) (op : lop) (st : lstate) : out (option lstate) :=
    match op with
    | LSet b => Ok (Some (setlogstream (if b then Some Stdout else None) st))
    | LOpt z => Ok (Some (setlogopt z st))
    | LOpen p => openlogfile now pid can_open p st
    | LClose => s <- closelogfile st ;; Ok (Some s)
    | LPrint f a => s <- logprint now f a st ;; Ok (Some s)
    | LStart => s <- logprint_startline now st ;; Ok (Some s)
    | LRaw f a => s <- logprint_raw f a st ;; Ok (Some s)
    | LEnd => s <- logprint_endline st ;; Ok (Some s)
    | LAside ls => s <- log_aside now Stdout ls st ;; Ok (Some s)
    end.
  Fixpoint log_session (h : list (moment * lop)) (st : lstate) : out (option lstate) :=
    match h with
    | [] => Ok (Some st)
    | (now, op) :: r =>
        s <- log_call now op st ;;
        match s with None => Ok None | Some st1 => log_session r st1 end
    end.
End Session.
