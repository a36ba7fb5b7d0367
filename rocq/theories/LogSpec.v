(** Specification: what the functions of logging.h do, as a program that uses them can see it
    (include/logging.h). Not a model of code. *)
From Coq Require Import List ZArith Bool Ascii String.
From Verif Require Import Base Strs Logging.
Import ListNotations.
Open Scope string_scope.
Open Scope Z_scope.

(** ** Formats: characters, percent signs with a character to be taken as it is, and places
    for arguments; there may be more arguments than places *)
Inductive piece := Plain (c : ascii) | Escaped (c : ascii) | PutInt (z : Z) | PutStr (s : string) | PutDouble (t : string).
Definition good_piece (p : piece) : Prop :=
  match p with
  | Plain c => c <> "%"%char
  | Escaped c => c <> "d"%char /\ c <> "f"%char /\ c <> "s"%char
  | _ => True
  end.
Definition directive (p : piece) : string :=
  match p with
  | Plain c => String c ""
  | Escaped c => String "%" (String c "")
  | PutInt _ => "%d" | PutStr _ => "%s" | PutDouble _ => "%f"
  end.
Definition argument (p : piece) : list larg :=
  match p with PutInt z => [AInt z] | PutStr s => [AStr s] | PutDouble t => [ADouble t] | _ => [] end.
Definition result (p : piece) : string :=
  match p with Plain c | Escaped c => String c "" | PutInt z => zdec z | PutStr s => s | PutDouble t => t end.
Definition formatted (fmt : string) (args : list larg) (text : string) : Prop :=
  exists ps more, (forall p, In p ps -> good_piece p) /\ fmt = String.concat "" (map directive ps) /\
    args = (flat_map argument ps ++ more)%list /\ text = String.concat "" (map result ps).

(** ** The log: where it goes, and whether lines are marked with the time *)
Inductive logged := NoLog | ToStdout | ToFile (name : string) | Closed.
Inductive place := OnStdout | OnStderr | InFile (name : string).
Definition place_of (w : logged) : option place :=
  match w with ToStdout => Some OnStdout | ToFile f => Some (InFile f) | _ => None end.
Definition newline : string := String "010" "".
Definition time_mark (timed : bool) (now : moment) : string := if timed then m_time now ++ " " else "".
(** the name of a log file: at most 255 characters *)
Definition log_name (now : moment) (pid : Z) (prefix : option string) : string :=
  match prefix with Some p => p | None => "gr1c-" ++ zdec pid end ++ "-" ++ m_day now ++ ".log".
Definition warning : string := "WARNING: Attempted to write to non-existent log.".
Definition line_of (l : string * list larg) (text : string) : Prop := formatted (fst l) (snd l) text.

(** one call, from one state to the next, and what it writes where *)
Inductive log_does (pid : Z) (can_open : string -> bool) (now : moment) : lop -> logged * bool -> list (place * string) -> logged * bool -> Prop :=
| ld_set b w t : log_does pid can_open now (LSet b) (w, t) [] (ToStdout, t)
| ld_opt z w t : log_does pid can_open now (LOpt z) (w, t) [] (w, Z.even z)
| ld_open p w t : w <> Closed -> (String.length (log_name now pid p) <= 255)%nat -> can_open (log_name now pid p) = true ->
    log_does pid can_open now (LOpen p) (w, t) [] (ToFile (log_name now pid p), t)
| ld_long p w t : (255 < String.length (log_name now pid p))%nat ->
    log_does pid can_open now (LOpen p) (w, t) [(OnStderr, "ERROR: strftime() failed to create timestamp.")] (w, t)
| ld_close w t : w <> Closed ->
    log_does pid can_open now LClose (w, t) [] (match w with ToFile _ => Closed | _ => w end, t)
| ld_print f a w t pl s : place_of w = Some pl -> formatted f a s ->
    log_does pid can_open now (LPrint f a) (w, t) [(pl, time_mark t now ++ s ++ newline)] (w, t)
| ld_print_none f a t : log_does pid can_open now (LPrint f a) (NoLog, t) [(OnStderr, warning)] (NoLog, t)
| ld_start w t pl : place_of w = Some pl -> log_does pid can_open now LStart (w, t) [(pl, time_mark t now)] (w, t)
| ld_start_closed : log_does pid can_open now LStart (Closed, false) [] (Closed, false)
| ld_start_none t : log_does pid can_open now LStart (NoLog, t) [(OnStderr, warning)] (NoLog, t)
| ld_raw f a w t pl s : place_of w = Some pl -> formatted f a s -> log_does pid can_open now (LRaw f a) (w, t) [(pl, s)] (w, t)
| ld_raw_closed a t : log_does pid can_open now (LRaw "" a) (Closed, t) [] (Closed, t)
| ld_raw_none f a t : log_does pid can_open now (LRaw f a) (NoLog, t) [(OnStderr, warning)] (NoLog, t)
| ld_end w t pl : place_of w = Some pl -> log_does pid can_open now LEnd (w, t) [(pl, newline)] (w, t)
| ld_aside ls texts w t : Forall2 line_of ls texts ->
    log_does pid can_open now (LAside ls) (w, t) [(OnStdout, String.concat "" (map (fun s => s ++ newline) texts))]
      (match w with NoLog => ToStdout | _ => w end, t).
(** calls one after the other *)
Inductive log_history (pid : Z) (can_open : string -> bool) : list (moment * lop) -> logged * bool -> list (place * string) -> logged * bool -> Prop :=
| lh_nil s : log_history pid can_open [] s [] s
| lh_cons now op h s o s1 o1 s2 : log_does pid can_open now op s o s1 -> log_history pid can_open h s1 o1 s2 ->
    log_history pid can_open ((now, op) :: h) s (o ++ o1)%list s2.
(** what has been written to one place, in order *)
Definition place_eqb (a b : place) : bool :=
  match a, b with
  | OnStdout, OnStdout => true
  | OnStderr, OnStderr => true
  | InFile f, InFile g => String.eqb f g
  | _, _ => false
  end.
Definition told (pl : place) (l : list (place * string)) : string :=
  String.concat "" (map snd (filter (fun x => place_eqb (fst x) pl) l)).
(** where the streams of the program lead *)
Definition shown (d : dest) : place :=
  match d with Stderr => OnStderr | Stream Stdout => OnStdout | Stream (Handle _ f) => InFile f end.
Definition visible (st : lstate) : list (place * string) := map (fun x => (shown (fst x), snd x)) (l_out st).
