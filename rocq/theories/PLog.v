(** C71: the functions of logging.h. Theorems only; proofs are in LogProofs.v.

    Reading guide. A history is a list of calls, each with what the clock says; [pid] is the
    number of the process and [can_open] says which files can be opened. [log_does]: one call,
    from one state of the log ([NoLog], [ToStdout], [ToFile name] or [Closed], and whether lines
    are marked with the time) to the next, with what is written to which place; [log_history]:
    calls one after the other (LogSpec.v). [told pl o]: the text of [o] for the place [pl].
    [formatted fmt args text]: [text] is [fmt] with the arguments at their places. *)
From Coq Require Import List ZArith Bool Ascii String.
From Verif Require Import Base Strs Logging LogSpec LogProofs.
Import ListNotations.
Open Scope string_scope.
Open Scope list_scope.
Open Scope Z_scope.

Theorem C71_format : forall fmt args text, log_format fmt args = Ok text <-> formatted fmt args text.
Proof. exact format_iff. Qed.
Print Assumptions C71_format.
Theorem C71_session : forall pid can_open h o s, log_history pid can_open h (NoLog, true) o s ->
  exists st, log_session pid can_open h log_start = Ok (Some st) /\ forall pl, told pl (visible st) = told pl o.
Proof. exact session_ok. Qed.
Print Assumptions C71_session.
Theorem C71_only : forall pid can_open h st, log_session pid can_open h log_start = Ok (Some st) ->
  exists o s, log_history pid can_open h (NoLog, true) o s /\ forall pl, told pl (visible st) = told pl o.
Proof. exact session_only. Qed.
Print Assumptions C71_only.
(** exit(-1) *)
Theorem C71_exit : forall pid can_open h, log_session pid can_open h log_start = Ok None <->
  exists h1 now p h2 o w t, h = h1 ++ (now, LOpen p) :: h2 /\ log_history pid can_open h1 (NoLog, true) o (w, t) /\ w <> Closed /\
    (String.length (log_name now pid p) <= 255)%nat /\ can_open (log_name now pid p) = false.
Proof. exact session_exit. Qed.
Print Assumptions C71_exit.
(** the states and texts that a history leads to are determined by it *)
Theorem C71_one : forall pid can_open h o s o' s', log_history pid can_open h (NoLog, true) o s -> log_history pid can_open h (NoLog, true) o' s' ->
  forall pl, told pl o = told pl o'.
Proof. exact history_one. Qed.
Print Assumptions C71_one.

(** "Manually close the current log stream": nothing can be written, and no other log be
    opened, until setlogstream is called; the stream is kept after fclose *)
Theorem C71_close_refuted : forall pid can_open now day f args text, can_open (log_name day pid None) = true ->
  (String.length (log_name day pid None) <= 255)%nat -> formatted f args text ->
  log_session pid can_open [(day, LOpen None); (day, LClose); (now, LPrint f args)] log_start = Crash /\
  log_session pid can_open [(day, LOpen None); (day, LClose); (day, LOpen None)] log_start = Crash.
Proof. exact close_then. Qed.
Print Assumptions C71_close_refuted.
(** without a log before, the log is stdout after a text for another stream *)
Theorem C71_aside_refuted : exists h now st st', log_session 1 (fun _ => true) h log_start = Ok (Some st) /\
  log_session 1 (fun _ => true) (h ++ [(now, LPrint "a" [])]) log_start = Ok (Some st') /\
  told OnStderr (visible st') = "" /\ told OnStdout (visible st') = String.append (told OnStdout (visible st)) ("12:00 a" ++ newline) /\
  (forall t o s, log_history 1 (fun _ => true) [(now, LPrint "a" [])] (NoLog, t) o s -> told OnStdout o = "" /\ told OnStderr o = warning).
Proof. exact aside_leaves. Qed.
Print Assumptions C71_aside_refuted.
(** a percent sign at the end: the loop goes on behind the end of the format *)
Theorem C71_percent_refuted : exists args, log_format "100%" args = Crash /\ forall text, ~ formatted "100%" args text.
Proof. exact percent_end. Qed.
Print Assumptions C71_percent_refuted.

(** ** An instance *)
Definition noon : moment := Moment "20150102" "2015-01-02 12:00:00".
Definition calls : list (moment * lop) :=
  map (fun op => (noon, op)) [LSet true; LPrint "n = %d of %s" [AInt 3; AStr "x"]; LOpen (Some "rg"); LOpt 1; LStart; LRaw "50%%" []; LEnd;
    LAside [("END", [])]; LClose].
Theorem C71_instance : exists st o s, log_session 7 (fun _ => true) calls log_start = Ok (Some st) /\
  log_history 7 (fun _ => true) calls (NoLog, true) o s /\ s = (Closed, false) /\
  told OnStdout (visible st) = String.append "2015-01-02 12:00:00 n = 3 of x" (newline ++ "END" ++ newline) /\
  told (InFile "rg-20150102.log") (visible st) = String.append "50%" newline /\ told OnStderr (visible st) = "".
Proof. exact log_instance. Qed.
Print Assumptions C71_instance.
