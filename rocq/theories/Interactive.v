(** Model of src/interactive.c, compiled without USE_READLINE (command lines are read
    with fgets).

    Not modelled: log messages (verbose), enabling and disabling dynamic variable
    reordering (the cube oracle is indexed by time and arbitrary), allocation failures,
    NUL characters in the input. [outfp] and stdout are one stream (main.c:582). *)
From Coq Require Import List ZArith Bool Arith Ascii String.
From Verif Require Import Base Bdd Support Ops Strs Ptree Solve AutIO Automaton Synth ReadState FormPrint Lex.
Import ListNotations.
Open Scope string_scope.
Open Scope list_scope.
Open Scope Z_scope.

(** interactive.c:36-49, 74-80: what command_loop returns together with the globals
    intcom_state and intcom_index *)
Inductive intcom :=
| INTCOM_WINNING (state : vec)
| INTCOM_ENVNEXT (state : vec)
| INTCOM_SYSNEXT (state : vec) (index : Z)
| INTCOM_SYSNEXTA (state : vec)
| INTCOM_RESTRICT (state : vec)        (** intcom_index is the length *)
| INTCOM_RELAX (state : vec)
| INTCOM_CLEAR
| INTCOM_BLKENV (state : vec)
| INTCOM_BLKSYS (state : vec)
| INTCOM_GETINDEX (state : vec) (index : Z)
| INTCOM_REWIN
| INTCOM_RELEVELS.

(** what one command prints, see [answer_text] *)
Inductive answer :=
| ASilent
| ANone
| AMoves (l : list vec)
| ABool (b : bool)
| AInf
| AIndex (j : nat).

(** the local variables of levelset_interactive that commands change; [i_t] counts the
    calls of the cube generator *)
Record istate := {
  i_et : dt;                (** etrans_patched *)
  i_st : dt;                (** strans_patched *)
  i_W : dt;
  i_L : list levels_t;      (** Y, num_sublevels, X_ijr *)
  i_t : nat
}.

Section Interactive.
  Variables (ne ns : nat) (et0 st0 : dt) (egs sgs : list dt) (orc : oracle) (fuel : nat).
  Let n := (ne + ns)%nat.
  Let m := (2 * n)%nat.

  (** interactive.c:690-704, 735-749, 772-786: the valuations of the system variables
      in all cubes. Without system variables the code would print state[0], which is
      not part of the answer. *)
  Definition sys_completions (t : nat) (f : dt) : out (list vec) :=
    match ns with
    | O => Crash
    | _ => concat_out (fun gcube => enum_cube fuel (slice (2 * ne + ns) ns gcube)) (orc t f)
    end.

  (** interactive.c:506-517 and 519-554 *)
  Definition winning_of (et st : dt) : out dt := compute_winning_set_BDD ne ns et st fuel egs sgs.
  Definition levels_of (et st W : dt) : out (list levels_t) :=
    l <- compute_sublevel_sets ne ns et st fuel W egs sgs ;;
    match l with
    | Some l => Ok l
    | None => Crash    (** error message and return -1; not reached, see winning_of *)
    end.

  (** interactive.c:583-758; [state] holds a state and an environment valuation *)
  Definition sysnext (x : istate) (state : vec) (index : Z) : out (istate * answer) :=
    let s := firstn n state in
    let e := skipn n state in
    let stW := bAnd m (i_st x) (bSwap m n (i_W x)) in
    match nth_error (i_L x) (Z.to_nat index) with
    | None => Crash
    | Some (Y, _) =>
        j <- level_search ne ns (List.length Y) Y s ;;
        match nth_error Y (Nat.pred j) with
        | None => Crash
        | Some target =>
            f <- toward ne ns stW target s e ;;
            l <- sys_completions (i_t x) f ;;
            match l with
            | _ :: _ => Ok ({| i_et := i_et x; i_st := i_st x; i_W := i_W x; i_L := i_L x; i_t := S (i_t x) |},
                            AMoves l)
            | [] =>
                f2 <- (match j with
                       | O => cof2 ne ns s e (bAnd m stW (bOne m))
                       | _ => match nth_error Y j with
                              | None => Crash
                              | Some target => toward ne ns stW target s e
                              end
                       end) ;;
                l2 <- sys_completions (S (i_t x)) f2 ;;
                Ok ({| i_et := i_et x; i_st := i_st x; i_W := i_W x; i_L := i_L x; i_t := S (S (i_t x)) |},
                    AMoves l2)
            end
        end
    end.

  (** interactive.c:503-950: the switch *)
  Definition exec (x : istate) (c : intcom) : out (istate * answer) :=
    match c with
    | INTCOM_REWIN =>
        W <- winning_of (i_et x) (i_st x) ;;
        Ok ({| i_et := i_et x; i_st := i_st x; i_W := W; i_L := i_L x; i_t := i_t x |}, ASilent)
    | INTCOM_RELEVELS =>
        W <- winning_of (i_et x) (i_st x) ;;
        L <- levels_of (i_et x) (i_st x) W ;;
        Ok ({| i_et := i_et x; i_st := i_st x; i_W := W; i_L := L; i_t := i_t x |}, ASilent)
    | INTCOM_ENVNEXT s =>
        match ne with
        | O => Ok (x, ANone)
        | _ => l <- get_env_moves fuel (orc (i_t x)) (cube0 ne ns) s (i_et x) ne ns ;;
               Ok ({| i_et := i_et x; i_st := i_st x; i_W := i_W x; i_L := i_L x; i_t := S (i_t x) |}, AMoves l)
        end
    | INTCOM_SYSNEXT v index => sysnext x v index
    | INTCOM_SYSNEXTA v =>
        f <- cof2 ne ns (firstn n v) (skipn n v) (i_st x) ;;
        l <- sys_completions (i_t x) f ;;
        Ok ({| i_et := i_et x; i_st := i_st x; i_W := i_W x; i_L := i_L x; i_t := S (i_t x) |}, AMoves l)
    | INTCOM_WINNING s => Ok (x, ABool (eval_at ne ns (i_W x) s))
    | INTCOM_GETINDEX s index =>
        if eval_at ne ns (i_W x) s
        then match nth_error (i_L x) (Z.to_nat index) with
             | None => Crash
             | Some (Y, _) => j <- level_search ne ns (List.length Y) Y s ;; Ok (x, AIndex j)
             end
        else Ok (x, AInf)
    | INTCOM_RESTRICT v =>
        let vertex1 := state_to_BDD m (firstn n v) 0 in
        let vertex2 := bNot m (state_to_BDD m (skipn n v) n) in
        let tmp := bOr m (bNot m vertex1) vertex2 in
        if (List.length v =? 2 * ne + ns)%nat
        then Ok ({| i_et := bAnd m tmp (i_et x); i_st := i_st x; i_W := i_W x; i_L := i_L x; i_t := i_t x |}, ASilent)
        else Ok ({| i_et := i_et x; i_st := bAnd m tmp (i_st x); i_W := i_W x; i_L := i_L x; i_t := i_t x |}, ASilent)
    | INTCOM_RELAX v =>
        let vertex1 := state_to_BDD m (firstn n v) 0 in
        let vertex2 := state_to_BDD m (skipn n v) n in
        let tmp := bAnd m vertex1 vertex2 in
        if (List.length v =? 2 * ne + ns)%nat
        then Ok ({| i_et := bOr m tmp (i_et x); i_st := i_st x; i_W := i_W x; i_L := i_L x; i_t := i_t x |}, ASilent)
        else Ok ({| i_et := i_et x; i_st := bOr m tmp (i_st x); i_W := i_W x; i_L := i_L x; i_t := i_t x |}, ASilent)
    | INTCOM_BLKENV v =>
        let vertex2 := bNot m (state_to_BDD m v n) in
        Ok ({| i_et := bAnd m (i_et x) vertex2; i_st := i_st x; i_W := i_W x; i_L := i_L x; i_t := i_t x |}, ASilent)
    | INTCOM_BLKSYS v =>
        let vertex2 := bNot m (state_to_BDD m v (2 * ne + ns)) in
        Ok ({| i_et := i_et x; i_st := bAnd m (i_st x) vertex2; i_W := i_W x; i_L := i_L x; i_t := i_t x |}, ASilent)
    | INTCOM_CLEAR =>
        Ok ({| i_et := et0; i_st := st0; i_W := i_W x; i_L := i_L x; i_t := i_t x |}, ASilent)
    end.

  (** interactive.c:486-501: before the first command is read *)
  Definition start_state : out istate :=
    W <- winning_of et0 st0 ;;
    p <- exec {| i_et := et0; i_st := st0; i_W := W; i_L := []; i_t := 0 |} INTCOM_RELEVELS ;;
    Ok (fst p).

  (** the commands of a session, without reading and printing *)
  Fixpoint exec_all (x : istate) (cs : list intcom) : out (istate * list answer) :=
    match cs with
    | [] => Ok (x, [])
    | c :: r => p <- exec x c ;; q <- exec_all (fst p) r ;; Ok (fst q, snd p :: snd q)
    end.
End Interactive.

(** ** Printing *)
Definition eol : string := String newline "".
(** "%d" and then " %d" for each further entry *)
Definition line_text (v : vec) : string := (String.concat " " (map zdec v) ++ eol)%string.
Definition answer_text (a : answer) : string :=
  match a with
  | ASilent => ""
  | ANone => ("(none)" ++ eol)%string
  | AMoves l => (String.concat "" (map line_text l) ++ "---" ++ eol)%string
  | ABool b => ((if b then "True" else "False") ++ eol)%string
  | AInf => ("Inf" ++ eol)%string
  | AIndex j => (zdec (Z.of_nat j) ++ eol)%string
  end.

(** ** Reading *)
(** interactive.c:51-72 *)
Definition help_text : string :=
"winning STATE
envnext STATE
sysnext STATE1 STATE2ENV GOALMODE
sysnexta STATE1 STATE2ENV
restrict STATE1 STATE2
relax STATE1 STATE2
clear
blocksys STATESYS
blockenv STATEENV
getindex STATE GOALMODE
refresh winning
refresh levels
addvar env (sys) VARIABLE
envvar
sysvar
var
numgoals
printgoal GOALMODE
printegoals
enable (disable) autoreorder
quit".

(** interactive.c:137-155, 156-171, 172-194: a list of variables with indices from
    [i]; [last]: the separator is left out after the last one *)
Fixpoint var_list_text (l : ptree) (i : Z) (last : bool) : out string :=
  match l with
  | NULL => Ok ""
  | pnd _ nm _ nxt _ =>
      match nm with
      | None => Crash
      | Some x =>
          r <- var_list_text nxt (i + 1) last ;;
          let sep := match nxt with NULL => if last then "" else ", " | _ => ", " end in
          Ok (x ++ " (" ++ zdec i ++ ")" ++ sep ++ r)%string
      end
  end.

(** the outcome of one iteration of command_loop *)
Inductive line_result :=
| LQuit
| LSay (text : string)
| LCommand (c : intcom).

(** [strncmp(input, w, strlen(w)) == 0] *)
Definition starts (w input : string) : bool := String.prefix w input.
Definition after (w input : string) : string := drop (String.length w) input.
(** "Invalid arguments." and the newline printed at the end of the iteration (or
    together with it, interactive.c:260, 375) *)
Definition invalid : line_result := LSay ("Invalid arguments." ++ eol)%string.

Section Loop.
  Variable sp : spc_t.
  Let ne : Z := Z.of_nat (num_env sp).
  Let ns : Z := Z.of_nat (num_sys sp).
  Let k : Z := Z.of_nat (List.length (sys_goals sp)).

  Definition say (s : string) : out line_result := Ok (LSay (s ++ eol)%string).
  (** commands with a vector of fixed length *)
  Definition fixed (arg : string) (len : Z) (c : vec -> intcom) : out line_result :=
    p <- read_state_str arg len ;;
    Ok (if fst p =? len then LCommand (c (snd p)) else invalid).
  (** restrict and relax *)
  Definition edge (arg : string) (c : vec -> intcom) : out line_result :=
    p <- read_state_str arg (2 * (ne + ns)) ;;
    Ok (if (fst p =? 2 * (ne + ns)) || (fst p =? 2 * ne + ns) then LCommand (c (snd p)) else invalid).
  (** sysnext and getindex: [len] values and the number of a goal *)
  Definition with_goal (arg : string) (len : Z) (c : vec -> Z -> intcom) : out line_result :=
    p <- read_state_str arg (len + 1) ;;
    if negb (fst p =? len + 1) then Ok invalid
    else let g := nth (Z.to_nat len) (snd p) 0 in
         if (g <? 0) || (g >? k - 1) then say ("Invalid mode: " ++ zdec g)%string
         else Ok (LCommand (c (firstn (Z.to_nat len) (snd p)) g)).
  Fixpoint egoals_text (l : list ptree) : out string :=
    match l with
    | [] => Ok ""
    | g :: r => a <- print_formula FORMULA_SYNTAX_GR1C g ;; b <- egoals_text r ;; Ok (a ++ eol ++ b)%string
    end.

  (** interactive.c:117-396: one line. The environment goals are those in use (True if
      none is given, interactive.c:436-443). *)
  Definition command_line (input : string) : out line_result :=
    if starts "quit" input then Ok LQuit
    else if starts "help" input then say help_text
    else if starts "enable autoreorder" input then say ""
    else if starts "disable autoreorder" input then say ""
    else if starts "numgoals" input then say (zdec k)
    else if starts "envvar" input then
      match evar_list sp with
      | NULL => say "(none)"
      | l => s <- var_list_text l 0 true ;; say s
      end
    else if starts "sysvar" input then
      match svar_list sp with
      | NULL => say "(none)"
      | l => s <- var_list_text l ne true ;; say s
      end
    else if starts "var" input then
      a <- var_list_text (evar_list sp) 0 false ;;
      b <- var_list_text (svar_list sp) ne true ;;
      say (a ++ b)%string
    else if starts "refresh winning" input then Ok (LCommand INTCOM_REWIN)
    else if starts "refresh levels" input then Ok (LCommand INTCOM_RELEVELS)
    else if starts "printgoal " input then
      p <- read_state_str (after "printgoal " input) 1 ;;
      if fst p <? 1 then Ok invalid
      else let g := nth 0 (snd p) 0 in
           if (g <? 0) || (g >? k - 1) then say ("Invalid mode: " ++ zdec g)%string
           else s <- print_formula FORMULA_SYNTAX_GR1C (nth (Z.to_nat g) (sys_goals sp) NULL) ;; say s
    else if starts "printegoals" input then
      s <- egoals_text (env_goals' sp) ;; say (s ++ "---")%string
    else if starts "winning " input then fixed (after "winning " input) (ne + ns) INTCOM_WINNING
    else if starts "envnext " input then fixed (after "envnext " input) (ne + ns) INTCOM_ENVNEXT
    else if starts "sysnext " input then with_goal (after "sysnext " input) (2 * ne + ns) INTCOM_SYSNEXT
    else if starts "sysnexta " input then fixed (after "sysnexta " input) (2 * ne + ns) INTCOM_SYSNEXTA
    else if starts "restrict " input then edge (after "restrict " input) INTCOM_RESTRICT
    else if starts "relax " input then edge (after "relax " input) INTCOM_RELAX
    else if starts "clear" input then Ok (LCommand INTCOM_CLEAR)
    else if starts "blockenv " input then fixed (after "blockenv " input) ne INTCOM_BLKENV
    else if starts "blocksys " input then fixed (after "blocksys " input) ns INTCOM_BLKSYS
    else if starts "getindex " input then with_goal (after "getindex " input) (ne + ns) INTCOM_GETINDEX
    else say ("Unrecognized command: " ++ input)%string.

  (** fgets with a buffer of [S max] bytes: up to [max] characters, up to and including
      a newline; the line and the rest of the stream *)
  Fixpoint fgets (max : nat) (s : string) : string * string :=
    match max, s with
    | S mx, String c r =>
        if Ascii.eqb c newline then (String c "", r)
        else let (a, b) := fgets mx r in (String c a, b)
    | _, _ => ("", s)
    end.

  (** interactive.c:403-1010 levelset_interactive on an input stream: the text printed.
      The end of the stream ends the session like "quit" does. [lines] bounds the
      number of lines. *)
  Definition prompt : string := ">>> ".
  Section Session.
    Variables (et0 st0 : dt) (egs sgs : list dt) (orc : oracle) (fuel : nat).
    Fixpoint session (lines : nat) (x : istate) (input : string) : out string :=
      match lines with
      | O => Fuel
      | S l =>
          match input with
          | EmptyString => Ok prompt
          | _ =>
              let (line, rest) := fgets 255 input in
              r <- command_line line ;;
              match r with
              | LQuit => Ok prompt
              | LSay t => s <- session l x rest ;; Ok (prompt ++ t ++ s)%string
              | LCommand c =>
                  p <- exec (num_env sp) (num_sys sp) et0 st0 egs sgs orc fuel x c ;;
                  s <- session l (fst p) rest ;;
                  Ok (prompt ++ answer_text (snd p) ++ s)%string
              end
          end
      end.
  End Session.
  Definition levelset_interactive (orc : oracle) (fuel : nat) (input : string) : out string :=
    b <- spec_BDDs sp ;;
    match b with
    | (et, st, eg, sg) =>
        x <- start_state (num_env sp) (num_sys sp) et st eg sg orc fuel ;;
        session et st eg sg orc fuel (S (String.length input)) x input
    end.
End Loop.
