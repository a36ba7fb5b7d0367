(** Model of src/main.c:93-311: sub-commands and command-line options.

    [args] is argv[1], argv[2], ... The conversion of "-n" arguments to lower case in
    place is not visible later (the argument is not used again). Arguments contain
    no NUL character. *)
From Coq Require Import List ZArith Bool Arith Ascii String.
From Verif Require Import Base Solve Output.
Import ListNotations.
Open Scope string_scope.
Open Scope list_scope.
Open Scope Z_scope.

(** main.c:46-50 *)
Inductive run_option_t := GR1C_MODE_SYNTAX | GR1C_MODE_REALIZABLE | GR1C_MODE_SYNTHESIS | GR1C_MODE_INTERACTIVE.
(** main.c:60-73 *)
Record opts := Opts {
  o_run : run_option_t; o_help : bool; o_ptdump : bool; o_logging : bool; o_init : init_flags_t;
  o_format : output_format; o_verbose : Z; o_reading : bool; o_input : option string;
  o_output : option string; o_promela : bool
}.
Definition default_opts : opts :=
  Opts GR1C_MODE_SYNTHESIS false false false ALL_ENV_EXIST_SYS_INIT FORMAT_JSON 0 true None None false.
Definition set_run r o := Opts r (o_help o) (o_ptdump o) (o_logging o) (o_init o) (o_format o) (o_verbose o) (o_reading o) (o_input o) (o_output o) (o_promela o).
Definition set_help o := Opts (o_run o) true (o_ptdump o) (o_logging o) (o_init o) (o_format o) (o_verbose o) (o_reading o) (o_input o) (o_output o) (o_promela o).
Definition set_ptdump o := Opts (o_run o) (o_help o) true (o_logging o) (o_init o) (o_format o) (o_verbose o) (o_reading o) (o_input o) (o_output o) (o_promela o).
Definition set_logging o := Opts (o_run o) (o_help o) (o_ptdump o) true (o_init o) (o_format o) (o_verbose o) (o_reading o) (o_input o) (o_output o) (o_promela o).
Definition set_init_flags f o := Opts (o_run o) (o_help o) (o_ptdump o) (o_logging o) f (o_format o) (o_verbose o) (o_reading o) (o_input o) (o_output o) (o_promela o).
Definition set_format f o := Opts (o_run o) (o_help o) (o_ptdump o) (o_logging o) (o_init o) f (o_verbose o) (o_reading o) (o_input o) (o_output o) (o_promela o).
(** verbose is an unsigned char *)
Definition more_verbose k o := Opts (o_run o) (o_help o) (o_ptdump o) (o_logging o) (o_init o) (o_format o) ((o_verbose o + k) mod 256) (o_reading o) (o_input o) (o_output o) (o_promela o).
Definition stop_reading o := Opts (o_run o) (o_help o) (o_ptdump o) (o_logging o) (o_init o) (o_format o) (o_verbose o) false (o_input o) (o_output o) (o_promela o).
Definition set_input f o := Opts (o_run o) (o_help o) (o_ptdump o) (o_logging o) (o_init o) (o_format o) (o_verbose o) (o_reading o) (Some f) (o_output o) (o_promela o).
Definition set_output f o := Opts (o_run o) (o_help o) (o_ptdump o) (o_logging o) (o_init o) (o_format o) (o_verbose o) (o_reading o) (o_input o) (Some f) (o_promela o).
Definition set_promela o := Opts (o_run o) (o_help o) (o_ptdump o) (o_logging o) (o_init o) (o_format o) (o_verbose o) (o_reading o) (o_input o) (o_output o) true.

(** what goes to stdout before main returns *)
Inductive printed := Nothing | Usage | Version (linked : bool) | Refused.
Inductive scanned := Continue (o : opts) | Return (code : Z) (p : printed).

(** argv[i][k]; behind the terminating NUL the object ends *)
Definition NUL : ascii := "000".
Fixpoint char_at (s : string) (k : nat) : out ascii :=
  match s, k with
  | EmptyString, O => Ok NUL
  | EmptyString, S _ => Crash
  | String c _, O => Ok c
  | String _ r, S k' => char_at r k'
  end.
(** tolower in the C locale; the argument is a char, which is negative for bytes above 127: undefined *)
Definition tolower (c : ascii) : out ascii :=
  let n := nat_of_ascii c in
  if (128 <=? n)%nat then Crash
  else if (65 <=? n)%nat && (n <=? 90)%nat then Ok (ascii_of_nat (n + 32)) else Ok c.
Fixpoint lower_all (s : string) : out string :=
  match s with
  | EmptyString => Ok ""
  | String c r => c' <- tolower c ;; r' <- lower_all r ;; Ok (String c' r')
  end.
(** !strncmp( s, w, strlen( w ) ) *)
Definition begins (w s : string) : bool := String.prefix w s.
Definition is (a b : ascii) : bool := Ascii.eqb a b.

(** main.c:157-268: the loop *)
Fixpoint scan_args (o : opts) (args : list string) : out scanned :=
  match args with
  | [] => Ok (Continue o)
  | a :: rest =>
      c0 <- char_at a 0 ;;
      dash <- (if o_reading o && is c0 "-" then c1 <- char_at a 1 ;; Ok (Some c1) else Ok None) ;;
      match dash with
      | Some c1 =>
          if negb (is c1 "-") then
            c2 <- char_at a 2 ;;
            if negb (is c2 NUL) && negb (is c1 "v" && is c2 "v") then Ok (Return 1 Nothing)
            else if is c1 "h" then scan_args (set_help o) rest
            else if is c1 "V" then Ok (Return 0 (Version true))
            else if is c1 "v" then
              (* lines 173-179: j runs up to 3 *)
              scan_args (more_verbose (if is c2 "v" then 2 else 1) o) rest
            else if is c1 "l" then scan_args (set_logging o) rest
            else if is c1 "s" then scan_args (set_run GR1C_MODE_SYNTAX o) rest
            else if is c1 "p" then scan_args (set_ptdump o) rest
            else if is c1 "r" then scan_args (set_run GR1C_MODE_REALIZABLE o) rest
            else if is c1 "i" then scan_args (set_run GR1C_MODE_INTERACTIVE o) rest
            else if is c1 "t" then
              match rest with
              | [] => Ok (Return 1 Nothing)
              | b :: rest' =>
                  if begins "txt" b then scan_args (set_format FORMAT_TEXT o) rest'
                  else if begins "tulip" b then scan_args (set_format FORMAT_TULIP o) rest'
                  else if begins "dot" b then scan_args (set_format FORMAT_DOT o) rest'
                  else if begins "aut" b then scan_args (set_format FORMAT_AUT o) rest'
                  else if begins "json" b then scan_args (set_format FORMAT_JSON o) rest'
                  else Ok (Return 1 Nothing)
              end
            else if is c1 "n" then
              match rest with
              | [] => Ok (Return 1 Nothing)
              | b0 :: rest' =>
                  b <- lower_all b0 ;;
                  if begins "all_env_exist_sys_init" b then scan_args (set_init_flags ALL_ENV_EXIST_SYS_INIT o) rest'
                  else if begins "all_init" b then scan_args (set_init_flags ALL_INIT o) rest'
                  else if begins "one_side_init" b then scan_args (set_init_flags ONE_SIDE_INIT o) rest'
                  else Ok (Return 1 Nothing)
              end
            else if is c1 "o" then
              match rest with
              | [] => Ok (Return 1 Nothing)
              | b :: rest' => scan_args (set_output b o) rest'
              end
            else if is c1 "P" then scan_args (set_promela o) rest
            else Ok (Return 1 Nothing)
          else
            c2 <- char_at a 2 ;;
            if is c2 NUL then scan_args (stop_reading o) rest
            else if begins "--help" a then scan_args (set_help o) rest
            else if begins "--version" a then Ok (Return 0 (Version false))
            else Ok (Return 1 Nothing)
      | None =>
          match o_input o with
          | None => match rest with
                    | [] => scan_args (set_input a o) rest
                    | _ => Ok (Return 1 Nothing)
                    end
          | Some _ => scan_args o rest
          end
      end
  end.

(** how main begins: another program takes over (execvp), main returns, or it goes on *)
Inductive start_t := Sub (program : string) (args : list string) | Stop (code : Z) (p : printed) | Go (o : opts).
(** main.c:270-311 *)
Definition after_scan (r : scanned) : start_t :=
  match r with
  | Return c p => Stop c p
  | Continue o =>
      if o_help o then Stop 0 Usage
      else
        match o_input o, o_run o with
        | None, GR1C_MODE_INTERACTIVE => Stop 1 Refused
        | _, _ =>
            match o_output o with
            | None => if o_promela o then Stop 1 Refused else Go o
            | Some _ => Go o
            end
        end
  end.
(** main.c:93-311 *)
Definition read_options (args : list string) : out start_t :=
  match args with
  | a :: rest =>
      if String.eqb a "rg" then Ok (Sub "gr1c-rg" rest)
      else if String.eqb a "patch" then Ok (Sub "gr1c-patch" rest)
      else if String.eqb a "autman" then Ok (Sub "gr1c-autman" rest)
      else
        let o := if String.eqb a "help" then set_help (stop_reading default_opts) else default_opts in
        r <- scan_args o args ;; Ok (after_scan r)
  | [] => r <- scan_args default_opts args ;; Ok (after_scan r)
  end.
