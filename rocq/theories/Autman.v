(** Model of aux/autman.c: the program gr1c-autman, from the command line to the exit code.

    Not modelled: the extra output of -v and -l (the outcome [Other]) and messages on
    stderr. [args] is argv[1], argv[2], ... without NUL characters. If the output file
    cannot be opened the model still composes the text, which is then dropped. The run option
    AUTMAN_VARTYPES (-ss) is left out: line 67 refuses the argument "-ss" before. *)
From Coq Require Import List ZArith Bool Ascii String.
From Verif Require Import Base Strs Ptree Automaton Nonbool AutIO AutWrite Parse Hotswap Spin Output Options Program.
Import ListNotations.
Open Scope string_scope.
Open Scope Z_scope.

(** autman.c:37-40 *)
Inductive autman_run := AUTMAN_SYNTAX | AUTMAN_VERMODEL | AUTMAN_CONVERT.
(** autman.c:50-62; spc_file_index, output_file_index, in_filename_index are replaced by the
    arguments they lead to *)
Record aopts := AOpts {
  ao_run : autman_run; ao_format : output_format; ao_spec : option string; ao_len : Z;
  ao_output : option string; ao_input : option string; ao_verbose : Z; ao_logging : bool
}.
Definition default_aopts : aopts := AOpts AUTMAN_SYNTAX FORMAT_JSON None (-1) None None 0 false.
Definition aset_run r o := AOpts r (ao_format o) (ao_spec o) (ao_len o) (ao_output o) (ao_input o) (ao_verbose o) (ao_logging o).
Definition aset_format f o := AOpts AUTMAN_CONVERT f (ao_spec o) (ao_len o) (ao_output o) (ao_input o) (ao_verbose o) (ao_logging o).
Definition aset_spec f o := AOpts (ao_run o) (ao_format o) (Some f) (ao_len o) (ao_output o) (ao_input o) (ao_verbose o) (ao_logging o).
Definition aset_len n o := AOpts (ao_run o) (ao_format o) (ao_spec o) n (ao_output o) (ao_input o) (ao_verbose o) (ao_logging o).
Definition aset_output f o := AOpts (ao_run o) (ao_format o) (ao_spec o) (ao_len o) (Some f) (ao_input o) (ao_verbose o) (ao_logging o).
Definition aset_input f o := AOpts (ao_run o) (ao_format o) (ao_spec o) (ao_len o) (ao_output o) (Some f) (ao_verbose o) (ao_logging o).
(** verbose is an unsigned char *)
Definition aset_verbose k o := AOpts (ao_run o) (ao_format o) (ao_spec o) (ao_len o) (ao_output o) (ao_input o) ((ao_verbose o + k) mod 256) (ao_logging o).
Definition aset_logging o := AOpts (ao_run o) (ao_format o) (ao_spec o) (ao_len o) (ao_output o) (ao_input o) (ao_verbose o) true.

Inductive ascanned := AContinue (o : aopts) | AReturn (code : Z) (p : printed).
(** autman.c:65-167: the loop *)
Fixpoint autman_args (o : aopts) (args : list string) : out ascanned :=
  match args with
  | [] => Ok (AContinue o)
  | a :: rest =>
      c0 <- char_at a 0 ;;
      if is c0 "-" then
        c2 <- char_at a 2 ;;
        c1 <- char_at a 1 ;;
        if negb (is c2 NUL) && negb (is c1 "v" && is c2 "v") then Ok (AReturn 1 Nothing)
        else if is c1 "h" then Ok (AReturn 0 Usage)
        else if is c1 "V" then Ok (AReturn 0 (Version true))
        else if is c1 "v" then
          (* lines 100-106: j runs up to 3 *)
          autman_args (aset_verbose (if is c2 "v" then 2 else 1) o) rest
        else if is c1 "l" then autman_args (aset_logging o) rest
        else if is c1 "s" then autman_args (aset_run AUTMAN_SYNTAX o) rest
        else if is c1 "t" then
          match rest with
          | [] => Ok (AReturn 1 Nothing)
          | b :: rest' =>
              if begins "txt" b then autman_args (aset_format FORMAT_TEXT o) rest'
              else if begins "tulip" b then autman_args (aset_format FORMAT_TULIP o) rest'
              else if begins "dot" b then autman_args (aset_format FORMAT_DOT o) rest'
              else if begins "aut" b then autman_args (aset_format FORMAT_AUT o) rest'
              else if begins "json" b then autman_args (aset_format FORMAT_JSON o) rest'
              else Ok (AReturn 1 Nothing)
          end
        else if is c1 "i" then
          match rest with [] => Ok (AReturn 1 Nothing) | b :: rest' => autman_args (aset_spec b o) rest' end
        else if is c1 "L" then
          match rest with
          | [] => Ok (AReturn 1 Nothing)
          | b :: rest' => autman_args (aset_len (to_int (fst (strtol b))) o) rest'
          end
        else if is c1 "P" then autman_args (aset_run AUTMAN_VERMODEL o) rest
        else if is c1 "o" then
          match rest with [] => Ok (AReturn 1 Nothing) | b :: rest' => autman_args (aset_output b o) rest' end
        else Ok (AReturn 1 Nothing)
      else autman_args (aset_input a o) rest
  end.

(** autman.c:169-195: true if main returns 1 *)
Definition autman_refuses (o : aopts) : bool :=
  match ao_spec o with
  | Some _ => false
  | None =>
      match ao_run o with
      | AUTMAN_VERMODEL => true
      | AUTMAN_CONVERT =>
          match ao_format o with
          | FORMAT_DOT | FORMAT_JSON | FORMAT_TULIP => true
          | _ => ao_len o <? 1
          end
      | AUTMAN_SYNTAX => ao_len o <? 1
      end
  end.
(** autman.c:215-240; the specification, or the value that main returns *)
Inductive reference := RefSpec (spc : option raw_t) (state_len : Z) | RefError (code : Z).
Definition read_reference (W : world) (o : aopts) : out reference :=
  match ao_spec o with
  | None => Ok (RefSpec None (ao_len o))
  | Some f =>
      match w_file W f with
      | None => Ok (RefError (-1))
      | Some text =>
          p <- yyparse text ;;
          match p with
          | None => Ok (RefError 2)
          | Some raw => Ok (RefSpec (Some raw) (Z.of_nat (tree_size (r_evars raw) + tree_size (r_svars raw))))
          end
      end
  end.
(** autman.c:242-254 *)
Definition autman_input (W : world) (o : aopts) : option string :=
  match ao_input o with
  | None => Some (w_stdin W)
  | Some f => if begins "-" f then Some (w_stdin W) else w_file W f
  end.
(** autman.c:283-318: what goes to stdout and what goes to [fp]. Without a specification, spc
    is not initialized; it is then not used (lines 169-184), here: [Crash]. *)
Definition autman_write (ptr : nat -> string) (date : string) (fuel : nat) (o : aopts) (spc : option raw_t) (state_len : Z)
    (L : list lnode) (version : Z) : out (string * string) :=
  match ao_run o with
  | AUTMAN_SYNTAX => Ok ((zdec version ++ nl)%string, "")
  | AUTMAN_VERMODEL =>
      head <- of_loaded L ;;
      match spc with
      | None => Crash
      | Some s =>
          d <- spin_aut_dump fuel (match ao_output o with None => true | Some _ => false end) head
                 (r_evars s) (r_svars s) (r_einit s) (r_sinit s) (r_etrans s) (r_strans s) (r_egoals s) (r_sgoals s) ;;
          Ok (match snd (fst d) with Some f => f | None => "" end, fst (fst d))
      end
  | AUTMAN_CONVERT =>
      head <- of_loaded L ;;
      match ao_format o, spc with
      | FORMAT_TEXT, _ => t <- list_aut_dump head state_len ;; Ok ("", t)
      | FORMAT_AUT, _ => t <- aut_aut_dump head state_len ;; Ok ("", t)
      | _, None => Crash
      | FORMAT_DOT, Some s => r <- dot_aut_dump (DotFlags false false true) head (r_evars s) (r_svars s) ;; Ok ("", fst r)
      | FORMAT_JSON, Some s => r <- json_aut_dump ptr date head (r_evars s) (r_svars s) ;; Ok ("", fst r)
      | FORMAT_TULIP, Some s => r <- tulip_aut_dump head (r_evars s) (r_svars s) ;; Ok ("", fst r)
      end
  end.
(** autman.c:46-324; [fp] is stdout without -o (line 280) *)
Definition autman (ptr : nat -> string) (date : string) (fuel : nat) (W : world) (args : list string) : out outcome :=
  s <- autman_args default_aopts args ;;
  match s with
  | AReturn c p => Ok (Prints c p)
  | AContinue o =>
      if autman_refuses o then Ok (Prints 1 Nothing)
      else if negb (ao_verbose o =? 0) || ao_logging o then Ok Other
      else
        r <- read_reference W o ;;
        match r with
        | RefError c => Ok (Exits c "" None)
        | RefSpec spc state_len =>
            match autman_input W o with
            | None => Ok (Exits (-1) "" None)
            | Some text =>
                l <- aut_aut_loadver state_len text ;;
                match l with
                | None => Ok (Exits 3 "" None)
                | Some (L, version) =>
                    t <- autman_write ptr date fuel o spc state_len L version ;;
                    match ao_output o with
                    | None => Ok (Exits 0 (fst t ++ snd t)%string None)
                    | Some f => if w_writable W f then Ok (Exits 0 (fst t) (Some (f, snd t))) else Ok (Exits (-1) "" None)
                    end
                end
            end
        end
  end.
