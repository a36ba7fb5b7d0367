(** Specification: the command line of gr1c (the usage message and doc/). Not a model
    of code.

    [line args l file]: the arguments write down the options [l] and the name of an
    input file, or none. *)
From Coq Require Import List ZArith Bool Arith Ascii String.
From Verif Require Import Base Solve Output JsonSpec Options.
Import ListNotations.
Open Scope string_scope.
Open Scope list_scope.

Inductive opt :=
| OHelp | OVersion (linked : bool) | OVerbose (twice : bool) | OLog | OSyntax | ODump | ORealizable | OInteractive
| OType (f : output_format) | OInit (f : init_flags_t) | OOutput (file : string) | OPromela.
Definition type_name (f : output_format) : string :=
  match f with
  | FORMAT_TEXT => "txt" | FORMAT_TULIP => "tulip" | FORMAT_DOT => "dot" | FORMAT_AUT => "aut" | FORMAT_JSON => "json"
  end.
Definition letter (lower upper : ascii) : Prop :=
  (97 <= nat_of_ascii lower <= 122 /\ nat_of_ascii upper = nat_of_ascii lower - 32)%nat.
(** [t] is [s] but for some capital letters *)
Inductive spelled_like : string -> string -> Prop :=
| sl_nil : spelled_like "" ""
| sl_same : forall c s t, spelled_like s t -> spelled_like (String c s) (String c t)
| sl_upper : forall c d s t, letter c d -> spelled_like s t -> spelled_like (String c s) (String d t).
Inductive init_name : init_flags_t -> string -> Prop :=
| in_aes : init_name ALL_ENV_EXIST_SYS_INIT "all_env_exist_sys_init"
| in_all : init_name ALL_INIT "all_init"
| in_one : init_name ONE_SIDE_INIT "one_side_init".
Definition seven_bit (s : string) : Prop := chars (fun c => (nat_of_ascii c < 128)%nat) s.
(** how an option is written. Text behind the names (the [x]) is ignored. *)
Inductive writes : opt -> list string -> Prop :=
| w_h : writes OHelp ["-h"]
| w_help : forall x, writes OHelp [("--help" ++ x)%string]
| w_V : writes (OVersion true) ["-V"]
| w_version : forall x, writes (OVersion false) [("--version" ++ x)%string]
| w_v : writes (OVerbose false) ["-v"]
| w_vv : forall x, writes (OVerbose true) [("-vv" ++ x)%string]
| w_l : writes OLog ["-l"]
| w_s : writes OSyntax ["-s"]
| w_p : writes ODump ["-p"]
| w_r : writes ORealizable ["-r"]
| w_i : writes OInteractive ["-i"]
| w_P : writes OPromela ["-P"]
| w_t : forall f x, writes (OType f) ["-t"; (type_name f ++ x)%string]
| w_n : forall f n s x, init_name f n -> spelled_like n s -> seven_bit x -> writes (OInit f) ["-n"; (s ++ x)%string]
| w_o : forall file, writes (OOutput file) ["-o"; file].
(** what follows the options *)
Inductive input_part : list string -> option string -> Prop :=
| ip_none : input_part [] None
| ip_file : forall f, String.prefix "-" f = false -> input_part [f] (Some f)
| ip_dashes : input_part ["--"] None
| ip_dashes_file : forall f, input_part ["--"; f] (Some f).
Definition line (args : list string) (l : list opt) (file : option string) : Prop :=
  exists ws tl, Forall2 writes l ws /\ input_part tl file /\ args = List.concat ws ++ tl.

(** ** Meaning: the last of several options of one kind counts *)
Definition chosen {A} (f : opt -> option A) (d : A) (l : list opt) : A :=
  last (flat_map (fun o => match f o with Some a => [a] | None => [] end) l) d.
Definition mode_of (o : opt) : option run_option_t :=
  match o with
  | OSyntax => Some GR1C_MODE_SYNTAX | ORealizable => Some GR1C_MODE_REALIZABLE
  | OInteractive => Some GR1C_MODE_INTERACTIVE | _ => None
  end.
Definition type_of (o : opt) : option output_format := match o with OType f => Some f | _ => None end.
Definition init_of (o : opt) : option init_flags_t := match o with OInit f => Some f | _ => None end.
Definition output_of (o : opt) : option (option string) := match o with OOutput f => Some (Some f) | _ => None end.
Definition no_version (l : list opt) : Prop := forall b, ~ In (OVersion b) l.
(** how often "v" is asked for *)
Fixpoint verbosity (l : list opt) : Z :=
  match l with [] => 0 | OVerbose b :: r => (if b then 2 else 1) + verbosity r | _ :: r => verbosity r end%Z.
(** the settings [o] are those given by the options *)
Definition settings (l : list opt) (file : option string) (o : opts) : Prop :=
  o_run o = chosen mode_of GR1C_MODE_SYNTHESIS l /\
  o_format o = chosen type_of FORMAT_JSON l /\
  o_init o = chosen init_of ALL_ENV_EXIST_SYS_INIT l /\
  o_output o = chosen output_of None l /\
  o_input o = file /\
  (o_ptdump o = true <-> In ODump l) /\ (o_logging o = true <-> In OLog l) /\ (o_promela o = true <-> In OPromela l) /\
  o_verbose o = (verbosity l mod 256)%Z.
(** no option is given that adds output *)
Definition quiet (l : list opt) : Prop :=
  ~ In ODump l /\ ~ In OLog l /\ ~ In OPromela l /\ forall b, ~ In (OVerbose b) l.
(** options that print the version; what follows them is not looked at *)
Definition asks_version (args : list string) (b : bool) : Prop :=
  exists l ws w rest, Forall2 writes l ws /\ no_version l /\ writes (OVersion b) w /\
    args = List.concat ws ++ w ++ rest.
(** arguments are C strings; a lone dash, and bytes above 127, are excluded where needed *)
Definition c_string (a : string) : Prop := chars (fun c => c <> NUL) a.
Definition a_command (args : list string) : Prop :=
  exists a rest, args = a :: rest /\ In a ["rg"; "patch"; "autman"; "help"].
