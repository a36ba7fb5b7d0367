(** Specification: the command line of gr1c-autman (its usage message) and what its runs
    should do. Not a model of code. *)
From Coq Require Import List ZArith Bool Arith Ascii String.
From Verif Require Import Base Strs Ptree Form Solve FSpec RSpec Automaton AutIO AutIOSpec ReadSpec JsonSpec FormatSpec LexSpec Parse TextSpec Output Options OptSpec Program.
Import ListNotations.
Open Scope string_scope.
Open Scope list_scope.
Open Scope Z_scope.

(** ** The command line *)
Inductive aopt :=
| AHelp | AVersion | AVerbose (twice : bool) | ALog | ASyntax | AType (f : output_format) | ASpec (file : string)
| ALength (n : Z) | APromela | AOutput (file : string) | AInput (file : string).
(** the number at the beginning of an argument *)
Definition says_number (s : string) (n : Z) : Prop :=
  exists t r, s = (t ++ r)%string /\ num_text t n /\ starts_digit r = false.
Inductive awrites : aopt -> list string -> Prop :=
| aw_h : awrites AHelp ["-h"]
| aw_V : awrites AVersion ["-V"]
| aw_v : awrites (AVerbose false) ["-v"]
| aw_vv : forall x, awrites (AVerbose true) [("-vv" ++ x)%string]
| aw_l : awrites ALog ["-l"]
| aw_s : awrites ASyntax ["-s"]
| aw_P : awrites APromela ["-P"]
| aw_t : forall f x, awrites (AType f) ["-t"; (type_name f ++ x)%string]
| aw_i : forall file, awrites (ASpec file) ["-i"; file]
| aw_o : forall file, awrites (AOutput file) ["-o"; file]
| aw_L : forall s n, says_number s n -> int_ok n -> awrites (ALength n) ["-L"; s]
| aw_L0 : forall s, no_int s -> awrites (ALength 0) ["-L"; s]
| aw_file : forall f, String.prefix "-" f = false -> awrites (AInput f) [f].
Definition aline (args : list string) (l : list aopt) : Prop :=
  exists ws, Forall2 awrites l ws /\ args = List.concat ws.
(** the last of several options of one kind counts *)
Definition latest {A} (f : aopt -> option A) (d : A) (l : list aopt) : A :=
  last (flat_map (fun o => match f o with Some a => [a] | None => [] end) l) d.
Inductive amode := CheckSyntax | WriteModel | Convert (f : output_format).
Definition asked_task : list aopt -> amode :=
  latest (fun o => match o with
    | ASyntax => Some CheckSyntax | APromela => Some WriteModel | AType f => Some (Convert f) | _ => None end) CheckSyntax.
Definition named_spec : list aopt -> option string :=
  latest (fun o => match o with ASpec f => Some (Some f) | _ => None end) None.
Definition named_input : list aopt -> option string :=
  latest (fun o => match o with AInput f => Some (Some f) | _ => None end) None.
Definition named_output : list aopt -> option string :=
  latest (fun o => match o with AOutput f => Some (Some f) | _ => None end) None.
Definition given_length : list aopt -> option Z :=
  latest (fun o => match o with ALength n => Some (Some n) | _ => None end) None.
(** no help, no version, no option that adds output *)
Definition plainly (args : list string) (l : list aopt) : Prop :=
  aline args l /\ ~ In AHelp l /\ ~ In AVersion l /\ ~ In ALog l /\ forall b, ~ In (AVerbose b) l.
(** tasks that need the specification *)
Definition needs_spec (m : amode) : Prop := In m [WriteModel; Convert FORMAT_DOT; Convert FORMAT_JSON; Convert FORMAT_TULIP].
(** the options say enough *)
Definition enough (l : list aopt) : Prop :=
  named_spec l <> None \/ (~ needs_spec (asked_task l) /\ exists n, given_length l = Some n /\ 1 <= n).

(** ** Conversions *)
(** the rows of a file, in the order of their IDs *)
Definition in_sequence (rows : list frow) : Prop := forall i r, nth_error rows i = Some r -> f_id r = Z.of_nat i.
(** a strategy file: comments, blank lines and nodes in sequence *)
Definition strategy_file (n : Z) (text : string) (rows : list frow) : Prop :=
  exists pre ls, good_file n pre ls /\ text = AutIOSpec.file_text pre ls /\ rows = rows_of ls /\ in_sequence rows.
Definition attributes_only : dot_style := DotStyle false false true.
(** [text] describes the nodes [rows] in the format *)
Definition conveys (key : nat -> string) (date : string) (fmt : output_format) (E S : list (string * Z)) (rows : list frow) (text : string) : Prop :=
  match fmt with
  | FORMAT_TEXT => text = list_file rows
  | FORMAT_AUT => text = AutIOSpec.file_text [] (map FNode rows)
  | FORMAT_TULIP => xml_file text (tulip_xml E S rows)
  | FORMAT_DOT => (forall r, In r rows -> dot_short attributes_only E S r) -> text = dot_file (dot_statements attributes_only E S rows)
  | FORMAT_JSON => exists A, NoDup (map aid A) /\ numbered A rows /\ json_file text (strategy_json key date E S A)
  end.
(** [text] goes to the output file, or stdout; [said] to stdout in any case *)
Definition handed (W : world) (l : list aopt) (said text : string) (r : outcome) : Prop :=
  match named_output l with
  | None => r = Exits 0 (said ++ text)%string None
  | Some f => (w_writable W f = true /\ r = Exits 0 said (Some (f, text))) \/ (w_writable W f = false /\ r = Exits (-1) "" None)
  end.
Definition input_of (W : world) (l : list aopt) : option string :=
  match named_input l with None => Some (w_stdin W) | Some f => w_file W f end.

(** the length of state vectors, as far as the options tell *)
Definition told (W : world) (l : list aopt) (n : Z) : Prop :=
  match named_spec l with
  | None => given_length l = Some n /\ 1 <= n
  | Some f => exists text R, w_file W f = Some text /\ text_means text R /\ n = Z.of_nat (List.length (rs_vars R))
  end.
(** options up to the first that stops the program *)
Definition up_to (args : list string) (stop rest : list string) : Prop :=
  exists l ws, Forall2 awrites l ws /\ ~ In AHelp l /\ ~ In AVersion l /\ args = List.concat ws ++ stop ++ rest.
