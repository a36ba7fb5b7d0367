(** Specification: what a run of gr1c-patch from the command line should do (its usage
    message and doc/). Not a model of code. *)
From Coq Require Import List ZArith Bool Ascii String.
From Verif Require Import Base Game Strs Ptree Form Support EnumProofs Solve FSpec Automaton AutProofs RSpec MainSpec SynthSpec ListSpec ReadSpec AutIOSpec JsonSpec FormatSpec LexSpec Syntax TextSpec
  Metric MetricSpec HotSpec AddSpec Output Options OptSpec Program ProgramSpec AutmanSpec GrPatch.
From Verif Require InteractSpec PatchSpec.
Import ListNotations.
Open Scope string_scope.
Open Scope list_scope.
Open Scope Z_scope.

(** ** The command line: options and files in any order; the first file is the
    specification *)
Inductive popt :=
| PHelp | PVersion (linked : bool) | PVerbose (twice : bool) | PLog | PDump | PType (f : output_format) | PMetric (vars : string)
| PAut (file : string) | PChanges (file : string) | PGoal (form : string) | PRemove (k : Z) | POut (file : string).
(** a number as it arrives in an int: cut off at the range of a long, then the low 32 bits *)
Definition stored (z : Z) : Z := as_int (Z.max (- 2 ^ 63) (Z.min z (2 ^ 63 - 1))).
(** the argument of -r may have any text behind the number; without a number it means 0 *)
Inductive pwrites : popt -> list string -> Prop :=
| pw_h : pwrites PHelp ["-h"]
| pw_help : forall x, pwrites PHelp [("--help" ++ x)%string]
| pw_V : pwrites (PVersion true) ["-V"]
| pw_version : forall x, pwrites (PVersion false) [("--version" ++ x)%string]
| pw_v : pwrites (PVerbose false) ["-v"]
| pw_vv : forall x, pwrites (PVerbose true) [("-vv" ++ x)%string]
| pw_l : pwrites PLog ["-l"]
| pw_p : pwrites PDump ["-p"]
| pw_t : forall f x, pwrites (PType f) ["-t"; (type_name f ++ x)%string]
| pw_m : forall vars, pwrites (PMetric vars) ["-m"; vars]
| pw_a : forall file, pwrites (PAut file) ["-a"; file]
| pw_e : forall file, pwrites (PChanges file) ["-e"; file]
| pw_f : forall form, pwrites (PGoal form) ["-f"; form]
| pw_r : forall s z, says_number s z -> 0 <= stored z -> pwrites (PRemove (stored z)) ["-r"; s]
| pw_r0 : forall s, no_int s -> pwrites (PRemove 0) ["-r"; s]
| pw_o : forall file, pwrites (POut file) ["-o"; file].
Inductive pline : list string -> list popt -> list string -> Prop :=
| pl_nil : pline [] [] []
| pl_opt : forall o w args l files, pwrites o w -> pline args l files -> pline (w ++ args) (o :: l) files
| pl_file : forall f args l files, String.prefix "-" f = false -> pline args l files -> pline (f :: args) l (f :: files)
| pl_dashes : forall fs, pline ("--" :: fs) [] fs.
(** an option that prints the version behind a good line; what follows it is not looked at *)
Inductive pversion (b : bool) : list string -> Prop :=
| pv_here : forall w rest, pwrites (PVersion b) w -> pversion b (w ++ rest)
| pv_opt : forall o w args, (forall c, o <> PVersion c) -> pwrites o w -> pversion b args -> pversion b (w ++ args)
| pv_file : forall f args, String.prefix "-" f = false -> pversion b args -> pversion b (f :: args).

(** the last of several options of one kind counts *)
Definition final {A} (f : popt -> option A) (d : A) (l : list popt) : A :=
  last (flat_map (fun o => match f o with Some a => [a] | None => [] end) l) d.
Definition the_format : list popt -> output_format :=
  final (fun o => match o with PType f => Some f | _ => None end) FORMAT_JSON.
Definition the_metric : list popt -> option string :=
  final (fun o => match o with PMetric s => Some (Some s) | _ => None end) None.
Definition the_aut : list popt -> option string :=
  final (fun o => match o with PAut s => Some (Some s) | _ => None end) None.
Definition the_changes : list popt -> option string :=
  final (fun o => match o with PChanges s => Some (Some s) | _ => None end) None.
Definition the_goal : list popt -> option string :=
  final (fun o => match o with PGoal s => Some (Some s) | _ => None end) None.
Definition the_removal : list popt -> option Z :=
  final (fun o => match o with PRemove k => Some (Some k) | _ => None end) None.
Definition the_output : list popt -> option string :=
  final (fun o => match o with POut s => Some (Some s) | _ => None end) None.
Definition no_pversion (l : list popt) : Prop := forall b, ~ In (PVersion b) l.
Definition pquiet (l : list popt) : Prop := ~ In PDump l /\ ~ In PLog l /\ forall b, ~ In (PVerbose b) l.
(** what is asked for; -e goes before -f, -f before -r *)
Inductive request := Change (file : string) | Add (form : string) | Remove (k : Z).
Definition asked_for (l : list popt) : option request :=
  match the_changes l, the_goal l, the_removal l with
  | Some f, _, _ => Some (Change f)
  | None, Some g, _ => Some (Add g)
  | None, None, Some k => Some (Remove k)
  | None, None, None => None
  end.
(** options that cannot be used together, or need another one *)
Definition conflict (l : list popt) : Prop :=
  (the_changes l <> None /\ the_goal l <> None) \/ (asked_for l <> None /\ the_aut l = None).
(** strategy and specification would both come from stdin *)
Definition both_stdin (l : list popt) (files : list string) : Prop :=
  files = [] /\ exists a, the_aut l = Some a /\ String.prefix "-" a = true.

(** the settings that go on to the patching *)
Fixpoint pverbosity (l : list popt) : Z :=
  match l with [] => 0 | PVerbose b :: r => (if b then 2 else 1) + pverbosity r | _ :: r => pverbosity r end.
Definition psettings (l : list popt) (files : list string) (o : popts) : Prop :=
  po_format o = the_format l /\ po_metric o = the_metric l /\ po_edges o = the_changes l /\ po_aut o = the_aut l /\
  po_formula o = the_goal l /\ po_remove o = (match the_removal l with Some k => k | None => -1 end) /\
  po_output o = the_output l /\ po_input o = hd_error files /\
  (po_ptdump o = true <-> In PDump l) /\ (po_logging o = true <-> In PLog l) /\ po_verbose o = pverbosity l mod 256.

(** ** Runs *)
(** the program is asked to go on with these options *)
Definition patch_asked (args : list string) (l : list popt) (files : list string) (q : request) (a : string) : Prop :=
  pline args l files /\ no_pversion l /\ ~ In PHelp l /\ pquiet l /\ ~ conflict l /\ ~ both_stdin l files /\
  asked_for l = Some q /\ the_aut l = Some a.
(** the text of the strategy; any name that begins with a dash is stdin *)
Definition aut_text (W : world) (a : string) (text : string) : Prop :=
  if String.prefix "-" a then text = w_stdin W else w_file W a = Some text.
Definition handed_out (W : world) (l : list popt) (text : string) (r : outcome) : Prop :=
  match the_output l with
  | None => r = Exits 0 text None
  | Some f => w_writable W f = true /\ r = Exits 0 "" (Some (f, text))
  end.
Definition no_out_file (W : world) (l : list popt) : Prop :=
  exists f, the_output l = Some f /\ w_writable W f = false.
(** the file holds the strategy [A] for [R], as written by gr1c -t aut *)
Definition strategy_text (R : rspec) (A : aut) (text : string) : Prop :=
  let n := Z.of_nat (List.length (rs_vars R)) in
  correct (fspec_of R) A /\ AutIOSpec.writable n A /\ short_lines text /\
  exists rows, numbered A rows /\ text = AutIOSpec.file_text [] (map FNode rows).

(** the specification is there *)
Definition spec_given (W : world) (files : list string) (R : rspec) : Prop :=
  (exists text, input_text W (hd_error files) text /\ text_means text R) /\ form_ok UNDEFINED_INIT R /\ usable R.
(** and the strategy [A] for it *)
Definition patch_input (W : world) (files : list string) (a : string) (R : rspec) (A : aut) : Prop :=
  spec_given W files R /\ exists text, aut_text W a text /\ strategy_text R A text.
(** the names given with -m, separated by spaces; each is a variable of [R], and no other
    variable or bit begins with it *)
Definition measured (R : rspec) (l : list popt) (xs : list string) : Prop :=
  match the_metric l with None => xs = [] | Some m => spaced xs m end /\
  forall x, In x xs -> is_word x /\ In x (names (rs_vars R)) /\ own_prefix (rs_vars R) x.
(** the strategy [B] is written as asked *)
Definition writes_out (key : nat -> string) (date : string) (W : world) (l : list popt) (R : rspec) (B : aut) (r : outcome) : Prop :=
  exists text, describes key date (the_format l) R B text /\ handed_out W l text r.

(** *** -f *)
(** the argument of -f is a formula *)
Definition formula_means (s : string) (g : form) : Prop :=
  exists ys, text_symbols (s ++ String "010" "") ys /\ reads false LIff ys g.
Definition goal_typed (R : rspec) (g : form) : Prop := state_typed R g /\ no_ne0 R g.
(** every bit pattern of an integer variable is a value *)
Definition full_domains (R : rspec) : Prop :=
  forall x d, In (x, d) (rs_vars R) -> 0 <= d -> d + 1 = 2 ^ width d.
(** the least distance of a state with [f] to one with [g], in the values of [xs]; -1 if there
    are no such states *)
Definition value_goal_dist (xs : list string) (R : rspec) (f g : form) (x : Z) : Prop :=
  let F := fspec_of R in
  let pairs := fun p : vec * vec => In (fst p) (fs_states F) /\ In (snd p) (fs_states F) /\
    holds F f (fst p) = true /\ holds F g (snd p) = true in
  ((exists p, pairs p) -> least pairs (fun p => value_dist (rs_vars R) xs (snd p) (fst p)) x) /\
  ((forall p, ~ pairs p) -> x = -1).
(** the new goal comes behind goal [i]: the last one, or the first one that is nearest *)
Definition comes_behind (xs : list string) (R : rspec) (g : form) (i : nat) : Prop :=
  let k := List.length (rs_sgoals R) in
  (i < k)%nat /\ (xs = [] -> S i = k) /\
  (xs <> [] -> full_domains R -> exists d : nat -> Z,
     (forall j, (j < k)%nat -> value_goal_dist xs R (nth j (rs_sgoals R) FTrue) g (d j)) /\
     (forall j, (j < k)%nat -> d i <= d j) /\ forall j, (j < i)%nat -> d i < d j).

(** the argument of -f, if there is one, is a formula *)
Definition goal_readable (l : list popt) : Prop :=
  match the_goal l with None => True | Some s => exists g, formula_means s g end.
(** and one about states of [R] *)
Definition goal_fits (R : rspec) (l : list popt) : Prop :=
  match the_goal l with None => True | Some s => exists g, formula_means s g /\ goal_typed R g end.

(** *** -r *)
(** how many system goals there are: none given means one that always holds *)
Definition goal_count (R : rspec) : nat := Nat.max 1 (List.length (rs_sgoals R)).
(** the environment can always move *)
Definition env_moves (R : rspec) : Prop :=
  forall s, In s (fs_states (fspec_of R)) -> exists e, legal_env (game_of (fspec_of R)) s e.

(** *** -e *)
(** all variables are Boolean *)
Definition no_ints (R : rspec) : Prop := forall x d, In (x, d) (rs_vars R) -> d = -1.
(** the change file names the states [N] and the changes [cs] *)
Definition change_given (W : world) (R : rspec) (f : string) (N : list vec) (cs : list InteractSpec.command) : Prop :=
  (exists text, w_file W f = Some text /\ PatchSpec.change_file N cs text) /\
  no_ints R /\ rs_svars R <> [] /\ rs_sgoals R <> [] /\
  (forall s, In s N -> In s (fs_states (fspec_of R))) /\ Forall (InteractSpec.valid (fspec_of R)) cs /\
  forallb PatchSpec.is_change cs = true.

(** ** All together *)
(** the command line asks for [q], with the options [l]; there are the specification [R] and
    the strategy [A]; distances are to be measured in [xs]; orc, alloc, key, date: see [tools],
    [keys_ok] *)
Record ready (orc : oracle) (alloc : nat -> aut -> nat) (key : nat -> string) (date : string) (W : world)
    (args : list string) (l : list popt) (q : request) (R : rspec) (A : aut) (xs : list string) : Prop := {
  rd_input : exists files a, patch_asked args l files q a /\ patch_input W files a R A;
  rd_measured : measured R l xs;
  rd_tools : tools R orc alloc;
  rd_keys : keys_ok key;
  rd_date : chars plain date
}.
(** the same strategy with other node addresses *)
Definition same_strategy (A B : aut) : Prop :=
  exists g : nat -> nat, (forall i j, In i (ids A) -> In j (ids A) -> g i = g j -> i = j) /\
    B = map (fun x => Automaton.Node (g (aid x)) (ainit x) (astate x) (Automaton.amode x) (argrad x) (map g (atrans x))) A.
(** the initial conditions are about the variables of one side only *)
Definition one_sided (R : rspec) : Prop :=
  opt_all (fun f => incl (fvars f) (names (rs_evars R))) (rs_einit R) /\
  opt_all (fun f => incl (fvars f) (names (rs_svars R))) (rs_sinit R).
