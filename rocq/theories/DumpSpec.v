(** Specification: what gr1c -p writes. Not a model of code. *)
From Coq Require Import List ZArith Bool Ascii String.
From Verif Require Import Base Strs Ptree Form RSpec FormPrint TextSpec Options OptSpec Program ProgramSpec.
Import ListNotations.
Open Scope string_scope.
Open Scope Z_scope.

(** ** Asking for it *)
Definition asked_dump (args : list string) (l : list opt) (file : option string) : Prop :=
  ~ a_command args /\ line args l file /\ no_version l /\ ~ In OHelp l /\
  In ODump l /\ ~ In OLog l /\ (forall b, ~ In (OVerbose b) l) /\
  (In OPromela l -> asked_output l <> None) /\ (asked_mode l = GR1C_MODE_INTERACTIVE -> file <> None).
Definition without_dump (l : list opt) : list opt :=
  filter (fun o => match o with ODump => false | _ => true end) l.
(** the specification with the parts that are True if they are left out *)
Definition or_true (fs : list form) : list form := match fs with [] => [FTrue] | _ => fs end.
Definition completed (R : rspec) : rspec := {|
  rs_evars := rs_evars R; rs_svars := rs_svars R; rs_einit := rs_einit R; rs_sinit := rs_sinit R;
  rs_etrans := or_true (rs_etrans R); rs_strans := or_true (rs_strans R);
  rs_egoals := rs_egoals R; rs_sgoals := or_true (rs_sgoals R) |}.
(** all variables Boolean *)
Definition without_domains (R : rspec) : rspec := {|
  rs_evars := map (fun d => (fst d, -1)) (rs_evars R); rs_svars := map (fun d => (fst d, -1)) (rs_svars R);
  rs_einit := rs_einit R; rs_sinit := rs_sinit R; rs_etrans := rs_etrans R; rs_strans := rs_strans R;
  rs_egoals := rs_egoals R; rs_sgoals := rs_sgoals R |}.

(** ** On the screen: the variables with numbers and domains, ... *)
Definition domain_text (d : Z) : string := if d =? -1 then "bool" else "{0.." ++ zdec d ++ "}".
Definition numbered_vars (i : nat) (ds : list vdecl) : string :=
  match ds with
  | [] => "(none)"
  | _ => String.concat ", " (map (fun p : nat * vdecl =>
           fst (snd p) ++ " (" ++ zdec (Z.of_nat (fst p)) ++ "; " ++ domain_text (snd (snd p)) ++ ")")
           (List.combine (seq i (List.length ds)) ds))
  end.
Definition vars_screen (R : rspec) : string :=
  "Environment variables (indices; domains): " ++ numbered_vars 0 (rs_evars R) ++ nl ++ nl ++
  "System variables (indices; domains): " ++ numbered_vars (List.length (rs_evars R)) (rs_svars R) ++ nl ++ nl.
(** ... then eight lines with labels. With the section words of a specification file in
    place of the labels, they are a specification; a line that says there is nothing stands
    for no section. *)
Definition labels : list (string * string) :=
  [("ENV:", "ENV:"); ("SYS:", "SYS:"); ("ENV INIT:", "ENVINIT:"); ("SYS INIT:", "SYSINIT:"); ("ENV TRANS:", "ENVTRANS:");
   ("SYS TRANS:", "SYSTRANS:"); ("ENV GOALS:", "ENVGOAL:"); ("SYS GOALS:", "SYSGOAL:")].
Definition labelled (bodies : list (option string)) : string :=
  String.concat "" (map (fun p : (string * string) * option string =>
    fst (fst p) ++ match snd p with Some b => b | None => "  (none)" end ++ ";" ++ nl) (List.combine labels bodies)).
Definition as_file (bodies : list (option string)) : string :=
  String.concat "" (map (fun p : (string * string) * option string =>
    match snd p with Some b => snd (fst p) ++ b ++ ";" ++ nl | None => "" end) (List.combine labels bodies)).
Definition listing_of (R : rspec) (listing : string) : Prop :=
  exists bodies, List.length bodies = 8%nat /\ listing = labelled bodies /\ text_means (as_file bodies) (without_domains R).

(** ** In the files: drawings of parse trees. [part f p s]: the node at [p] is labelled [s].
    The positions: [] is the root; the turns to a node, the last one first; true is right. *)
Definition bin_parts (f : form) : option (string * form * form) :=
  match f with
  | FAnd a b => Some ("&", a, b) | FOr a b => Some ("|", a, b)
  | FImp a b => Some ("->", a, b) | FIff a b => Some ("<->", a, b)
  | _ => None
  end.
Definition cmp_name (o : cmpop) : string :=
  match o with CEq => "=" | CNe => "!=" | CLt => "<" | CGt => ">" | CLe => "<=" | CGe => ">=" end.
Definition var_name (primed : bool) (x : string) : string := if primed then x ++ "'" else x.
Inductive part : form -> list bool -> string -> Prop :=
| part_true : part FTrue [] "1"
| part_false : part FFalse [] "0"
| part_var x : part (FVar x) [] x
| part_next x : part (FNext x) [] (x ++ "'")
| part_cmp b x o k : part (FCmp b x o k) [] (cmp_name o)
| part_cmp_var b x o k : part (FCmp b x o k) [false] (var_name b x)
| part_cmp_num b x o k : part (FCmp b x o k) [true] (zdec k)
| part_not f : part (FNot f) [] "!"
| part_not_in f p s : part f p s -> part (FNot f) (p ++ [true]) s
| part_bin f o a b : bin_parts f = Some (o, a, b) -> part f [] o
| part_left f o a b p s : bin_parts f = Some (o, a, b) -> part a p s -> part f (p ++ [false]) s
| part_right f o a b p s : bin_parts f = Some (o, a, b) -> part b p s -> part f (p ++ [true]) s.

(** statements of a DOT file: a node, an edge; names are in quotes *)
Inductive statement := Node (id : string) | Edge (id id' : string).
Definition in_quotes (s : string) : string := String "034" (s ++ String "034" "").
Definition statement_text (x : statement) : string :=
  match x with
  | Node a => in_quotes a ++ nl
  | Edge a b => in_quotes a ++ " -> " ++ in_quotes b ++ nl
  end.
Definition graph_text (l : list statement) : string :=
  "digraph PT {" ++ nl ++ String.concat "" (map statement_text l) ++ "}" ++ nl.
(** a node is named by its address and its label, on two lines *)
Definition node_name (addr : list bool -> Z) (p : list bool) (s : string) : string :=
  zdec (addr p) ++ ";" ++ String "092" ("n" ++ s).
Definition draws (addr : list bool -> Z) (f : option form) (text : string) : Prop :=
  exists l, text = graph_text l /\ NoDup l /\
    match f with
    | None => l = []
    | Some g =>
        (forall a, In (Node a) l <-> exists p s, part g p s /\ a = node_name addr p s) /\
        (forall a b, In (Edge a b) l <->
           exists p s c s', part g p s /\ part g (c :: p) s' /\ a = node_name addr p s /\ b = node_name addr (c :: p) s') /\
        (forall p s p' s', part g p s -> part g p' s' -> node_name addr p s = node_name addr p' s' -> p = p' /\ s = s')
    end.
(** the files and what they show *)
Definition five_digits (n : nat) : string :=
  let s := zdec (Z.of_nat n) in String.concat "" (repeat "0" (5 - String.length s)) ++ s.
Definition dot_names (kind : string) (fs : list form) : list (string * option form) :=
  map (fun p : nat * form => (kind ++ five_digits (fst p) ++ "_ptree.dot", Some (snd p))) (List.combine (seq 0 (List.length fs)) fs).
Definition drawings (R : rspec) : list (string * option form) :=
  ([("env_init_ptree.dot", rs_einit R); ("sys_init_ptree.dot", rs_sinit R)] ++
   dot_names "env_trans" (rs_etrans R) ++ dot_names "sys_trans" (rs_strans R) ++
   dot_names "env_goal" (rs_egoals R) ++ dot_names "sys_goal" (rs_sgoals R))%list.
(** different nodes have different addresses *)
Definition addresses (addr : string -> list bool -> Z) : Prop :=
  forall f p q, addr f p = addr f q -> p = q.
Definition drawn (addr : string -> list bool -> Z) (l : list (string * option form)) (files : list (string * string)) : Prop :=
  Forall2 (fun x y => fst y = fst x /\ draws (addr (fst x)) (snd x) (snd y)) l files.
Definition echoed (screen : string) (r r' : outcome) : Prop :=
  exists c t f, r = Exits c t f /\ r' = Exits c (screen ++ t) f.
