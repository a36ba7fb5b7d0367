(** Specification: the fragment of Promela and of Spin's LTL that gr1c writes, and what it
    means (https://spinroot.com/spin/Man). Not a model of code.

    All variables are in one store of integers; [bool] variables are 0 or 1. One
    statement is one step; d_step and atomic sequences are one step, too. Reserved words
    and the width of types are left out. *)
From Coq Require Import List ZArith Bool Arith Ascii String.
From Verif Require Import Base Strs AutIO.
Import ListNotations.
Open Scope list_scope.
Open Scope string_scope.
Open Scope Z_scope.

Definition memory := string -> Z.
Definition put (x : string) (v : Z) (s : memory) : memory := fun y => if String.eqb y x then v else s y.

(** names: letters, digits and underscores, no digit at the beginning *)
Definition name_char (first : bool) (c : ascii) : bool :=
  let n := nat_of_ascii c in
  ((65 <=? n) && (n <=? 90) || (97 <=? n) && (n <=? 122) || (n =? 95) ||
   negb first && (48 <=? n) && (n <=? 57))%nat.
Fixpoint name_chars (s : string) : bool :=
  match s with EmptyString => true | String c r => name_char false c && name_chars r end.
(** words that cannot be used as names *)
Definition keywords : list string :=
  ["active"; "assert"; "atomic"; "bit"; "bool"; "break"; "byte"; "chan"; "d_step"; "D_proctype"; "do"; "else";
   "empty"; "enabled"; "eval"; "false"; "fi"; "for"; "full"; "get_priority"; "goto"; "hidden"; "if"; "in"; "init";
   "inline"; "int"; "len"; "local"; "ltl"; "mtype"; "nempty"; "never"; "nfull"; "notrace"; "np_"; "od"; "of";
   "pc_value"; "pid"; "print"; "printf"; "printm"; "priority"; "proctype"; "provided"; "return"; "run"; "select";
   "set_priority"; "short"; "show"; "skip"; "timeout"; "trace"; "true"; "typedef"; "unless"; "unsigned"; "xr"; "xs";
   "_"; "_last"; "_nr_pr"; "_pid"; "_priority"; "STDIN"; "c_code"; "c_decl"; "c_expr"; "c_state"; "c_track"].
Definition pname (s : string) : Prop :=
  match s with EmptyString => False | String c r => name_char true c = true /\ name_chars r = true end /\
  ~ In s keywords.

(** ** Expressions *)
Inductive relop := REq | RNe | RLt | RGt | RLe | RGe.
Inductive pexp :=
| PNum (k : Z) | PVar (x : string) | PNot (a : pexp) | PRel (o : relop) (a b : pexp)
| PAnd (a b : pexp) | POr (a b : pexp).
Definition b2z (b : bool) : Z := if b then 1 else 0.
Definition true_at (v : Z) : bool := negb (v =? 0).
Definition rel_sem (o : relop) (a b : Z) : bool :=
  match o with
  | REq => a =? b | RNe => negb (a =? b) | RLt => a <? b | RGt => b <? a | RLe => a <=? b | RGe => b <=? a
  end.
Fixpoint peval (s : memory) (e : pexp) : Z :=
  match e with
  | PNum k => k
  | PVar x => s x
  | PNot a => b2z (negb (true_at (peval s a)))
  | PRel o a b => b2z (rel_sem o (peval s a) (peval s b))
  | PAnd a b => b2z (true_at (peval s a) && true_at (peval s b))
  | POr a b => b2z (true_at (peval s a) || true_at (peval s b))
  end.
Definition rel_text (o : relop) : string :=
  match o with REq => "==" | RNe => "!=" | RLt => "<" | RGt => ">" | RLe => "<=" | RGe => ">=" end.
Definition ordering (o : relop) : bool := match o with REq | RNe => false | _ => true end.
(** how expressions are written (numbers with their sign); levels: 0 unary, 1 ordering, 2 equality, 3 and, 4 or.
    Binary operators associate to the left. *)
Inductive ptext : nat -> string -> pexp -> Prop :=
| pt_num : forall k, ptext 0 (zdec k) (PNum k)
| pt_true : ptext 0 "true" (PNum 1)
| pt_false : ptext 0 "false" (PNum 0)
| pt_var : forall x, pname x -> ptext 0 x (PVar x)
| pt_paren : forall t e, ptext 4 t e -> ptext 0 ("(" ++ t ++ ")") e
| pt_not : forall t e, ptext 0 t e -> ptext 0 ("!" ++ t) (PNot e)
| pt_up : forall n t e, ptext n t e -> ptext (S n) t e
| pt_ord : forall o a b x y, ordering o = true -> ptext 1 a x -> ptext 0 b y -> ptext 1 (a ++ rel_text o ++ b) (PRel o x y)
| pt_equ : forall o a b x y, ordering o = false -> ptext 2 a x -> ptext 1 b y -> ptext 2 (a ++ rel_text o ++ b) (PRel o x y)
| pt_and : forall a b x y op, op = "&&" \/ op = " && " -> ptext 3 a x -> ptext 2 b y -> ptext 3 (a ++ op ++ b) (PAnd x y)
| pt_or : forall a b x y op, op = "||" \/ op = " || " -> ptext 4 a x -> ptext 3 b y -> ptext 4 (a ++ op ++ b) (POr x y).

(** ** LTL *)
Inductive ltl :=
| LProp (x : string) | LNot (f : ltl) | LAnd (f g : ltl) | LOr (f g : ltl) | LImp (f g : ltl)
| LNext (f : ltl) | LAlways (f : ltl) | LEventually (f : ltl).
Definition ptrace := nat -> memory.
(** [defs]: the macros; any other proposition is a variable *)
Definition definitions := list (string * pexp).
Fixpoint meaning (defs : definitions) (x : string) : pexp :=
  match defs with
  | [] => PVar x
  | (y, e) :: r => if String.eqb y x then e else meaning r x
  end.
Fixpoint sat (defs : definitions) (w : ptrace) (n : nat) (f : ltl) : Prop :=
  match f with
  | LProp x => true_at (peval (w n) (meaning defs x)) = true
  | LNot f => ~ sat defs w n f
  | LAnd f g => sat defs w n f /\ sat defs w n g
  | LOr f g => sat defs w n f \/ sat defs w n g
  | LImp f g => sat defs w n f -> sat defs w n g
  | LNext f => sat defs w (S n) f
  | LAlways f => forall m, (n <= m)%nat -> sat defs w m f
  | LEventually f => exists m, (n <= m)%nat /\ sat defs w m f
  end.
(** how formulas are written; levels: 0 unary, 1 and, 2 or, 3 implies (to the right) *)
Inductive ltext : nat -> string -> ltl -> Prop :=
| lt_prop : forall x, pname x -> ltext 0 x (LProp x)
| lt_paren : forall t f, ltext 3 t f -> ltext 0 ("(" ++ t ++ ")") f
| lt_not : forall t f, ltext 0 t f -> ltext 0 ("!" ++ t) (LNot f)
| lt_next : forall t f, ltext 0 t f -> ltext 0 ("X " ++ t) (LNext f)
| lt_always : forall t f b, b = "" \/ b = " " -> ltext 0 t f -> ltext 0 ("[]" ++ b ++ t) (LAlways f)
| lt_event : forall t f b, b = "" \/ b = " " -> ltext 0 t f -> ltext 0 ("<>" ++ b ++ t) (LEventually f)
| lt_up : forall n t f, ltext n t f -> ltext (S n) t f
| lt_and : forall a b f g, ltext 1 a f -> ltext 0 b g -> ltext 1 (a ++ " && " ++ b) (LAnd f g)
| lt_or : forall a b f g, ltext 2 a f -> ltext 1 b g -> ltext 2 (a ++ " || " ++ b) (LOr f g)
| lt_imp : forall a b f g, ltext 2 a f -> ltext 3 b g -> ltext 3 (a ++ " -> " ++ b) (LImp f g).

(** ** Programs *)
(** the tests that occur in guards *)
Inductive test := IsTrue (x : string) | IsFalse (x : string) | IsValue (x : string) (k : Z).
Definition passes (s : memory) (t : test) : bool :=
  match t with
  | IsTrue x => true_at (s x)
  | IsFalse x => negb (true_at (s x))
  | IsValue x k => s x =? k
  end.
Inductive const := CBool (b : bool) | CInt (k : Z).
Definition cval (c : const) : Z := match c with CBool b => b2z b | CInt k => k end.
Definition assigns := list (string * const).
Inductive stmt :=
| Assign (x : string) (c : const)
| If (alts : list (list test * list stmt)) (otherwise : option (list stmt))
| DStepIf (alts : list assigns)
| Copies (l : list (string * string)).
Definition put_all (l : assigns) (s : memory) : memory :=
  fold_left (fun s a => put (fst a) (cval (snd a)) s) l s.
Definition copy_all (l : list (string * string)) (s : memory) : memory :=
  fold_left (fun s a => put (fst a) (s (snd a)) s) l s.
(** executing one statement: what is left to do of it, and the store *)
Inductive exec : memory -> stmt -> list stmt -> memory -> Prop :=
| ex_assign : forall s x c, exec s (Assign x c) [] (put x (cval c) s)
| ex_if : forall s alts o g b, In (g, b) alts -> forallb (passes s) g = true -> exec s (If alts o) b s
| ex_else : forall s alts b, (forall g b, In (g, b) alts -> forallb (passes s) g = false) ->
    exec s (If alts (Some b)) b s
| ex_dstep : forall s alts a, In a alts -> exec s (DStepIf alts) [] (put_all a s)
| ex_copies : forall s l, exec s (Copies l) [] (copy_all l s).
(** the program: [start], then [loop] for ever *)
Record program := Program { pg_start : list stmt; pg_loop : list stmt }.
Definition config := (list stmt * memory)%type.
Definition or_loop (P : program) (k : list stmt) : list stmt := match k with [] => pg_loop P | _ => k end.
Definition pstep (P : program) (c c' : config) : Prop :=
  exists i r b, fst c = i :: r /\ exec (snd c) i b (snd c') /\ fst c' = or_loop P (b ++ r)%list.
(** all variables are 0 at the beginning *)
Definition is_run (P : program) (w : nat -> config) : Prop :=
  w 0%nat = (pg_start P, fun _ => 0) /\ forall n, pstep P (w n) (w (S n)).
(** the program obeys the formula *)
Definition obeys (P : program) (defs : definitions) (f : ltl) : Prop :=
  forall w, is_run P w -> sat defs (fun n => snd (w n)) 0 f.

(** ** Files. The parts of a file: *)
Record spin_file := File {
  f_types : list (string * bool);            (* variables; whether they are Boolean *)
  f_defs : list (string * string);           (* macros: name and text *)
  f_start : list (Z * assigns);              (* initial node and values *)
  f_moves : option (list assigns);           (* environment moves, if any *)
  f_edges : list (Z * list test * Z * assigns) (* node, environment, next node, system *)
}.
Definition nx (x : string) : string := x ++ "_next".
Definition const_text (c : const) : string :=
  match c with CBool true => "true" | CBool false => "false" | CInt k => zdec k end.
Definition test_text (t : test) : string :=
  match t with IsTrue x => x | IsFalse x => "!" ++ x | IsValue x k => x ++ " == " ++ zdec k end.
Definition set_text (a : string * const) : string := fst a ++ "=" ++ const_text (snd a).
Definition lines (l : list string) : string := fold_right (fun s r => nl ++ s ++ r)%string "" l.
Definition cats (l : list string) : string := fold_right append "" l.
Definition type_text (d : string * bool) : string :=
  let t := if snd d then "bool " else "int " in t ++ fst d ++ ";" ++ nl ++ t ++ nx (fst d) ++ ";" ++ nl.
Definition start_text (b : Z * assigns) : string :=
  ":: (1) -> current_node=" ++ zdec (fst b) ++ cats (map (fun a => "; " ++ set_text a) (snd b)).
Definition move_text (b : assigns) : string := ":: (1) -> " ++ concat "; " (map set_text b).
Definition edge_text (b : Z * list test * Z * assigns) : string :=
  let '(n, g, m, l) := b in
  ":: (current_node == " ++ zdec n ++ cats (map (fun t => " && " ++ test_text t) g) ++ ") -> current_node=" ++
  zdec m ++ cats (map (fun a => "; " ++ set_text a) l).
Definition no_moves (p : spin_file) : bool := match f_moves p with None => true | Some _ => false end.
Definition model_text (p : spin_file) : string :=
  lines (map (fun d => "#define " ++ fst d ++ " " ++ snd d) (f_defs p)) ++ nl ++ nl ++
  cats (map type_text (f_types p)) ++
  (if no_moves p then "" else nl ++ "bool checketrans = false;  /* Check env transition rule? */") ++
  nl ++ "bool checkstrans = false;  /* Check sys transition rule? */" ++ nl ++
  "bool pmlfault = false;" ++ nl ++ nl ++ "init" ++ nl ++ "{" ++ nl ++ "int current_node;" ++ nl ++ nl ++
  "d_step {" ++ nl ++ "if" ++ lines (map start_text (f_start p)) ++ nl ++ "fi" ++ nl ++ "};" ++ nl ++ nl ++
  match f_moves p with
  | None => ""
  | Some l => "ENV_MOVE:" ++ nl ++ "if" ++ lines (map move_text l) ++ nl ++ "fi;" ++ nl ++
              "checketrans = true; checketrans = false;" ++ nl ++ nl
  end ++
  "SYS_MOVE:" ++ nl ++ "if" ++ lines (map edge_text (f_edges p)) ++ nl ++ ":: else -> pmlfault=true" ++ nl ++ "fi;" ++ nl ++
  "checkstrans = true; checkstrans = false;" ++ nl ++ nl ++
  "atomic { " ++ concat "; " (map (fun d => fst d ++ " = " ++ nx (fst d)) (f_types p)) ++ " };" ++ nl ++ nl ++
  "goto " ++ (if no_moves p then "SYS_MOVE" else "ENV_MOVE") ++ nl ++ "}" ++ nl ++ nl.
Definition sets (l : assigns) : list stmt := map (fun a => Assign (fst a) (snd a)) l.
Definition flash (x : string) : list stmt := [Assign x (CBool true); Assign x (CBool false)].
Definition model_program (p : spin_file) : program := {|
  pg_start := [DStepIf (map (fun b => ("current_node", CInt (fst b)) :: snd b) (f_start p))];
  pg_loop :=
   (match f_moves p with
    | None => []
    | Some l => If (map (fun b => ([], sets b)) l) None :: flash "checketrans"
    end ++
    If (map (fun b => let '(n, g, m, l) := b in
                (IsValue "current_node" n :: g, sets (("current_node", CInt m) :: l))) (f_edges p))
       (Some [Assign "pmlfault" (CBool true)]) ::
    flash "checkstrans" ++
    [Copies (map (fun d => (fst d, nx (fst d))) (f_types p))])%list
|}.
(** the formula is in a comment at the top *)
Definition spin_text (formula : string) (p : spin_file) : string :=
  "/* Spin Promela model created by gr1c, version 0.13.4 */" ++ nl ++ nl ++
  "/* LTL formula" ++ nl ++ formula ++ nl ++ "*/" ++ nl ++ nl ++ model_text p.
(** [defs] is what the macros of [p] say *)
Definition defines (p : spin_file) (defs : definitions) : Prop :=
  Forall2 (fun d e => fst d = fst e /\ ptext 4 (snd d) (snd e)) (f_defs p) defs.
(** [text] is the model [P] with definitions [defs]; the formula in its comment says [f] *)
Definition spin_model (text formula : string) (P : program) (defs : definitions) (f : ltl) : Prop :=
  exists p, text = spin_text formula p /\ ltext 3 formula f /\ defines p defs /\ P = model_program p.
