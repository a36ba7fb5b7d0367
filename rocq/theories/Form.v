(** Specification: formulas of the gr1c input language and their meaning.

    Not a model of code. [form] is the abstract syntax of [propformula] and
    [tpropformula] (src/gr1c_parse.y:347-556, doc/spc_format.md). A valuation
    gives every variable an integer; Boolean variables are true at 1. *)
From Coq Require Import List ZArith Bool String.
From Verif Require Import Base Strs Ptree.
Import ListNotations.
Open Scope string_scope.
Open Scope Z_scope.

Inductive cmpop := CEq | CNe | CLt | CGt | CLe | CGe.
Inductive form :=
| FTrue | FFalse
| FVar (x : string)                    (** x *)
| FNext (x : string)                   (** x' *)
| FCmp (primed : bool) (x : string) (o : cmpop) (k : Z)   (** x = 3, x' < 2, ... *)
| FNot (f : form)
| FAnd (f g : form) | FOr (f g : form) | FImp (f g : form) | FIff (f g : form).

Definition cmp_sem (o : cmpop) (a k : Z) : bool :=
  match o with
  | CEq => a =? k | CNe => negb (a =? k) | CLt => a <? k | CGt => k <? a
  | CLe => a <=? k | CGe => k <=? a
  end.

(** meaning at current valuation [cur] and next valuation [nxt] *)
Fixpoint sem (cur nxt : string -> Z) (f : form) : bool :=
  match f with
  | FTrue => true
  | FFalse => false
  | FVar x => cur x =? 1
  | FNext x => nxt x =? 1
  | FCmp p x o k => cmp_sem o (if p then nxt x else cur x) k
  | FNot f => negb (sem cur nxt f)
  | FAnd f g => sem cur nxt f && sem cur nxt g
  | FOr f g => sem cur nxt f || sem cur nxt g
  | FImp f g => implb (sem cur nxt f) (sem cur nxt g)
  | FIff f g => Bool.eqb (sem cur nxt f) (sem cur nxt g)
  end.

(** variables occurring unprimed, primed *)
Fixpoint fvars (f : form) : list string :=
  match f with
  | FTrue | FFalse => []
  | FVar x => [x]
  | FNext _ => []
  | FCmp p x _ _ => if p then [] else [x]
  | FNot f => fvars f
  | FAnd f g | FOr f g | FImp f g | FIff f g => fvars f ++ fvars g
  end.
Fixpoint fnexts (f : form) : list string :=
  match f with
  | FTrue | FFalse => []
  | FVar _ => []
  | FNext x => [x]
  | FCmp p x _ _ => if p then [x] else []
  | FNot f => fnexts f
  | FAnd f g | FOr f g | FImp f g | FIff f g => fnexts f ++ fnexts g
  end.
(** variables standing alone, and variables compared with numbers; unprimed for
    [p = false], primed for [p = true] *)
Fixpoint bares (p : bool) (f : form) : list string :=
  match f with
  | FVar y => if p then [] else [y]
  | FNext y => if p then [y] else []
  | FNot f => bares p f
  | FAnd f g | FOr f g | FImp f g | FIff f g => bares p f ++ bares p g
  | _ => []
  end.
Fixpoint cmps (p : bool) (f : form) : list string :=
  match f with
  | FCmp q y _ _ => if Bool.eqb p q then [y] else []
  | FNot f => cmps p f
  | FAnd f g | FOr f g | FImp f g | FIff f g => cmps p f ++ cmps p g
  | _ => []
  end.
(** the comparison [x != 0] (or [x' != 0]) occurs *)
Fixpoint has_ne0 (x : string) (f : form) : bool :=
  match f with
  | FCmp _ y CNe k => String.eqb y x && (k =? 0)
  | FNot f => has_ne0 x f
  | FAnd f g | FOr f g | FImp f g | FIff f g => has_ne0 x f || has_ne0 x g
  | _ => false
  end.
(** no comparison with a number *)
Fixpoint boolean (f : form) : bool :=
  match f with
  | FCmp _ _ _ _ => false
  | FNot f => boolean f
  | FAnd f g | FOr f g | FImp f g | FIff f g => boolean f && boolean g
  | _ => true
  end.

Definition cmp_ty (o : cmpop) : ty :=
  match o with
  | CEq => PT_EQUALS | CNe => PT_NOTEQ | CLt => PT_LT | CGt => PT_GT | CLe => PT_LE | CGe => PT_GE
  end.
(** the parse tree standing for a formula *)
Definition leaf_var (p : bool) (x : string) : ptree :=
  pnd (if p then PT_NEXT_VARIABLE else PT_VARIABLE) (Some x) 0 NULL NULL.
Definition leaf_const (k : Z) : ptree := pnd PT_CONSTANT None k NULL NULL.
Definition binop (t : ty) (l r : ptree) : ptree := pnd t None 0 l r.
Fixpoint tree_of (f : form) : ptree :=
  match f with
  | FTrue => leaf_const 1
  | FFalse => leaf_const 0
  | FVar x => leaf_var false x
  | FNext x => leaf_var true x
  | FCmp p x o k => binop (cmp_ty o) (leaf_var p x) (leaf_const k)
  | FNot f => binop PT_NEG NULL (tree_of f)
  | FAnd f g => binop PT_AND (tree_of f) (tree_of g)
  | FOr f g => binop PT_OR (tree_of f) (tree_of g)
  | FImp f g => binop PT_IMPLIES (tree_of f) (tree_of g)
  | FIff f g => binop PT_EQUIV (tree_of f) (tree_of g)
  end.

(** a variable list: names with domains (-1: Boolean, k >= 0: integers 0..k) *)
Definition vdecl := (string * Z)%type.
Fixpoint vlist (vs : list vdecl) : ptree :=
  match vs with
  | [] => NULL
  | (x, d) :: r => pnd PT_VARIABLE (Some x) d (vlist r) NULL
  end.
Definition names (vs : list vdecl) : list string := map fst vs.

(** value of variable [x] in the state vector [s] whose components belong to the
    variables [xs] in this order *)
Fixpoint lookup (xs : list string) (s : vec) (x : string) : Z :=
  match xs, s with
  | y :: xs', b :: s' => if String.eqb y x then b else lookup xs' s' x
  | _, _ => 0
  end.
