(** Specification: lists of items, extreme values, well-formed trees, and the
    scoping rules of specifications. Not a model of code. *)
From Coq Require Import List ZArith Bool String.
From Verif Require Import Base Ptree Form Solve FSpec Nonbool RSpec.
Import ListNotations.
Open Scope string_scope.
Open Scope list_scope.
Open Scope Z_scope.

Record item := Item { it_type : ty; it_name : option string; it_value : Z }.
Fixpoint ilist (l : list item) : ptree :=
  match l with
  | [] => NULL
  | i :: r => pnd (it_type i) (it_name i) (it_value i) (ilist r) NULL
  end.
(** what a new item carries: names belong to variables, values to variables and
    constants *)
Definition new_item (t : ty) (n : option string) (v : Z) : item :=
  match t with
  | PT_VARIABLE | PT_NEXT_VARIABLE => Item t n v
  | PT_CONSTANT => Item t None v
  | _ => Item t None 0
  end.
Definition remove_nth {A} (k : nat) (l : list A) : list A := firstn k l ++ skipn (S k) l.
(** same type, and same name (variables) or value (constants) *)
Definition same_item (t : ty) (n : option string) (v : Z) (i : item) : Prop :=
  it_type i = t /\
  match t with
  | PT_VARIABLE | PT_NEXT_VARIABLE => n <> None /\ it_name i = n
  | PT_CONSTANT => it_value i = v
  | _ => True
  end.

(** all constants of a tree *)
Fixpoint consts (t : ptree) : list Z :=
  match t with
  | NULL => []
  | pnd ty _ v l r => (match ty with PT_CONSTANT => [v] | _ => [] end) ++ consts l ++ consts r
  end.
Definition least (le : Z -> Z -> Prop) (l : list Z) (m : Z) : Prop := In m l /\ forall x, In x l -> le m x.
(** [m] is extreme among [l], or the sentinel and [l] is empty *)
Definition best_of (le : Z -> Z -> Prop) (l : list Z) (m : Z) : Prop :=
  (l = [] /\ m = noval) \/ least le l m.

(** the constants of equalities [y = k] whose variable [y] starts with [name] *)
Fixpoint eq_consts (name : string) (f : form) : list Z :=
  match f with
  | FCmp _ y CEq k => if String.prefix name y then [k] else []
  | FNot f => eq_consts name f
  | FAnd f g | FOr f g | FImp f g | FIff f g => eq_consts name f ++ eq_consts name g
  | _ => []
  end.

(** the constants of equalities with the variable [name] itself *)
Fixpoint own_consts (name : string) (f : form) : list Z :=
  match f with
  | FCmp _ y CEq k => if String.eqb y name then [k] else []
  | FNot f => own_consts name f
  | FAnd f g | FOr f g | FImp f g | FIff f g => own_consts name f ++ own_consts name g
  | _ => []
  end.

(** what init_ptree can produce: names belong to variables, values to variables
    and constants *)
Fixpoint canonical (t : ptree) : Prop :=
  match t with
  | NULL => True
  | pnd ty n v l r =>
      (match ty with
       | PT_VARIABLE | PT_NEXT_VARIABLE => True
       | PT_CONSTANT => n = None
       | _ => n = None /\ v = 0
       end) /\ canonical l /\ canonical r
  end.

(** variables of [f] outside of [vs], primed variables outside of [ws] (with a
    prime) *)
Definition offends (f : form) (vs ws : list vdecl) (w : string) : Prop :=
  (In w (fvars f) /\ ~ In w (names vs)) \/
  exists x, w = (x ++ "'")%string /\ In x (fnexts f) /\ ~ In x (names ws).

(** doc/spc_format.md and solve.h:17-20: which variables may occur where *)
Definition scoped_in (vs ws : list vdecl) (f : form) : Prop :=
  incl (fvars f) (names vs) /\ incl (fnexts f) (names ws).
Definition form_ok (flags : init_flags_t) (R : rspec) : Prop :=
  rs_vars R <> [] /\
  (flags = ALL_ENV_EXIST_SYS_INIT ->
     opt_all (scoped_in (rs_evars R) []) (rs_einit R) /\ opt_all (scoped_in (rs_svars R) []) (rs_sinit R)) /\
  (flags = ONE_SIDE_INIT -> rs_einit R = None \/ rs_sinit R = None) /\
  opt_all (scoped_in (rs_vars R) []) (rs_einit R) /\
  opt_all (scoped_in (rs_vars R) []) (rs_sinit R) /\
  (forall f, In f (rs_etrans R) -> scoped_in (rs_vars R) (rs_evars R) f) /\
  (forall f, In f (rs_strans R) -> scoped_in (rs_vars R) (rs_vars R) f) /\
  (forall f, In f (rs_egoals R) -> scoped_in (rs_vars R) [] f) /\
  (forall f, In f (rs_sgoals R) -> scoped_in (rs_vars R) [] f).
