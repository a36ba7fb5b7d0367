(** Properties C16-C18: building and translating formula trees (src/ptree.c).

    Reading guide. [form] and [sem] (Form.v) are the independent definition of
    formulas and their meaning; [tree_of f] is the parse tree of [f]. *)
From Coq Require Import List ZArith Bool Arith String.
From Verif Require Import Base Bdd Strs Ptree Form PtreeProofs.
Import ListNotations.
Open Scope string_scope.
Open Scope list_scope.
Open Scope nat_scope.

(** C16: over a list [vs] of n variables and a manager with 2n BDD variables, the
    BDD of a formula whose variables are all listed takes at (s, s') the truth
    value of the formula at current state s and next state s'. *)
Theorem C16_formula_to_BDD : forall vs m, m = 2 * List.length vs ->
  forall f, boolean f = true ->
  incl (fvars f) (names vs) -> incl (fnexts f) (names vs) ->
  exists d, ptree_BDD m (tree_of f) (vlist vs) = Ok d /\ wf m d /\
  forall s s', bitvec (List.length vs) s -> bitvec (List.length vs) s' ->
    ev d (s ++ s') = sem (lookup (names vs) s) (lookup (names vs) s') f.
Proof. exact ptree_BDD_ok. Qed.
Print Assumptions C16_formula_to_BDD.

(** a variable that is not listed stops the program *)
Theorem C16_unknown_variable : forall vs m f, boolean f = true ->
  (exists x, (In x (fvars f) \/ In x (fnexts f)) /\ ~ In x (names vs)) ->
  ptree_BDD m (tree_of f) (vlist vs) = Crash.
Proof. exact ptree_BDD_missing. Qed.
Print Assumptions C16_unknown_variable.

Definition C16_vs : list vdecl := [("a", -1); ("b", -1)]%Z.
Definition C16_f : form := FIff (FImp (FVar "a") (FNext "b")) (FNot (FVar "b")).
Example C16_instance :
  incl (fvars C16_f) (names C16_vs) /\ incl (fnexts C16_f) (names C16_vs) /\
  match ptree_BDD 4 (tree_of C16_f) (vlist C16_vs) with
  | Ok d => (ev d [1;0;0;0]%Z, ev d [1;0;0;1]%Z, ev d [1;1;1;0]%Z, ev d [0;1;0;0]%Z)
            = (false, true, true, false)
  | _ => False
  end.
Proof.
  split; [|split]; try (intros x Hx; simpl in *; intuition auto). vm_compute. reflexivity.
Qed.

(** C17: replaying the parser's calls for a formula (operands first, [rpn]) builds
    the tree of the formula; with operands already waiting on the stack it puts
    the formula on top of them, so the operator that follows finds them. *)
Theorem C17_rpn_builds_tree : forall f, fold_left push (rpn f) NULL = tree_of f.
Proof. exact rpn_single. Qed.
Print Assumptions C17_rpn_builds_tree.
Theorem C17_rpn_stack : forall f fs,
  fold_left push (rpn f) (stack_of fs) = stack_of (f :: fs).
Proof. exact rpn_stack. Qed.
Print Assumptions C17_rpn_stack.
Example C17_instance :
  fold_left push [TTerm PT_VARIABLE (Some "a") 0%Z; TTerm PT_VARIABLE (Some "b") 0%Z;
                  TOp PT_NEG; TTerm PT_NEXT_VARIABLE (Some "a") 0%Z; TOp PT_OR; TOp PT_IMPLIES] NULL
  = tree_of (FImp (FVar "a") (FOr (FNot (FVar "b")) (FNext "a"))).
Proof. vm_compute. reflexivity. Qed.

(** C18: conjunction, disjunction and left-associated implication of a nonempty
    list; NULL for the empty list. *)
Theorem C18_merge_and : forall f fs, exists g,
  merge_ptrees (map tree_of (f :: fs)) PT_AND = tree_of g /\
  forall cur nxt, sem cur nxt g = forallb (sem cur nxt) (f :: fs).
Proof. intros f fs. exists (chain FAnd f fs). exact (conj (merge_and f fs) (fun c n => chain_and_sem c n fs f)). Qed.
Print Assumptions C18_merge_and.
Theorem C18_merge_or : forall f fs, exists g,
  merge_ptrees (map tree_of (f :: fs)) PT_OR = tree_of g /\
  forall cur nxt, sem cur nxt g = existsb (sem cur nxt) (f :: fs).
Proof. intros f fs. exists (chain FOr f fs). exact (conj (merge_or f fs) (fun c n => chain_or_sem c n fs f)). Qed.
Print Assumptions C18_merge_or.
Theorem C18_merge_implies : forall f fs,
  merge_ptrees (map tree_of (f :: fs)) PT_IMPLIES = tree_of (fold_left FImp fs f).
Proof. exact merge_imp. Qed.
Print Assumptions C18_merge_implies.
Theorem C18_merge_empty : forall t, merge_ptrees [] t = NULL.
Proof. exact (fun t => eq_refl). Qed.
Print Assumptions C18_merge_empty.
Example C18_instance :
  merge_ptrees (map tree_of [FVar "a"; FVar "b"; FVar "c"]) PT_IMPLIES
  = tree_of (FImp (FImp (FVar "a") (FVar "b")) (FVar "c")).
Proof. reflexivity. Qed.
