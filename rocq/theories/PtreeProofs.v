(** Proofs about the model of ptree.c (lists, stack building, merging, BDDs). *)
From Coq Require Import List ZArith Lia Bool Arith String.
From Verif Require Import Base Bdd Strs Ptree Form.
Import ListNotations.
Open Scope string_scope.
Open Scope list_scope.
Open Scope Z_scope.

Lemma ty_eqb_refl : forall t, ty_eqb t t = true.
Proof. intros []; reflexivity. Qed.
Lemma ty_eqb_eq : forall a b, ty_eqb a b = true <-> a = b.
Proof. intros a b. unfold ty_eqb. destruct (ty_eq_dec a b); split; congruence. Qed.

(** ** Variable lists *)
Lemma tree_size_vlist : forall vs, tree_size (vlist vs) = List.length vs.
Proof. induction vs as [|[x d] vs IH]; simpl; auto. rewrite IH. lia. Qed.

Fixpoint pos_of (x : string) (xs : list string) : option nat :=
  match xs with
  | [] => None
  | y :: r => if String.eqb y x then Some O else option_map S (pos_of x r)
  end.

Lemma find_from_vlist : forall vs x v k, 
  find_list_from (vlist vs) PT_VARIABLE (Some x) v k =
  match pos_of x (names vs) with Some i => k + Z.of_nat i | None => -1 end.
Proof.
  induction vs as [|[y d] vs IH]; intros x v k; simpl; auto.
  unfold item_matches. simpl. destruct (String.eqb y x); simpl.
  - lia.
  - rewrite IH. destruct (pos_of x (names vs)); simpl; auto. lia.
Qed.
Lemma find_vlist : forall vs x v, 
  find_list_item (vlist vs) PT_VARIABLE (Some x) v =
  match pos_of x (names vs) with Some i => Z.of_nat i | None => -1 end.
Proof. intros. unfold find_list_item. rewrite find_from_vlist. destruct (pos_of _ _); auto. Qed.

Lemma pos_of_In : forall x xs, In x xs <-> exists i, pos_of x xs = Some i.
Proof.
  induction xs as [|y xs IH]; simpl.
  - split; [tauto|]. intros [i H]; discriminate.
  - destruct (String.eqb_spec y x) as [->|Hn].
    + split; eauto.
    + rewrite IH. split.
      * intros [H|[i H]]; [congruence|]. rewrite H. simpl. eauto.
      * intros [i H]. right. destruct (pos_of x xs); [eauto|discriminate].
Qed.
Lemma pos_of_lt : forall x xs i, pos_of x xs = Some i -> (i < List.length xs)%nat.
Proof.
  induction xs as [|y xs IH]; simpl; intros i H; [discriminate|].
  destruct (String.eqb y x). inversion H; lia.
  destruct (pos_of x xs) as [j|]; [|discriminate]. inversion H; subst.
  specialize (IH j eq_refl). lia.
Qed.
Lemma pos_of_nth : forall x xs i, pos_of x xs = Some i -> nth i xs "" = x.
Proof.
  induction xs as [|y xs IH]; simpl; intros i H; [discriminate|].
  destruct (String.eqb_spec y x). inversion H; subst; auto.
  destruct (pos_of x xs) as [j|]; [|discriminate]. inversion H; subst. auto.
Qed.
Lemma lookup_pos : forall xs s x i, List.length s = List.length xs ->
  pos_of x xs = Some i -> lookup xs s x = nth i s 0.
Proof.
  induction xs as [|y xs IH]; intros s x i Hl H; [discriminate|].
  destruct s as [|b s]; [discriminate|]. simpl in *.
  destruct (String.eqb y x). inversion H; auto.
  destruct (pos_of x xs) as [j|] eqn:E; [|discriminate]. inversion H; subst.
  apply IH; auto.
Qed.

(** ** C16 *)
Section ToBDD.
  Variables (vs : list vdecl) (m : nat).
  Let n := List.length vs.
  Hypothesis Hm : m = (2 * n)%nat.
  Let xs := names vs.

  Lemma ptree_BDD_ok : forall f, boolean f = true ->
    incl (fvars f) xs -> incl (fnexts f) xs ->
    exists d, ptree_BDD m (tree_of f) (vlist vs) = Ok d /\ wf m d /\
    forall s s', bitvec n s -> bitvec n s' ->
      ev d (s ++ s') = sem (lookup xs s) (lookup xs s') f.
  Proof.
    assert (Hbv : forall s s', bitvec n s -> bitvec n s' -> bitvec m (s ++ s')).
    { intros s s' H H'. rewrite Hm. replace (2 * n)%nat with (n + n)%nat by lia.
      apply bitvec_app; auto. }
    assert (Hlen : List.length xs = n) by (unfold xs, names; apply map_length).
    assert (Hbin : forall (f g : form), incl (fvars f ++ fvars g) xs ->
      incl (fnexts f ++ fnexts g) xs -> boolean f && boolean g = true ->
      (boolean f = true -> incl (fvars f) xs -> incl (fnexts f) xs -> 
        exists d, ptree_BDD m (tree_of f) (vlist vs) = Ok d /\ wf m d /\
        forall s s', bitvec n s -> bitvec n s' ->
          ev d (s ++ s') = sem (lookup xs s) (lookup xs s') f) ->
      (boolean g = true -> incl (fvars g) xs -> incl (fnexts g) xs -> 
        exists d, ptree_BDD m (tree_of g) (vlist vs) = Ok d /\ wf m d /\
        forall s s', bitvec n s -> bitvec n s' ->
          ev d (s ++ s') = sem (lookup xs s) (lookup xs s') g) ->
      exists a b, ptree_BDD m (tree_of f) (vlist vs) = Ok a /\ 
        ptree_BDD m (tree_of g) (vlist vs) = Ok b /\
        (forall s s', bitvec n s -> bitvec n s' ->
          ev a (s ++ s') = sem (lookup xs s) (lookup xs s') f) /\
        (forall s s', bitvec n s -> bitvec n s' ->
          ev b (s ++ s') = sem (lookup xs s) (lookup xs s') g)).
    { intros f g Hv Hn Hb IHf IHg. apply andb_true_iff in Hb. destruct Hb as [Hb1 Hb2].
      destruct IHf as (a & Ha & _ & Hea); auto.
      { eapply incl_tran; [apply incl_appl, incl_refl|exact Hv]. }
      { eapply incl_tran; [apply incl_appl, incl_refl|exact Hn]. }
      destruct IHg as (b & Hbb & _ & Heb); auto.
      { eapply incl_tran; [apply incl_appr, incl_refl|exact Hv]. }
      { eapply incl_tran; [apply incl_appr, incl_refl|exact Hn]. }
      exists a, b. auto. }
    induction f as [| |x|x|p x o k|f IHf|f IHf g IHg|f IHf g IHg|f IHf g IHg|f IHf g IHg];
      intros Hb Hv Hn; simpl in Hb; try discriminate; simpl.
    - exists (bOne m). split; auto. split; [apply wf_mk|]. intros. apply ev_One; auto.
    - exists (bNot m (bOne m)). split; auto. split; [apply wf_mk|].
      intros. rewrite ev_Not, ev_One by auto. reflexivity.
    - rewrite find_vlist. fold xs.
      destruct (proj1 (pos_of_In x xs)) as [i Hi]; [apply Hv; simpl; auto|]. rewrite Hi.
      destruct (Z.of_nat i <? 0) eqn:E; [apply Z.ltb_lt in E; lia|].
      eexists. split; [reflexivity|]. split; [apply wf_mk|]. intros s s' Hs Hs'.
      rewrite ev_And, ev_One, ev_Var by auto. rewrite Nat2Z.id.
      pose proof (pos_of_lt _ _ _ Hi). rewrite app_nth1 by (destruct Hs; unfold vec in *; lia).
      simpl. rewrite (lookup_pos xs s x i) by (auto; destruct Hs; unfold vec in *; lia). reflexivity.
    - rewrite find_vlist. fold xs.
      destruct (proj1 (pos_of_In x xs)) as [i Hi]; [apply Hn; simpl; auto|]. rewrite Hi.
      destruct (Z.of_nat i <? 0) eqn:E; [apply Z.ltb_lt in E; lia|].
      eexists. split; [reflexivity|]. split; [apply wf_mk|]. intros s s' Hs Hs'.
      rewrite ev_And, ev_One, ev_Var by auto. rewrite Nat2Z.id, tree_size_vlist. fold n.
      pose proof (pos_of_lt _ _ _ Hi).
      rewrite app_nth2 by (destruct Hs; unfold vec in *; lia).
      destruct Hs as [Hs _]. unfold vec in *. rewrite Hs.
      replace (n + i - n)%nat with i by lia. simpl.
      rewrite (lookup_pos xs s' x i) by (auto; destruct Hs'; unfold vec in *; lia). reflexivity.
    - destruct IHf as (a & Ha & Hw & He); auto. rewrite Ha. simpl.
      eexists. split; [reflexivity|]. split; [apply wf_mk|]. intros.
      rewrite ev_Not, He by auto. reflexivity.
    - destruct (Hbin f g Hv Hn Hb IHf IHg) as (a & b & Ha & Hbb & Hea & Heb).
      rewrite Ha, Hbb. simpl. eexists. split; [reflexivity|]. split; [apply wf_mk|].
      intros. rewrite ev_And, Hea, Heb by auto. reflexivity.
    - destruct (Hbin f g Hv Hn Hb IHf IHg) as (a & b & Ha & Hbb & Hea & Heb).
      rewrite Ha, Hbb. simpl. eexists. split; [reflexivity|]. split; [apply wf_mk|].
      intros. rewrite ev_Or, Hea, Heb by auto. reflexivity.
    - destruct (Hbin f g Hv Hn Hb IHf IHg) as (a & b & Ha & Hbb & Hea & Heb).
      rewrite Ha, Hbb. simpl. eexists. split; [reflexivity|]. split; [apply wf_mk|].
      intros. rewrite ev_Or, ev_Not, Hea, Heb by auto.
      destruct (sem _ _ f), (sem _ _ g); reflexivity.
    - destruct (Hbin f g Hv Hn Hb IHf IHg) as (a & b & Ha & Hbb & Hea & Heb).
      rewrite Ha, Hbb. simpl. eexists. split; [reflexivity|]. split; [apply wf_mk|].
      intros. rewrite ev_And, !ev_Or, !ev_Not, Hea, Heb by auto.
      destruct (sem _ _ f), (sem _ _ g); reflexivity.
  Qed.
End ToBDD.

(** a variable missing from the list ends the program *)
Lemma ptree_BDD_missing : forall vs m f, boolean f = true ->
  (exists x, (In x (fvars f) \/ In x (fnexts f)) /\ ~ In x (names vs)) ->
  ptree_BDD m (tree_of f) (vlist vs) = Crash.
Proof.
  intros vs m.
  assert (Hno : forall x, ~ In x (names vs) -> pos_of x (names vs) = None).
  { intros x Hx. destruct (pos_of x (names vs)) eqn:E; auto. exfalso. apply Hx.
    apply pos_of_In. eauto. }
  induction f as [| |x|x|p x o k|f IHf|f IHf g IHg|f IHf g IHg|f IHf g IHg|f IHf g IHg];
    intros Hb (y & Hy & Hn); simpl in *; try tauto; try discriminate.
  1,2: assert (x = y) by tauto; subst y; rewrite find_vlist, Hno by auto; reflexivity.
  1: rewrite IHf; auto; eauto.
  all: apply andb_true_iff in Hb; destruct Hb as [Hb1 Hb2]; rewrite !in_app_iff in Hy;
    assert (Hc : ptree_BDD m (tree_of f) (vlist vs) = Crash \/
                 ((exists d, ptree_BDD m (tree_of f) (vlist vs) = Ok d) \/
                  ptree_BDD m (tree_of f) (vlist vs) = Fuel) /\
                  (In y (fvars g) \/ In y (fnexts g))) by
      (destruct (ptree_BDD m (tree_of f) (vlist vs)) eqn:E; auto;
       right; (split; [eauto|]); destruct Hy as [[H|H]|[H|H]]; auto;
       discriminate (IHf Hb1 (ex_intro _ y (conj (or_introl H) Hn))) || 
       discriminate (IHf Hb1 (ex_intro _ y (conj (or_intror H) Hn))));
    (destruct Hc as [Hc|[[[d Hd]|Hf] Hg]];
     [rewrite Hc; reflexivity
     |rewrite Hd, IHg; auto; eauto
     |]).
  all: exfalso; clear -Hf; revert Hf;
    generalize (tree_of f) as t; intros t; induction t as [|[] nm v l IHl r IHr]; simpl; try discriminate;
    try (destruct (find_list_item _ _ _ _ <? 0); discriminate);
    destruct (ptree_BDD m r (vlist vs)); try (simpl; discriminate); 
    try (destruct (ptree_BDD m l (vlist vs)); simpl; (discriminate || tauto)); simpl; tauto.
Qed.

(** ** C17: reverse Polish building *)
Inductive tok := TTerm (t : ty) (name : option string) (value : Z) | TOp (t : ty).
(** the calls made for a formula, operands first *)
Fixpoint rpn (f : form) : list tok :=
  match f with
  | FTrue => [TTerm PT_CONSTANT None 1]
  | FFalse => [TTerm PT_CONSTANT None 0]
  | FVar x => [TTerm PT_VARIABLE (Some x) 0]
  | FNext x => [TTerm PT_NEXT_VARIABLE (Some x) 0]
  | FCmp p x o k => [TTerm (if p then PT_NEXT_VARIABLE else PT_VARIABLE) (Some x) 0;
                     TTerm PT_CONSTANT None k; TOp (cmp_ty o)]
  | FNot f => rpn f ++ [TOp PT_NEG]
  | FAnd f g => rpn f ++ rpn g ++ [TOp PT_AND]
  | FOr f g => rpn f ++ rpn g ++ [TOp PT_OR]
  | FImp f g => rpn f ++ rpn g ++ [TOp PT_IMPLIES]
  | FIff f g => rpn f ++ rpn g ++ [TOp PT_EQUIV]
  end.
Definition push (head : ptree) (k : tok) : ptree :=
  match k with
  | TTerm t n v => pusht_terminal head t n v
  | TOp t => pusht_operator head t
  end.

(** [attach t rest]: the tree [t] with [rest] hung below its leftmost terminal *)
Fixpoint attach (t rest : ptree) : ptree :=
  match t with
  | NULL => rest
  | pnd ty n v l r => if stops ty then pnd ty n v rest r else pnd ty n v (attach l rest) r
  end.
Fixpoint stack_of (fs : list form) : ptree :=
  match fs with [] => NULL | f :: r => attach (tree_of f) (stack_of r) end.

Lemma attach_nil : forall f, attach (tree_of f) NULL = tree_of f.
Proof.
  induction f; simpl; try reflexivity; try (rewrite IHf1; reflexivity).
  destruct o, primed; reflexivity.
Qed.
Lemma attach_nn : forall f rest, attach (tree_of f) rest <> NULL.
Proof.
  intros f rest. destruct f; simpl; try discriminate; try (destruct o; discriminate).
Qed.

Lemma cut_attach : forall f rest, cut (attach (tree_of f) rest) = (rest, tree_of f).
Proof.
  induction f; intros rest; try (destruct rest; reflexivity).
  - destruct o, primed, rest; reflexivity.
  - simpl. pose proof (attach_nn f1 rest). specialize (IHf1 rest).
    destruct (attach (tree_of f1) rest); [congruence|]. rewrite IHf1. reflexivity.
  - simpl. pose proof (attach_nn f1 rest). specialize (IHf1 rest).
    destruct (attach (tree_of f1) rest); [congruence|]. rewrite IHf1. reflexivity.
  - simpl. pose proof (attach_nn f1 rest). specialize (IHf1 rest).
    destruct (attach (tree_of f1) rest); [congruence|]. rewrite IHf1. reflexivity.
  - simpl. pose proof (attach_nn f1 rest). specialize (IHf1 rest).
    destruct (attach (tree_of f1) rest); [congruence|]. rewrite IHf1. reflexivity.
Qed.

Lemma pusht_op_attach : forall f rest t,
  pusht_operator (attach (tree_of f) rest) t =
  set_right (set_left (init_ptree t None 0) rest) (tree_of f).
Proof.
  intros. unfold pusht_operator. pose proof (attach_nn f rest).
  pose proof (cut_attach f rest) as Hc.
  destruct (attach (tree_of f) rest); [congruence|]. rewrite Hc. reflexivity.
Qed.

Lemma rpn_ok : forall f rest, fold_left push (rpn f) rest = attach (tree_of f) rest.
Proof.
  induction f; intros rest; simpl; auto.
  - destruct o, primed; destruct rest; reflexivity.
  - rewrite fold_left_app, IHf. simpl. rewrite pusht_op_attach. reflexivity.
  - rewrite !fold_left_app, IHf1, IHf2. simpl. rewrite pusht_op_attach. reflexivity.
  - rewrite !fold_left_app, IHf1, IHf2. simpl. rewrite pusht_op_attach. reflexivity.
  - rewrite !fold_left_app, IHf1, IHf2. simpl. rewrite pusht_op_attach. reflexivity.
  - rewrite !fold_left_app, IHf1, IHf2. simpl. rewrite pusht_op_attach. reflexivity.
Qed.
Lemma rpn_single : forall f, fold_left push (rpn f) NULL = tree_of f.
Proof. intros. rewrite rpn_ok. apply attach_nil. Qed.
Lemma rpn_stack : forall f fs, fold_left push (rpn f) (stack_of fs) = stack_of (f :: fs).
Proof. intros. apply rpn_ok. Qed.

(** ** C18 *)
Definition chain (op : form -> form -> form) (first : form) (rest : list form) : form :=
  fold_left op rest first.
Lemma merge_loop_chain : forall op t, (forall f g, tree_of (op f g) = binop t (tree_of f) (tree_of g)) ->
  (t = PT_AND \/ t = PT_OR \/ t = PT_IMPLIES) ->
  forall rest first,
  merge_loop t (rev (map tree_of rest)) (tree_of first) = tree_of (chain op first rest).
Proof.
  intros op t Hop Ht rest. rewrite <- map_rev.
  assert (forall l first, merge_loop t (map tree_of l) (tree_of first) =
            tree_of (fold_right (fun g a => op a g) first l)).
  { induction l as [|g l IH]; intros first; simpl; auto. rewrite Hop, <- IH.
    destruct Ht as [-> | [-> | ->]]; reflexivity. }
  intros first. rewrite H. unfold chain. rewrite <- fold_left_rev_right. reflexivity.
Qed.
Lemma merge_and : forall f fs, merge_ptrees (map tree_of (f :: fs)) PT_AND = tree_of (chain FAnd f fs).
Proof.
  intros f [|g fs]; auto. unfold merge_ptrees. simpl map.
  change (tree_of g :: map tree_of fs) with (map tree_of (g :: fs)).
  apply (merge_loop_chain FAnd); auto.
Qed.
Lemma merge_or : forall f fs, merge_ptrees (map tree_of (f :: fs)) PT_OR = tree_of (chain FOr f fs).
Proof.
  intros f [|g fs]; auto. unfold merge_ptrees. simpl map.
  change (tree_of g :: map tree_of fs) with (map tree_of (g :: fs)).
  apply (merge_loop_chain FOr); auto.
Qed.
Lemma merge_imp : forall f fs, merge_ptrees (map tree_of (f :: fs)) PT_IMPLIES = tree_of (chain FImp f fs).
Proof.
  intros f [|g fs]; auto. unfold merge_ptrees. simpl map.
  change (tree_of g :: map tree_of fs) with (map tree_of (g :: fs)).
  apply (merge_loop_chain FImp); auto.
Qed.
Lemma chain_and_sem : forall c n fs f,
  sem c n (chain FAnd f fs) = forallb (sem c n) (f :: fs).
Proof.
  intros c n. induction fs as [|g fs IH]; intros f.
  - simpl. rewrite andb_true_r. reflexivity.
  - change (chain FAnd f (g :: fs)) with (chain FAnd (FAnd f g) fs).
    rewrite IH. simpl. rewrite andb_assoc. reflexivity.
Qed.
Lemma chain_or_sem : forall c n fs f,
  sem c n (chain FOr f fs) = existsb (sem c n) (f :: fs).
Proof.
  intros c n. induction fs as [|g fs IH]; intros f.
  - simpl. rewrite orb_false_r. reflexivity.
  - change (chain FOr f (g :: fs)) with (chain FOr (FOr f g) fs).
    rewrite IH. simpl. rewrite orb_assoc. reflexivity.
Qed.
