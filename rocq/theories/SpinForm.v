(** Lemmas: the formulas in the model for Spin are read back with their meaning. *)
From Coq Require Import List ZArith Bool Arith Ascii String Lia.
From Verif Require Import Base Strs Ptree Form FSpec RSpec FormPrint Syntax LexProofs PrintProofs PromelaSpec.
Import ListNotations.
Open Scope string_scope.
Open Scope list_scope.
Open Scope Z_scope.

Definition rel_of (o : cmpop) : relop :=
  match o with CEq => REq | CNe => RNe | CLt => RLt | CGt => RGt | CLe => RLe | CGe => RGe end.
Fixpoint stext (f : form) : string :=
  match f with
  | FTrue => "true"
  | FFalse => "false"
  | FVar x => x
  | FNext x => nx x
  | FCmp p x o k => ("(" ++ (if p then nx x else x) ++ rel_text (rel_of o) ++ zdec k ++ ")")%string
  | FNot f => ("(!" ++ stext f ++ ")")%string
  | FAnd f g => ("(" ++ side stext f g ++ "&&" ++ side stext g f ++ ")")%string
  | FOr f g => ("(" ++ side stext f g ++ "||" ++ side stext g f ++ ")")%string
  | FImp f g => ("(!" ++ stext f ++ "||" ++ stext g ++ ")")%string
  | FIff f g => ("((" ++ stext f ++ "&&" ++ stext g ++ ")||(!" ++ stext f ++ "&&!" ++ stext g ++ "))")%string
  end.
Fixpoint sexp (f : form) : pexp :=
  match f with
  | FTrue => PNum 1
  | FFalse => PNum 0
  | FVar x => PVar x
  | FNext x => PVar (nx x)
  | FCmp p x o k => PRel (rel_of o) (PVar (if p then nx x else x)) (PNum k)
  | FNot f => PNot (sexp f)
  | FAnd f g => PAnd (sexp f) (sexp g)
  | FOr f g => POr (sexp f) (sexp g)
  | FImp f g => POr (PNot (sexp f)) (sexp g)
  | FIff f g => POr (PAnd (sexp f) (sexp g)) (PAnd (PNot (sexp f)) (PNot (sexp g)))
  end.

Lemma print_stext : forall f, print_formula FORMULA_SYNTAX_SPIN (tree_of f) = Ok (stext f).
Proof.
  assert (B : forall tt f g, print_formula FORMULA_SYNTAX_SPIN (tree_of f) = Ok (stext f) ->
      print_formula FORMULA_SYNTAX_SPIN (tree_of g) = Ok (stext g) ->
      In tt [PT_AND; PT_OR] ->
      print_formula FORMULA_SYNTAX_SPIN (binop tt (tree_of f) (tree_of g)) =
      Ok ("(" ++ side stext f g ++ op_text FORMULA_SYNTAX_SPIN tt ++ side stext g f ++ ")")%string).
  { intros tt f g Hf Hg Ht.
    assert (E : print_formula FORMULA_SYNTAX_SPIN (binop tt (tree_of f) (tree_of g)) =
      (a <- (match number_beside (tree_of f) (tree_of g) with
             | Some k => Ok (zdec k) | None => print_formula FORMULA_SYNTAX_SPIN (tree_of f) end) ;;
       b <- (match number_beside (tree_of g) (tree_of f) with
             | Some k => Ok (zdec k) | None => print_formula FORMULA_SYNTAX_SPIN (tree_of g) end) ;;
       Ok ("(" ++ a ++ op_text FORMULA_SYNTAX_SPIN tt ++ b ++ ")")%string)).
    { simpl in Ht. destruct Ht as [<-|[<-|[]]]; reflexivity. }
    rewrite E, !number_beside_tree, Hf, Hg. unfold side.
    destruct (is_const f && is_var g), (is_const g && is_var f); reflexivity. }
  induction f; auto.
  - destruct primed, o; simpl; reflexivity.
  - change (print_formula FORMULA_SYNTAX_SPIN (tree_of (FNot f))) with
      (a <- print_formula FORMULA_SYNTAX_SPIN (tree_of f) ;; Ok ("(!" ++ a ++ ")")%string).
    rewrite IHf. reflexivity.
  - apply (B PT_AND); simpl; tauto.
  - apply (B PT_OR); simpl; tauto.
  - cbn. rewrite IHf1. cbn [bind]. rewrite IHf2. reflexivity.
  - cbn. rewrite IHf1. cbn [bind]. rewrite IHf2. reflexivity.
Qed.

Lemma ptext_le : forall n m t e, ptext n t e -> (n <= m)%nat -> ptext m t e.
Proof. intros n m t e H L. induction L; auto. apply pt_up. auto. Qed.

Fixpoint ends_next (s : string) : bool :=
  match s with EmptyString => false | String _ r => String.eqb s "_next" || ends_next r end.
Lemma pname_nx : forall x, pname x -> pname (nx x).
Proof.
  intros x (H & _). unfold pname.
  assert (L : forall s, name_chars s = true -> name_chars (s ++ "_next") = true).
  { induction s as [|a s IH]; intros Hs; [reflexivity|]. cbn in *. apply andb_true_iff in Hs.
    rewrite (proj1 Hs), IH; auto. tauto. }
  split.
  - unfold nx. destruct x as [|c x]; [destruct H|]. destruct H as [H1 H2]. cbn [append]. auto.
  - assert (N : ends_next (nx x) = true).
    { clear. unfold nx. induction x as [|c x IH]; [reflexivity|]. cbn [append ends_next]. rewrite IH. apply orb_true_r. }
    intros Hk. assert (K : forallb (fun s => negb (ends_next s)) keywords = true) by reflexivity.
    rewrite forallb_forall in K. apply K in Hk. rewrite N in Hk. discriminate.
Qed.
Lemma side_ptext : forall f g, ptext 0 (stext f) (sexp f) -> ptext 0 (side stext f g) (sexp f).
Proof.
  intros f g H. unfold side. destruct (is_const f && is_var g) eqn:E; auto.
  apply andb_true_iff in E. destruct E as [E _]. destruct f; try discriminate; apply (pt_num _).
Qed.
Lemma stext_ptext : forall f, (forall y, In y (fvars f ++ fnexts f) -> pname y) -> ptext 0 (stext f) (sexp f).
Proof.
  induction f; intros Hn; cbn [stext sexp].
  - constructor.
  - constructor.
  - apply pt_var. apply Hn. cbn. auto.
  - apply pt_var. apply pname_nx. apply Hn. cbn. auto.
  - assert (Hx : pname (if primed then nx x else x)).
    { destruct primed; [apply pname_nx|]; apply Hn; cbn; auto. }
    replace ("(" ++ (if primed then nx x else x) ++ rel_text (rel_of o) ++ zdec k ++ ")")%string with
      ("(" ++ ((if primed then nx x else x) ++ rel_text (rel_of o) ++ zdec k) ++ ")")%string
      by (rewrite !string_app_assoc; reflexivity).
    apply pt_paren. destruct (ordering (rel_of o)) eqn:E.
    + apply (ptext_le 1); [|lia]. apply pt_ord; auto; [|apply pt_num]. apply (ptext_le 0); [|lia]. apply pt_var. auto.
    + apply (ptext_le 2); [|lia]. apply pt_equ; auto; [|apply pt_up, pt_num]. apply (ptext_le 0); [|lia].
      apply pt_var. auto.
  - replace ("(!" ++ stext f ++ ")")%string with ("(" ++ ("!" ++ stext f) ++ ")")%string by reflexivity.
    apply pt_paren. apply (ptext_le 0); [|lia]. apply pt_not. apply IHf. auto.
  - replace ("(" ++ side stext f1 f2 ++ "&&" ++ side stext f2 f1 ++ ")")%string with
      ("(" ++ (side stext f1 f2 ++ "&&" ++ side stext f2 f1) ++ ")")%string by (rewrite !string_app_assoc; reflexivity).
    apply pt_paren. apply pt_up. apply pt_and; auto.
    + apply (ptext_le 0); [|lia]. apply side_ptext. apply IHf1. intros y Hy. apply Hn.
      cbn. rewrite !in_app_iff in *. tauto.
    + apply (ptext_le 0); [|lia]. apply side_ptext. apply IHf2. intros y Hy. apply Hn.
      cbn. rewrite !in_app_iff in *. tauto.
  - replace ("(" ++ side stext f1 f2 ++ "||" ++ side stext f2 f1 ++ ")")%string with
      ("(" ++ (side stext f1 f2 ++ "||" ++ side stext f2 f1) ++ ")")%string by (rewrite !string_app_assoc; reflexivity).
    apply pt_paren. apply pt_or; auto.
    + apply (ptext_le 0); [|lia]. apply side_ptext. apply IHf1. intros y Hy. apply Hn.
      cbn. rewrite !in_app_iff in *. tauto.
    + apply (ptext_le 0); [|lia]. apply side_ptext. apply IHf2. intros y Hy. apply Hn.
      cbn. rewrite !in_app_iff in *. tauto.
  - assert (H1 : ptext 0 (stext f1) (sexp f1)).
    { apply IHf1. intros y Hy. apply Hn. cbn. rewrite !in_app_iff in *. tauto. }
    assert (H2 : ptext 0 (stext f2) (sexp f2)).
    { apply IHf2. intros y Hy. apply Hn. cbn. rewrite !in_app_iff in *. tauto. }
    replace ("(!" ++ stext f1 ++ "||" ++ stext f2 ++ ")")%string with
      ("(" ++ (("!" ++ stext f1) ++ "||" ++ stext f2) ++ ")")%string by (rewrite !string_app_assoc; reflexivity).
    apply pt_paren. apply pt_or; auto; apply (ptext_le 0); try lia; auto. apply pt_not. auto.
  - assert (H1 : ptext 0 (stext f1) (sexp f1)).
    { apply IHf1. intros y Hy. apply Hn. cbn. rewrite !in_app_iff in *. tauto. }
    assert (H2 : ptext 0 (stext f2) (sexp f2)).
    { apply IHf2. intros y Hy. apply Hn. cbn. rewrite !in_app_iff in *. tauto. }
    replace ("((" ++ stext f1 ++ "&&" ++ stext f2 ++ ")||(!" ++ stext f1 ++ "&&!" ++ stext f2 ++ "))")%string with
      ("(" ++ (("(" ++ (stext f1 ++ "&&" ++ stext f2) ++ ")") ++ "||" ++
        ("(" ++ (("!" ++ stext f1) ++ "&&" ++ ("!" ++ stext f2)) ++ ")")) ++ ")")%string
      by (repeat (cbn [append]; rewrite ?string_app_assoc); reflexivity).
    apply pt_paren. apply pt_or; auto.
    + apply (ptext_le 0); [|lia]. apply pt_paren. apply pt_up. apply pt_and; auto; apply (ptext_le 0); try lia; auto.
    + apply (ptext_le 0); [|lia]. apply pt_paren. apply pt_up.
      apply pt_and; auto; apply (ptext_le 0); try lia; apply pt_not; auto.
Qed.

Lemma true_b2z : forall b, true_at (b2z b) = b.
Proof. intros []; reflexivity. Qed.
Definition is_bool (z : Z) : Prop := z = 0 \/ z = 1.
Ltac sem_parts B0 B1 C0 C1 :=
  let y := fresh in let H := fresh in intros y H;
  match type of H with
  | In _ (bares false _) => apply B0
  | In _ (bares true _) => apply B1
  | In _ (cmps false _) => apply C0
  | In _ (cmps true _) => apply C1
  end; cbn; rewrite in_app_iff; auto.
Lemma sexp_sem : forall (st : memory) cur nxt f,
  (forall y, In y (bares false f) -> st y = cur y /\ is_bool (cur y)) ->
  (forall y, In y (bares true f) -> st (nx y) = nxt y /\ is_bool (nxt y)) ->
  (forall y, In y (cmps false f) -> st y = cur y) ->
  (forall y, In y (cmps true f) -> st (nx y) = nxt y) ->
  true_at (peval st (sexp f)) = sem cur nxt f.
Proof.
  intros st cur nxt. induction f; intros B0 B1 C0 C1; cbn [sexp peval sem]; auto.
  - destruct (B0 x (or_introl eq_refl)) as [-> [->| ->]]; reflexivity.
  - destruct (B1 x (or_introl eq_refl)) as [-> [->| ->]]; reflexivity.
  - rewrite true_b2z. assert (E : st (if primed then nx x else x) = (if primed then nxt x else cur x)).
    { destruct primed; [apply C1|apply C0]; cbn; auto. }
    rewrite E. destruct o; reflexivity.
  - rewrite true_b2z, IHf; auto.
  - rewrite true_b2z, IHf1, IHf2; [reflexivity|..]; sem_parts B0 B1 C0 C1.
  - rewrite true_b2z, IHf1, IHf2; [reflexivity|..]; sem_parts B0 B1 C0 C1.
  - rewrite !true_b2z, IHf1, IHf2; [destruct (sem cur nxt f1), (sem cur nxt f2); reflexivity|..]; sem_parts B0 B1 C0 C1.
  - rewrite !true_b2z, IHf1, IHf2; [destruct (sem cur nxt f1), (sem cur nxt f2); reflexivity|..]; sem_parts B0 B1 C0 C1.
Qed.

(** ** Several rules *)
Fixpoint rules_text (l : list form) : string :=
  match l with
  | [] => ""
  | [f] => stext f
  | f :: r => (stext f ++ " && " ++ rules_text r)%string
  end.
Definition trans_text (l : list form) : string := match l with [] => "true" | _ => rules_text l end.
Definition trans_exp (l : list form) : pexp :=
  match l with [] => PNum 1 | f :: r => fold_left (fun e g => PAnd e (sexp g)) r (sexp f) end.
Lemma rules_ptext : forall l t e, ptext 3 t e -> (forall f, In f l -> ptext 0 (stext f) (sexp f)) -> l <> [] ->
  ptext 3 (t ++ " && " ++ rules_text l) (fold_left (fun e g => PAnd e (sexp g)) l e).
Proof.
  induction l as [|f l IH]; intros t e Ht Hl Hn; [congruence|]. clear Hn.
  assert (P : ptext 3 (t ++ " && " ++ stext f) (PAnd e (sexp f))).
  { apply pt_and; auto. apply (ptext_le 0); [|lia]. apply Hl. cbn. auto. }
  destruct l as [|g l]; [exact P|].
  change (rules_text (f :: g :: l)) with (stext f ++ " && " ++ rules_text (g :: l))%string.
  cbn [fold_left]. replace (t ++ " && " ++ stext f ++ " && " ++ rules_text (g :: l))%string with
    ((t ++ " && " ++ stext f) ++ " && " ++ rules_text (g :: l))%string
    by (rewrite !string_app_assoc; cbn [append]; rewrite ?string_app_assoc; reflexivity).
  apply (IH _ (PAnd e (sexp f))); auto; [|discriminate]. intros h Hh. apply Hl. cbn. auto.
Qed.
Lemma trans_ptext : forall l, (forall f, In f l -> ptext 0 (stext f) (sexp f)) ->
  ptext 4 (trans_text l) (trans_exp l).
Proof.
  intros [|f [|g l]] H.
  - apply (ptext_le 0); [|lia]. constructor.
  - cbn. apply (ptext_le 0); [|lia]. apply H. cbn. auto.
  - apply pt_up. change (trans_text (f :: g :: l)) with (stext f ++ " && " ++ rules_text (g :: l))%string.
    change (trans_exp (f :: g :: l)) with (fold_left (fun e g => PAnd e (sexp g)) (g :: l) (sexp f)).
    apply rules_ptext; [|intros h Hh; apply H; right; auto|discriminate].
    apply (ptext_le 0); [|lia]. apply H. left. auto.
Qed.
Lemma trans_sem : forall st l, true_at (peval st (trans_exp l)) = forallb (fun f => true_at (peval st (sexp f))) l.
Proof.
  intros st [|f l]; [reflexivity|]. cbn [trans_exp forallb].
  generalize (sexp f) as e. induction l as [|g l IH]; intros e; cbn [fold_left forallb].
  - rewrite andb_true_r. reflexivity.
  - rewrite IH. cbn [peval]. rewrite true_b2z, andb_assoc. reflexivity.
Qed.
Lemma conj_sem : forall cur nxt l, sem cur nxt (RSpec.conj l) = forallb (sem cur nxt) l.
Proof. induction l as [|f l IH]; cbn; auto. unfold RSpec.conj in IH. rewrite IH. reflexivity. Qed.
