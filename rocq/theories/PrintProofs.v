(** Lemmas: the text written by print_formula and what the scanner makes of it. *)
From Coq Require Import List ZArith Bool Arith Ascii String Lia.
From Verif Require Import Base Strs Ptree Form PtreeProofs FormPrint Lex Parse Syntax LexProofs ParseProofs.
Import ListNotations.
Open Scope string_scope.
Open Scope list_scope.
Open Scope nat_scope.

(** ** The printed text *)
Definition const_val (f : form) : Z := match f with FTrue => 1 | _ => 0 end.
Definition op_str (o : bop) : string :=
  match o with OAnd => "&" | OOr => "|" | OImp => "->" | OIff => "<->" end.
Definition cmp_str (o : cmpop) : string :=
  match o with CEq => "=" | CNe => "!=" | CLt => "<" | CGt => ">" | CLe => "<=" | CGe => ">=" end.
Definition side (txt : form -> string) (f g : form) : string :=
  if is_const f && is_var g then zdec (const_val f) else txt f.
Fixpoint text (f : form) : string :=
  match f with
  | FTrue => "True"
  | FFalse => "False"
  | FVar x => x
  | FNext x => (x ++ "'")%string
  | FCmp p x o k => ("(" ++ (if p then x ++ "'" else x) ++ cmp_str o ++ zdec k ++ ")")%string
  | FNot f => ("(!" ++ text f ++ ")")%string
  | FAnd f g => ("(" ++ side text f g ++ "&" ++ side text g f ++ ")")%string
  | FOr f g => ("(" ++ side text f g ++ "|" ++ side text g f ++ ")")%string
  | FImp f g => ("(" ++ side text f g ++ "->" ++ side text g f ++ ")")%string
  | FIff f g => ("(" ++ side text f g ++ "<->" ++ side text g f ++ ")")%string
  end.
Lemma number_beside_tree : forall f g,
  number_beside (tree_of f) (tree_of g) = if is_const f && is_var g then Some (const_val f) else None.
Proof.
  intros f g. destruct f, g; simpl; try reflexivity; try (destruct o; reflexivity); try (destruct o, o0; reflexivity).
Qed.
Lemma print_text : forall f, print_formula FORMULA_SYNTAX_GR1C (tree_of f) = Ok (text f).
Proof.
  assert (B : forall tt f g, print_formula FORMULA_SYNTAX_GR1C (tree_of f) = Ok (text f) ->
      print_formula FORMULA_SYNTAX_GR1C (tree_of g) = Ok (text g) ->
      In tt [PT_AND; PT_OR; PT_IMPLIES; PT_EQUIV] ->
      print_formula FORMULA_SYNTAX_GR1C (binop tt (tree_of f) (tree_of g)) =
      Ok ("(" ++ side text f g ++ op_text FORMULA_SYNTAX_GR1C tt ++ side text g f ++ ")")%string).
  { intros tt f g Hf Hg Ht.
    assert (E : print_formula FORMULA_SYNTAX_GR1C (binop tt (tree_of f) (tree_of g)) =
      (a <- (match number_beside (tree_of f) (tree_of g) with
             | Some k => Ok (zdec k) | None => print_formula FORMULA_SYNTAX_GR1C (tree_of f) end) ;;
       b <- (match number_beside (tree_of g) (tree_of f) with
             | Some k => Ok (zdec k) | None => print_formula FORMULA_SYNTAX_GR1C (tree_of g) end) ;;
       Ok ("(" ++ a ++ op_text FORMULA_SYNTAX_GR1C tt ++ b ++ ")")%string)).
    { simpl in Ht. destruct Ht as [<-|[<-|[<-|[<-|[]]]]]; reflexivity. }
    rewrite E, !number_beside_tree, Hf, Hg. unfold side.
    destruct (is_const f && is_var g), (is_const g && is_var f); reflexivity. }
  induction f; auto.
  - destruct primed, o; simpl; reflexivity.
  - change (print_formula FORMULA_SYNTAX_GR1C (tree_of (FNot f))) with
      (a <- print_formula FORMULA_SYNTAX_GR1C (tree_of f) ;; Ok ("(!" ++ a ++ ")")%string).
    rewrite IHf. reflexivity.
  - apply (B PT_AND); simpl; tauto.
  - apply (B PT_OR); simpl; tauto.
  - apply (B PT_IMPLIES); simpl; tauto.
  - apply (B PT_EQUIV); simpl; tauto.
Qed.

(** ** Its symbols *)
Definition tside (tk : form -> list ysym) (f g : form) : list ysym :=
  if is_const f && is_var g then [YNum (const_val f)] else tk f.
Fixpoint toks (f : form) : list ysym :=
  match f with
  | FTrue => [YTrue]
  | FFalse => [YFalse]
  | FVar x => [YVar x]
  | FNext x => [YVar x; YQuote]
  | FCmp p x o k => YLpar :: (if p then [YVar x; YQuote] else [YVar x]) ++ [cmp_sym o; YNum k; YRpar]
  | FNot f => YLpar :: YBang :: toks f ++ [YRpar]
  | FAnd f g => YLpar :: (tside toks f g ++ YAmp :: tside toks g f) ++ [YRpar]
  | FOr f g => YLpar :: (tside toks f g ++ YBar :: tside toks g f) ++ [YRpar]
  | FImp f g => YLpar :: (tside toks f g ++ YImp :: tside toks g f) ++ [YRpar]
  | FIff f g => YLpar :: (tside toks f g ++ YIff :: tside toks g f) ++ [YRpar]
  end.

Definition sx (b : bool) (s : string) : out (list ysym) := l <- lx b s ;; Ok (symbols l).
Lemma sx_of : forall b b' s s' k y, lx b s = (l <- lx b' s' ;; Ok (k :: l)) -> yytranslate k = y -> y <> YEOF ->
  sx b s = (l <- sx b' s' ;; Ok (y :: l)).
Proof.
  intros b b' s s' k y E Hk Hy. unfold sx. rewrite E. destruct (lx b' s') as [l| |]; simpl; auto.
  rewrite Hk. destruct y; try reflexivity. congruence.
Qed.
Definition pre (ts : list ysym) (x : out (list ysym)) : out (list ysym) := l <- x ;; Ok (ts ++ l).
Lemma pre_app : forall a b x, pre a (pre b x) = pre (a ++ b) x.
Proof. intros a b [l| |]; simpl; auto. rewrite app_assoc. reflexivity. Qed.
Lemma sx_tok : forall b b' s s' k y, lx b s = (l <- lx b' s' ;; Ok (k :: l)) -> yytranslate k = y -> y <> YEOF ->
  sx b s = pre [y] (sx b' s').
Proof. intros b b' s s' k y H1 H2 H3. exact (sx_of b b' s s' k y H1 H2 H3). Qed.

(** the first character of an operand *)
Definition opens (c : ascii) : bool := ident_start c || isdigit c || Ascii.eqb c "(".
Lemma opens_and : forall c, opens c = true -> negb (blank c || Ascii.eqb c "[") = true.
Proof. apply by_chars. vm_compute. reflexivity. Qed.
Lemma opens_bang : forall c, opens c = true -> negb (Ascii.eqb c "=") = true.
Proof. apply by_chars. vm_compute. reflexivity. Qed.
Lemma opens_lt : forall c, opens c = true -> negb (Ascii.eqb c "<") = true.
Proof. apply by_chars. vm_compute. reflexivity. Qed.
Lemma digit_lt : forall c, isdigit c = true -> negb (mem c "=>-") = true.
Proof. apply by_chars. vm_compute. reflexivity. Qed.
Lemma digit_opens : forall c, isdigit c = true -> opens c = true.
Proof. apply by_chars. vm_compute. reflexivity. Qed.

Lemma head_app : forall p x s, x <> "" -> head_is p (x ++ s)%string = head_is p x.
Proof. intros p [|c x] s H; [congruence|reflexivity]. Qed.
Lemma text_opens : forall f, writable f -> head_is opens (text f) = true.
Proof.
  assert (I : forall x s, identifier x -> head_is opens (x ++ s)%string = true).
  { intros [|c x] s [H _]; [destruct H|]. destruct H as [H _]. simpl. unfold opens. rewrite H. reflexivity. }
  intros f H. destruct f; try reflexivity; simpl in H.
  - specialize (I x "" H). destruct x; [discriminate|]. exact I.
  - apply I; auto.
Qed.
Lemma side_opens : forall f g, writable f -> head_is opens (side text f g) = true.
Proof.
  intros f g H. unfold side. destruct (is_const f && is_var g); [|apply text_opens; auto].
  assert (H0 : (0 <= const_val f)%Z) by (destruct f; simpl; lia).
  destruct (zdec_head _ H0) as (c & r & -> & Hc). simpl. apply digit_opens; auto.
Qed.
Lemma head_neg : forall p q s, head_is p s = true -> (forall c, p c = true -> negb (q c) = true) -> head_is q s = false.
Proof. intros p q [|c s] H Hpq; auto. simpl in *. apply negb_true_iff. auto. Qed.
Lemma head_ne : forall p s, head_is p s = true -> s <> "".
Proof. intros p [|c s] H; [discriminate|discriminate]. Qed.

Lemma sep_char : forall c s, ident_char c = false -> Ascii.eqb c ":" = false -> sep (String c s).
Proof. intros c s H1 H2. split; simpl; auto. Qed.
Lemma sep_op : forall o s, sep (op_str o ++ s)%string.
Proof. intros [] s; apply sep_char; reflexivity. Qed.
Lemma sep_cmp : forall o s, sep (cmp_str o ++ s)%string.
Proof. intros [] s; apply sep_char; reflexivity. Qed.

Lemma identifier_is : forall x, identifier x -> is_ident x = true /\ x <> "True" /\ x <> "False".
Proof.
  intros x (H & H1 & H2). split; auto. destruct x; [destruct H|].
  destruct H as [Ha H]. unfold is_ident. rewrite Ha. exact H.
Qed.
Lemma sx_ident : forall b x s, identifier x -> sep s -> sx b (x ++ s)%string = pre [YVar x] (sx false s).
Proof.
  intros b x s H Hs. destruct (identifier_is x H) as (H1 & H2 & H3).
  eapply sx_tok; [apply lx_ident; auto|reflexivity|discriminate].
Qed.
Lemma sx_number : forall b k s, int_number k -> sep s -> sx b (zdec k ++ s)%string = pre [YNum k] (sx false s).
Proof. intros. eapply sx_tok; [apply lx_number; auto|reflexivity|discriminate]. Qed.
Lemma sx_op : forall o b s, head_is opens s = true -> sx b (op_str o ++ s)%string = pre [op_sym o] (sx false s).
Proof.
  intros o b s H. destruct o.
  - eapply sx_tok; [apply lx_amp|reflexivity|discriminate].
    eapply head_neg; [exact H|]. apply opens_and.
  - eapply sx_tok; [apply lx_char; reflexivity|reflexivity|discriminate].
  - eapply sx_tok; [apply lx_imp|reflexivity|discriminate].
  - eapply sx_tok; [apply lx_iff|reflexivity|discriminate].
Qed.
Lemma sx_cmp : forall o b s, head_is isdigit s = true -> sx b (cmp_str o ++ s)%string = pre [cmp_sym o] (sx false s).
Proof.
  intros o b s H. destruct o.
  - eapply sx_tok; [apply lx_char; reflexivity|reflexivity|discriminate].
  - eapply sx_tok; [apply lx_ne|reflexivity|discriminate].
  - eapply sx_tok; [apply lx_lt|reflexivity|discriminate].
    eapply head_neg; [exact H|]. apply digit_lt.
  - eapply sx_tok; [apply lx_gt|reflexivity|discriminate].
    eapply head_neg; [exact H|]. intros c Hc. apply opens_bang. apply digit_opens. auto.
  - eapply sx_tok; [apply lx_le|reflexivity|discriminate].
  - eapply sx_tok; [apply lx_ge|reflexivity|discriminate].
Qed.
Lemma sx_lpar : forall b s, sx b ("(" ++ s)%string = pre [YLpar] (sx false s).
Proof. intros. eapply sx_tok; [apply lx_char; reflexivity|reflexivity|discriminate]. Qed.
Lemma sx_rpar : forall b s, sx b (")" ++ s)%string = pre [YRpar] (sx false s).
Proof. intros. eapply sx_tok; [apply lx_char; reflexivity|reflexivity|discriminate]. Qed.
Lemma sx_quote : forall b s, sx b ("'" ++ s)%string = pre [YQuote] (sx false s).
Proof. intros. eapply sx_tok; [apply lx_char; reflexivity|reflexivity|discriminate]. Qed.
Lemma sx_semi : forall b s, sx b (";" ++ s)%string = pre [YSemi] (sx false s).
Proof. intros. eapply sx_tok; [apply lx_char; reflexivity|reflexivity|discriminate]. Qed.
Lemma sx_bang : forall b s, head_is opens s = true -> sx b ("!" ++ s)%string = pre [YBang] (sx false s).
Proof.
  intros b s H. eapply sx_tok; [apply lx_bang|reflexivity|discriminate].
  eapply head_neg; [exact H|]. apply opens_bang.
Qed.

Lemma str_assoc : forall a b c, ((a ++ b) ++ c)%string = (a ++ (b ++ c))%string.
Proof. induction a; intros; simpl; auto. rewrite IHa. reflexivity. Qed.
Lemma str_cons : forall c a b, (String c a ++ b)%string = String c (a ++ b).
Proof. reflexivity. Qed.

Definition lexes (f : form) : Prop := forall b s, sep s -> sx b (text f ++ s)%string = pre (toks f) (sx false s).
Lemma side_lexes : forall f g, writable f -> lexes f -> forall b s, sep s ->
  sx b (side text f g ++ s)%string = pre (tside toks f g) (sx false s).
Proof.
  intros f g Hw Hl b s Hs. unfold side, tside. destruct (is_const f && is_var g); [|apply Hl; auto].
  apply sx_number; auto. destruct f; unfold int_number; simpl; lia.
Qed.
Lemma binary_lexes : forall o f g, writable f -> writable g -> lexes f -> lexes g -> forall b s,
  sx b (("(" ++ side text f g ++ op_str o ++ side text g f ++ ")") ++ s)%string =
  pre (YLpar :: (tside toks f g ++ op_sym o :: tside toks g f) ++ [YRpar]) (sx false s).
Proof.
  intros o f g Hf Hg Lf Lg b s. rewrite !str_assoc. rewrite sx_lpar.
  rewrite side_lexes by (auto; apply sep_op).
  rewrite sx_op.
  2: { rewrite head_app; [apply side_opens; auto|]. eapply head_ne. apply side_opens; auto. }
  rewrite side_lexes by (auto; apply sep_char; reflexivity).
  rewrite sx_rpar. rewrite !pre_app. f_equal. simpl. rewrite <- !app_assoc. reflexivity.
Qed.
Lemma text_lexes : forall f, writable f -> lexes f.
Proof.
  induction f; intros Hw b s Hs; simpl in Hw.
  - unfold text. cbn [toks]. eapply sx_tok; [apply lx_true; auto|reflexivity|discriminate].
  - unfold text. cbn [toks]. eapply sx_tok; [apply lx_false; auto|reflexivity|discriminate].
  - apply sx_ident; auto.
  - cbn [text]. rewrite str_assoc. rewrite sx_ident by (auto; apply sep_char; reflexivity).
    rewrite sx_quote, pre_app. reflexivity.
  - destruct Hw as [Hx Hk]. cbn [text]. rewrite !str_assoc. rewrite sx_lpar.
    assert (Hd : head_is isdigit (zdec k ++ ")" ++ s)%string = true).
    { destruct (zdec_head k) as (c & r & -> & Hc); [unfold int_number in Hk; lia|]. exact Hc. }
    assert (E : forall b, sx b (cmp_str o ++ zdec k ++ ")" ++ s)%string =
                pre [cmp_sym o; YNum k; YRpar] (sx false s)).
    { intros b'. rewrite sx_cmp by auto. rewrite sx_number by (auto; apply sep_char; reflexivity).
      rewrite sx_rpar, !pre_app. reflexivity. }
    destruct primed.
    + rewrite str_assoc. rewrite sx_ident by (auto; apply sep_char; reflexivity).
      rewrite sx_quote, E, !pre_app. reflexivity.
    + rewrite sx_ident by (auto; apply sep_cmp). rewrite E, !pre_app. reflexivity.
  - cbn [text]. change ("(!" ++ text f ++ ")")%string with ("(" ++ "!" ++ text f ++ ")")%string.
    rewrite !str_assoc. rewrite sx_lpar. rewrite sx_bang.
    2: { rewrite head_app; [apply text_opens; auto|]. eapply head_ne. apply text_opens; auto. }
    rewrite IHf by (auto; apply sep_char; reflexivity). rewrite sx_rpar, !pre_app. cbn [toks].
    f_equal.
  - destruct Hw. apply (binary_lexes OAnd); auto.
  - destruct Hw. apply (binary_lexes OOr); auto.
  - destruct Hw. apply (binary_lexes OImp); auto.
  - destruct Hw. apply (binary_lexes OIff); auto.
Qed.

(** ** Reading it *)
Definition primes_ok (t : bool) (f : form) : Prop := t = false -> fnexts f = [].
Lemma primes_2 : forall t f g, (t = false -> fnexts f ++ fnexts g = []) -> primes_ok t f /\ primes_ok t g.
Proof. intros t f g H. split; intros E; specialize (H E); apply app_eq_nil in H; tauto. Qed.
Lemma tside_plain : forall f g, clash f g = false -> tside toks f g = toks f /\ tside toks g f = toks g.
Proof.
  intros f g H. unfold clash in H. apply orb_false_iff in H. destruct H as [H1 H2].
  unfold tside. rewrite H1. rewrite andb_comm in H2. rewrite H2. auto.
Qed.
Lemma toks_reads : forall t f, clash_free f = true -> primes_ok t f -> reads t LUnit (toks f) f.
Proof.
  assert (B : forall t o f g, clash_free f && clash_free g && negb (clash f g) = true ->
    (t = false -> fnexts f ++ fnexts g = []) ->
    (clash_free f = true -> primes_ok t f -> reads t LUnit (toks f) f) ->
    (clash_free g = true -> primes_ok t g -> reads t LUnit (toks g) g) ->
    reads t LUnit (YLpar :: (tside toks f g ++ op_sym o :: tside toks g f) ++ [YRpar]) (op_form o f g)).
  { intros t o f g H Hp Hf Hg. apply andb_true_iff in H. destruct H as [H Hc].
    apply andb_true_iff in H. destruct H as [H1 H2]. apply negb_true_iff in Hc.
    apply primes_2 in Hp. destruct Hp as [Hp1 Hp2].
    destruct (tside_plain f g Hc) as [-> ->]. apply rd_paren.
    apply (rd_iff_any t (op_level o)). apply rd_op.
    - destruct o; simpl; [apply rd_unit|apply rd_unit|apply rd_andl; apply rd_unit|
                          apply rd_impl; apply rd_andl; apply rd_unit]; auto.
    - destruct o; simpl; [|  |apply rd_unit|apply rd_andl; apply rd_unit]; auto. }
  intros t f. induction f; intros Hc Hp; simpl in Hc.
  - apply rd_atom. constructor.
  - apply rd_atom. constructor.
  - apply rd_atom. constructor.
  - apply rd_atom. constructor. destruct t; auto. specialize (Hp eq_refl). discriminate.
  - assert (H : reads t LIff ((if primed then [YVar x; YQuote] else [YVar x]) ++ [cmp_sym o; YNum k]) (FCmp primed x o k)).
    { apply (rd_iff_any t LUnit). apply rd_atom. destruct primed; simpl; constructor.
      destruct t; auto. specialize (Hp eq_refl). discriminate. }
    apply rd_paren in H. rewrite <- app_assoc in H. exact H.
  - cbn [toks]. apply (rd_paren t (YBang :: toks f)). apply (rd_iff_any t LUnit). apply rd_not. auto.
  - apply (B t OAnd); auto.
  - apply (B t OOr); auto.
  - apply (B t OImp); auto.
  - apply (B t OIff); auto.
Qed.

(** numbers stand only to the right of a comparison *)
Definition is_cmp (k : ysym) : bool := match cmp_of k with Some _ => true | None => false end.
Fixpoint nums_ok (after : bool) (ts : list ysym) : bool :=
  match ts with
  | [] => true
  | YNum _ :: r => after && nums_ok false r
  | k :: r => nums_ok (is_cmp k) r
  end.
Lemma derives_nums : forall t ts f, derives t ts f -> forall rest, nums_ok false (ts ++ rest) = nums_ok false rest.
Proof.
  intros t ts f H. induction H; intros rest.
  - destruct H; try reflexivity; destruct o; reflexivity.
  - cbn [app nums_ok is_cmp cmp_of]. rewrite <- app_assoc, IHderives. reflexivity.
  - cbn [app nums_ok is_cmp cmp_of]. apply IHderives.
  - rewrite <- app_assoc, IHderives1. cbn [app nums_ok is_cmp cmp_of]. apply IHderives2.
  - rewrite <- app_assoc, IHderives1. cbn [app nums_ok is_cmp cmp_of]. apply IHderives2.
  - rewrite <- app_assoc, IHderives1. cbn [app nums_ok is_cmp cmp_of]. apply IHderives2.
  - rewrite <- app_assoc, IHderives1. cbn [app nums_ok is_cmp cmp_of]. apply IHderives2.
Qed.
Lemma nums_op : forall o rest, nums_ok false (op_sym o :: rest) = nums_ok false rest.
Proof. intros [] rest; reflexivity. Qed.
Lemma toks_nums : forall f rest, nums_ok false (toks f ++ rest) = clash_free f && nums_ok false rest.
Proof.
  assert (B : forall o f g rest,
    (forall rest, nums_ok false (toks f ++ rest) = clash_free f && nums_ok false rest) ->
    (forall rest, nums_ok false (toks g ++ rest) = clash_free g && nums_ok false rest) ->
    nums_ok false ((YLpar :: (tside toks f g ++ op_sym o :: tside toks g f) ++ [YRpar]) ++ rest) =
    clash_free f && clash_free g && negb (clash f g) && nums_ok false rest).
  { intros o f g rest Hf Hg. cbn [app nums_ok is_cmp cmp_of]. rewrite <- !app_assoc. cbn [app]. unfold clash, tside.
    destruct (is_const f && is_var g) eqn:E1.
    - simpl. rewrite andb_false_r. reflexivity.
    - rewrite Hf, nums_op. rewrite (andb_comm (is_var f)). destruct (is_const g && is_var f).
      + simpl. rewrite !andb_false_r. reflexivity.
      + rewrite Hg. cbn [app nums_ok is_cmp cmp_of orb negb]. rewrite andb_true_r, andb_assoc. reflexivity. }
  induction f; intros rest; auto.
  - destruct primed, o; reflexivity.
  - cbn [toks app nums_ok is_cmp cmp_of clash_free]. rewrite <- app_assoc, IHf. reflexivity.
  - apply (B OAnd); auto.
  - apply (B OOr); auto.
  - apply (B OImp); auto.
  - apply (B OIff); auto.
Qed.
Lemma toks_clash : forall t f g, clash_free f = false -> ~ derives t (toks f) g.
Proof.
  intros t f g Hc H. pose proof (derives_nums t (toks f) g H []) as E.
  rewrite toks_nums, Hc in E. discriminate.
Qed.

(** ** It has one derivation only *)
Fixpoint depth (ts : list ysym) : Z :=
  match ts with
  | [] => 0
  | YLpar :: r => 1 + depth r
  | YRpar :: r => depth r - 1
  | _ :: r => depth r
  end.
Lemma depth_app : forall a b, depth (a ++ b) = (depth a + depth b)%Z.
Proof. induction a as [|k a IH]; intros b; [simpl; lia|]. destruct k; cbn [app depth]; rewrite IH; lia. Qed.
Definition nonneg (ts : list ysym) : Prop := forall x y, ts = x ++ y -> (0 <= depth x)%Z.
Lemma split_app : forall (a b x y : list ysym), a ++ b = x ++ y ->
  (exists z, a = x ++ z /\ y = z ++ b) \/ (exists z, x = a ++ z /\ b = z ++ y).
Proof.
  induction a as [|k a IH]; intros b x y E.
  - right. exists x. auto.
  - destruct x as [|k' x].
    + left. exists (k :: a). auto.
    + simpl in E. injection E as <- E. destruct (IH b x y E) as [(z & -> & ->)|(z & -> & ->)].
      * left. exists z. auto.
      * right. exists z. auto.
Qed.
Lemma nonneg_app : forall a b, nonneg a -> (0 <= depth a)%Z -> nonneg b -> nonneg (a ++ b).
Proof.
  intros a b Ha Hd Hb x y E. destruct (split_app _ _ _ _ E) as [(z & Ea & _)|(z & Ex & Eb)].
  - eapply Ha; eauto.
  - subst x. rewrite depth_app. specialize (Hb _ _ Eb). lia.
Qed.
Lemma nonneg_cons : forall k b, depth [k] = 0%Z -> nonneg b -> nonneg (k :: b).
Proof.
  intros k b Hk Hb x y E. destruct x as [|k' x]; [simpl; lia|]. simpl in E. injection E as <- E.
  change (k :: x) with ([k] ++ x). rewrite depth_app. specialize (Hb _ _ E). lia.
Qed.
Lemma nonneg_paren : forall b, nonneg b -> depth b = 0%Z -> nonneg (YLpar :: b ++ [YRpar]).
Proof.
  intros b Hb Hd x y E. destruct x as [|k x]; [simpl; lia|]. simpl in E. injection E as <- E. cbn [depth].
  destruct (split_app _ _ _ _ E) as [(z & Ea & _)|(z & -> & Eb)].
  - specialize (Hb _ _ Ea). lia.
  - rewrite depth_app. destruct z as [|k z]; cbn [depth]; [lia|]. simpl in Eb. injection Eb as <- Eb.
    symmetry in Eb. apply app_eq_nil in Eb. destruct Eb as [-> ->]. cbn [depth]. lia.
Qed.
Lemma nonneg_nil : nonneg [].
Proof. intros x y E. symmetry in E. apply app_eq_nil in E. destruct E as [-> ->]. simpl. lia. Qed.
Lemma derives_depth : forall t ts f, derives t ts f -> depth ts = 0%Z /\ nonneg ts.
Proof.
  intros t ts f H. induction H.
  - destruct H; (split; [try reflexivity; destruct o; reflexivity|]);
      repeat (apply nonneg_cons; [try reflexivity; destruct o; reflexivity|]); apply nonneg_nil.
  - destruct IHderives as [H1 H2]. split; [cbn [depth]; rewrite depth_app; cbn [depth]; lia|]. apply nonneg_paren; auto.
  - destruct IHderives as [H1 H2]. split; [simpl; auto|]. apply nonneg_cons; auto.
  - destruct IHderives1, IHderives2. split; [cbn [depth]; rewrite depth_app; cbn [depth]; lia|]. apply nonneg_app; auto; [lia|apply nonneg_cons; auto].
  - destruct IHderives1, IHderives2. split; [cbn [depth]; rewrite depth_app; cbn [depth]; lia|]. apply nonneg_app; auto; [lia|apply nonneg_cons; auto].
  - destruct IHderives1, IHderives2. split; [cbn [depth]; rewrite depth_app; cbn [depth]; lia|]. apply nonneg_app; auto; [lia|apply nonneg_cons; auto].
  - destruct IHderives1, IHderives2. split; [cbn [depth]; rewrite depth_app; cbn [depth]; lia|]. apply nonneg_app; auto; [lia|apply nonneg_cons; auto].
Qed.
Lemma derives_ne : forall t ts f, derives t ts f -> ts <> [].
Proof.
  intros t ts f H. induction H; try discriminate.
  - destruct H; discriminate.
  - destruct a; discriminate.
  - destruct a; discriminate.
  - destruct a; discriminate.
  - destruct a; discriminate.
Qed.
(** no binary operator outside parentheses *)
Definition solid (ts : list ysym) : Prop :=
  forall x o y, ts = x ++ op_sym o :: y -> (1 <= depth x)%Z.
Lemma solid_paren : forall b, nonneg b -> solid (YLpar :: b ++ [YRpar]).
Proof.
  intros b Hb x o y E. destruct x as [|k x]; [simpl in E; destruct o; discriminate E|].
  simpl in E. injection E as <- E. cbn [depth].
  destruct (split_app _ _ _ _ E) as [(z & Ea & _)|(z & -> & Eb)].
  - specialize (Hb _ _ Ea). lia.
  - destruct z as [|k z]; simpl in Eb.
    + injection Eb as Eb _. destruct o; discriminate Eb.
    + injection Eb as _ Eb. destruct z; discriminate Eb.
Qed.
Lemma solid_flat : forall ts, (forall o, ~ In (op_sym o) ts) -> solid ts.
Proof. intros ts H x o y ->. exfalso. apply (H o). apply in_or_app. right. left. reflexivity. Qed.

(** the derivations of a text in parentheses *)
Lemma derives_paren : forall t b g, nonneg b -> derives t (YLpar :: b ++ [YRpar]) g -> derives t b g.
Proof.
  intros t b g Hb H.
  assert (Hs := solid_paren b Hb).
  assert (Bin : forall o x f y h, derives t x f -> derives t y h -> YLpar :: b ++ [YRpar] = x ++ op_sym o :: y -> False).
  { intros o x f y h Hx Hy E. specialize (Hs _ _ _ E). destruct (derives_depth _ _ _ Hx). lia. }
  inversion H; subst.
  - inversion H0.
  - apply app_inj_tail in H0. destruct H0 as [-> _]. auto.
  - exfalso. apply (Bin OAnd a f b0 g0); auto.
  - exfalso. apply (Bin OOr a f b0 g0); auto.
  - exfalso. apply (Bin OImp a f b0 g0); auto.
  - exfalso. apply (Bin OIff a f b0 g0); auto.
Qed.
(** splitting at the only operator outside parentheses *)
Lemma split_at : forall a o b x o' y, solid a -> solid b -> depth a = 0%Z -> depth x = 0%Z ->
  a ++ op_sym o :: b = x ++ op_sym o' :: y -> a = x /\ o = o' /\ b = y.
Proof.
  intros a o b x o' y Ha Hb Hda Hd E. destruct (split_app _ _ _ _ E) as [(z & Ea & Ey)|(z & Ex & Eb)].
  - destruct z as [|k z]; simpl in Ey.
    + rewrite app_nil_r in Ea. subst a. injection Ey as Ey ->. destruct o, o'; try discriminate Ey; auto.
    + injection Ey as <- _. specialize (Ha _ _ _ Ea). lia.
  - destruct z as [|k z]; simpl in Eb.
    + rewrite app_nil_r in Ex. subst x. injection Eb as Ey ->. destruct o, o'; try discriminate Ey; auto.
    + injection Eb as <- Eb. specialize (Hb _ _ _ Eb). subst x. rewrite depth_app in Hd. simpl in Hd.
      destruct o; simpl in Hd; lia.
Qed.

Lemma toks_facts : forall f, depth (toks f) = 0%Z /\ nonneg (toks f) /\ solid (toks f) /\
  (exists k r, toks f = k :: r /\ k <> YBang /\ (k = YLpar -> exists b, toks f = YLpar :: b ++ [YRpar] /\ nonneg b /\ depth b = 0%Z)).
Proof.
  assert (P : forall b, depth b = 0%Z -> nonneg b -> let ts := YLpar :: b ++ [YRpar] in
     depth ts = 0%Z /\ nonneg ts /\ solid ts /\
     (exists k r, ts = k :: r /\ k <> YBang /\ (k = YLpar -> exists b, ts = YLpar :: b ++ [YRpar] /\ nonneg b /\ depth b = 0%Z))).
  { intros b Hd Hb ts. split; [unfold ts; cbn [depth]; rewrite depth_app; cbn [depth]; lia|].
    split; [apply nonneg_paren; auto|]. split; [apply solid_paren; auto|].
    exists YLpar, (b ++ [YRpar]). split; auto. split; [discriminate|]. intros _. exists b. auto. }
  assert (S1 : forall f g, (depth (toks f) = 0%Z /\ nonneg (toks f)) -> depth (tside toks f g) = 0%Z /\ nonneg (tside toks f g)).
  { intros f g H. unfold tside. destruct (is_const f && is_var g); auto. split; auto. apply nonneg_cons; auto. apply nonneg_nil. }
  assert (B : forall o f g, depth (toks f) = 0%Z /\ nonneg (toks f) -> depth (toks g) = 0%Z /\ nonneg (toks g) ->
     depth (tside toks f g ++ op_sym o :: tside toks g f) = 0%Z /\ nonneg (tside toks f g ++ op_sym o :: tside toks g f)).
  { intros o f g Hf Hg. destruct (S1 f g Hf), (S1 g f Hg). split.
    - rewrite depth_app. destruct o; simpl; lia.
    - apply nonneg_app; auto; [lia|]. apply nonneg_cons; auto. destruct o; reflexivity. }
  assert (A : forall k r, k <> YBang -> k <> YLpar -> (forall k', In k' (k :: r) -> depth [k'] = 0%Z /\ forall o, k' <> op_sym o) ->
     depth (k :: r) = 0%Z /\ nonneg (k :: r) /\ solid (k :: r) /\
     (exists k' r', k :: r = k' :: r' /\ k' <> YBang /\ (k' = YLpar -> exists b, k :: r = YLpar :: b ++ [YRpar] /\ nonneg b /\ depth b = 0%Z))).
  { intros k r H1 H2 H. split; [|split; [|split]].
    - assert (G : forall l, (forall k', In k' l -> depth [k'] = 0%Z) -> depth l = 0%Z).
      { induction l as [|c l IH]; auto. intros Hl. change (c :: l) with ([c] ++ l). rewrite depth_app, IH by (intros; apply Hl; right; auto).
        rewrite Hl by (left; auto). reflexivity. }
      apply G. intros k' Hk'. apply H; auto.
    - assert (G : forall l, (forall k', In k' l -> depth [k'] = 0%Z) -> nonneg l).
      { induction l as [|c l IH]; [intros; apply nonneg_nil|]. intros Hl. apply nonneg_cons; [apply Hl; left; auto|].
        apply IH. intros; apply Hl; right; auto. }
      apply G. intros k' Hk'. apply H; auto.
    - apply solid_flat. intros o Ho. destruct (H _ Ho) as [_ Hn]. apply (Hn o). reflexivity.
    - exists k, r. split; auto. split; auto. intros E. congruence. }
  assert (Q : forall f, (depth (toks f) = 0%Z /\ nonneg (toks f) /\ solid (toks f) /\
    (exists k r, toks f = k :: r /\ k <> YBang /\ (k = YLpar -> exists b, toks f = YLpar :: b ++ [YRpar] /\ nonneg b /\ depth b = 0%Z))) ->
    depth (toks f) = 0%Z /\ nonneg (toks f)) by (intros f H; tauto).
  induction f.
  - apply A; try discriminate. intros k' [<-|[]]. split; auto. destruct o; discriminate.
  - apply A; try discriminate. intros k' [<-|[]]. split; auto. destruct o; discriminate.
  - apply A; try discriminate. intros k' [<-|[]]. split; auto. destruct o; discriminate.
  - apply A; try discriminate. intros k' [<-|[<-|[]]]; (split; [reflexivity|]; destruct o; discriminate).
  - assert (E : toks (FCmp primed x o k) = YLpar :: ((if primed then [YVar x; YQuote] else [YVar x]) ++ [cmp_sym o; YNum k]) ++ [YRpar]).
    { simpl. rewrite <- app_assoc. reflexivity. }
    rewrite E. apply P.
    + destruct primed, o; reflexivity.
    + destruct primed; simpl; repeat (apply nonneg_cons; [try reflexivity; destruct o; reflexivity|]); apply nonneg_nil.
  - apply Q in IHf. destruct IHf. apply (P (YBang :: toks f)); auto. apply nonneg_cons; auto.
  - destruct (B OAnd f1 f2 (Q _ IHf1) (Q _ IHf2)). apply P; auto.
  - destruct (B OOr f1 f2 (Q _ IHf1) (Q _ IHf2)). apply P; auto.
  - destruct (B OImp f1 f2 (Q _ IHf1) (Q _ IHf2)). apply P; auto.
  - destruct (B OIff f1 f2 (Q _ IHf1) (Q _ IHf2)). apply P; auto.
Qed.

Lemma op_not_atom : forall t a o b f, ~ atom t (a ++ op_sym o :: b) f.
Proof.
  intros t a o b f H. inversion H as [E|E|x E|x Ht E|x o' k E|x o' k Ht E];
    repeat (destruct a as [|? a]; simpl in E; try discriminate E; injection E as ? E; subst);
    try (destruct a; discriminate E); destruct o; try discriminate; destruct o'; discriminate.
Qed.
(** the derivations of two printed operands joined by an operator *)
Lemma derives_binary : forall t o f g h, derives t (toks f ++ op_sym o :: toks g) h ->
  exists f' g', derives t (toks f) f' /\ derives t (toks g) g' /\ h = op_form o f' g'.
Proof.
  intros t o f g h H.
  destruct (toks_facts f) as (Hd & Hn & Hs & k & r & Ek & Hb & Hl).
  destruct (toks_facts g) as (Hd' & Hn' & Hs' & _).
  assert (Bin : forall o' x f' y g', derives t x f' -> derives t y g' -> x ++ op_sym o' :: y = toks f ++ op_sym o :: toks g ->
     h = op_form o' f' g' ->
     exists f' g', derives t (toks f) f' /\ derives t (toks g) g' /\ h = op_form o f' g').
  { intros o' x f' y g' Hx Hy E Eh. destruct (derives_depth _ _ _ Hx).
    symmetry in E. apply split_at in E; auto. destruct E as (<- & <- & <-). eauto. }
  inversion H; subst.
  - exfalso. eapply op_not_atom; eauto.
  - exfalso. rewrite Ek in H0. simpl in H0. injection H0 as <- H0. destruct (Hl eq_refl) as (b & Eb & Hnb & Hdb).
    rewrite Ek in Eb. injection Eb as ->.
    destruct (derives_depth _ _ _ H1) as [D1 D2]. symmetry in H0.
    destruct (split_app _ _ _ _ H0) as [(z & Ez & Ey)|(z & Ez & Ey)].
    + destruct z as [|k z]; simpl in Ey; [destruct o; discriminate Ey|].
      injection Ey as _ Ey. destruct z; discriminate Ey.
    + specialize (D2 _ _ Ez). rewrite depth_app in D2. simpl in D2. lia.
  - exfalso. rewrite Ek in H0. simpl in H0. injection H0 as H0 _. congruence.
  - apply (Bin OAnd a f0 b g0); auto.
  - apply (Bin OOr a f0 b g0); auto.
  - apply (Bin OImp a f0 b g0); auto.
  - apply (Bin OIff a f0 b g0); auto.
Qed.
Lemma no_op : forall a o b l, (forall k, In k l -> binop_of k = None) -> a ++ op_sym o :: b = l -> False.
Proof.
  intros a o b l H E. assert (Hi : In (op_sym o) l) by (rewrite <- E; apply in_or_app; right; left; auto).
  apply H in Hi. rewrite binop_op_sym in Hi. discriminate.
Qed.
Ltac cmp_in H o := repeat (destruct H as [<-|H]; [try reflexivity; destruct o; reflexivity|]); destruct H.
Lemma cmp_sym_inj : forall o o', cmp_sym o = cmp_sym o' -> o = o'.
Proof. intros [] [] H; try reflexivity; discriminate H. Qed.
Lemma toks_unique : forall t f, clash_free f = true -> forall g, derives t (toks f) g -> g = f.
Proof.
  assert (B : forall t o f g, clash_free f && clash_free g && negb (clash f g) = true ->
    (clash_free f = true -> forall h, derives t (toks f) h -> h = f) ->
    (clash_free g = true -> forall h, derives t (toks g) h -> h = g) ->
    forall h, derives t (YLpar :: (tside toks f g ++ op_sym o :: tside toks g f) ++ [YRpar]) h -> h = op_form o f g).
  { intros t o f g H Hf Hg h Hh. apply andb_true_iff in H. destruct H as [H Hc].
    apply andb_true_iff in H. destruct H as [H1 H2]. apply negb_true_iff in Hc.
    destruct (tside_plain f g Hc) as [E1 E2]. rewrite E1, E2 in Hh.
    destruct (toks_facts f) as (Df & Nf & _). destruct (toks_facts g) as (Dg & Ng & _).
    apply derives_paren in Hh.
    - apply derives_binary in Hh. destruct Hh as (f' & g' & Hf' & Hg' & ->).
      rewrite (Hf H1 _ Hf'), (Hg H2 _ Hg'). reflexivity.
    - apply nonneg_app; auto; [lia|]. apply nonneg_cons; auto. destruct o; reflexivity. }
  intros t f. induction f; intros Hc h H; simpl in Hc.
  - inversion H as [ts f H0| | | | | |]; subst; [inversion H0; auto|..];
      exfalso; match goal with E : ?a ++ _ :: _ = _ |- _ => destruct a as [|? [|? ?]]; discriminate E end.
  - inversion H as [ts f H0| | | | | |]; subst; [inversion H0; auto|..];
      exfalso; match goal with E : ?a ++ _ :: _ = _ |- _ => destruct a as [|? [|? ?]]; discriminate E end.
  - inversion H as [ts f H0| | | | | |]; subst; [inversion H0; auto|..];
      exfalso; match goal with E : ?a ++ _ :: _ = _ |- _ => destruct a as [|? [|? ?]]; discriminate E end.
  - inversion H as [ts f H0| | | | | |]; subst; [inversion H0; subst; auto|..];
      exfalso; match goal with E : ?a ++ _ :: _ = _ |- _ => destruct a as [|? [|? [|? ?]]]; discriminate E end.
  - assert (E : toks (FCmp primed x o k) = YLpar :: ((if primed then [YVar x; YQuote] else [YVar x]) ++ [cmp_sym o; YNum k]) ++ [YRpar]).
    { simpl. rewrite <- app_assoc. reflexivity. }
    rewrite E in H. apply derives_paren in H.
    2: { destruct primed; simpl; repeat (apply nonneg_cons; [try reflexivity; destruct o; reflexivity|]); apply nonneg_nil. }
    destruct primed; simpl in H.
    + inversion H as [ts f H0| | | | | |]; subst.
      * inversion H0; subst.
        match goal with E1 : cmp_sym o0 = cmp_sym o |- _ => apply cmp_sym_inj in E1; subst o0 end. reflexivity.
      * exfalso. refine (no_op a OAnd b _ _ H2). intros k' Hk'. simpl in Hk'. cmp_in Hk' o.
      * exfalso. refine (no_op a OOr b _ _ H2). intros k' Hk'. simpl in Hk'. cmp_in Hk' o.
      * exfalso. refine (no_op a OImp b _ _ H2). intros k' Hk'. simpl in Hk'. cmp_in Hk' o.
      * exfalso. refine (no_op a OIff b _ _ H2). intros k' Hk'. simpl in Hk'. cmp_in Hk' o.
    + inversion H as [ts f H0| | | | | |]; subst.
      * inversion H0; subst.
        match goal with E1 : cmp_sym o0 = cmp_sym o |- _ => apply cmp_sym_inj in E1; subst o0 end. reflexivity.
      * exfalso. refine (no_op a OAnd b _ _ H2). intros k' Hk'. simpl in Hk'. cmp_in Hk' o.
      * exfalso. refine (no_op a OOr b _ _ H2). intros k' Hk'. simpl in Hk'. cmp_in Hk' o.
      * exfalso. refine (no_op a OImp b _ _ H2). intros k' Hk'. simpl in Hk'. cmp_in Hk' o.
      * exfalso. refine (no_op a OIff b _ _ H2). intros k' Hk'. simpl in Hk'. cmp_in Hk' o.
  - cbn [toks] in H. destruct (toks_facts f) as (Df & Nf & Sf & _).
    apply (derives_paren t (YBang :: toks f)) in H; [|apply nonneg_cons; auto].
    assert (Bin : forall o x f' y g', derives t x f' -> derives t y g' -> x ++ op_sym o :: y = YBang :: toks f -> False).
    { intros o x f' y g' Hx Hy E. destruct x as [|k x]; [destruct o; discriminate E|].
      simpl in E. injection E as -> E. symmetry in E. specialize (Sf _ _ _ E).
      destruct (derives_depth _ _ _ Hx) as [D _]. simpl in D. lia. }
    inversion H; subst.
    + inversion H0.
    + rewrite (IHf Hc f0); auto.
    + exfalso. apply (Bin OAnd a f0 b g); auto.
    + exfalso. apply (Bin OOr a f0 b g); auto.
    + exfalso. apply (Bin OImp a f0 b g); auto.
    + exfalso. apply (Bin OIff a f0 b g); auto.
  - apply (B t OAnd f1 f2 Hc IHf1 IHf2 h H).
  - apply (B t OOr f1 f2 Hc IHf1 IHf2 h H).
  - apply (B t OImp f1 f2 Hc IHf1 IHf2 h H).
  - apply (B t OIff f1 f2 Hc IHf1 IHf2 h H).
Qed.
