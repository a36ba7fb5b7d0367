(** The scanner on printed text. *)
From Coq Require Import List ZArith Lia Bool Arith Ascii String.
From Verif Require Import Base Strs AutIO AutIOProofs Lex.
Import ListNotations.
Open Scope string_scope.
Open Scope list_scope.
Open Scope nat_scope.

(** ** Longest match *)
Lemma best_in : forall rs s k a, best rs s = Some (k, a) -> exists p, In (p, a) rs /\ p s = Some k.
Proof.
  induction rs as [|[p b] rs IH]; intros s k a H; simpl in H; [discriminate|].
  destruct (p s) as [k0|] eqn:Ep.
  - destruct (best rs s) as [[k1 a1]|] eqn:Eb.
    + destruct (k0 <? k1).
      * injection H as -> ->. destruct (IH s k a Eb) as (q & Hq & Hk). exists q. split; [right; auto|auto].
      * injection H as -> ->. exists p. split; [left; auto|auto].
    + injection H as -> ->. exists p. split; [left; auto|auto].
  - destruct (IH s k a H) as (q & Hq & Hk). exists q. split; [right; auto|auto].
Qed.
Lemma best_some : forall rs s p a k, In (p, a) rs -> p s = Some k -> best rs s <> None.
Proof.
  induction rs as [|[q b] rs IH]; intros s p a k Hi Hp H; [destruct Hi|]. simpl in H.
  destruct Hi as [E|Hi].
  - injection E as -> ->. rewrite Hp in H. destruct (best rs s) as [[k1 a1]|]; [destruct (k <? k1)|]; discriminate.
  - destruct (q s); [|exact (IH _ _ _ _ Hi Hp H)].
    destruct (best rs s) as [[k1 a1]|]; [destruct (_ <? k1)|]; discriminate.
Qed.
(** the rules before lose strictly, the rules after do not match longer *)
Lemma best_split : forall r1 p a r2 s k, p s = Some k ->
  (forall q b j, In (q, b) r1 -> q s = Some j -> j < k) ->
  (forall q b j, In (q, b) r2 -> q s = Some j -> j <= k) ->
  best (r1 ++ (p, a) :: r2) s = Some (k, a).
Proof.
  intros r1 p a r2 s k Hp H1 H2. induction r1 as [|[q b] r1 IH]; simpl.
  - rewrite Hp. destruct (best r2 s) as [[j c]|] eqn:E; auto.
    destruct (best_in _ _ _ _ E) as (q & Hq & Hj). pose proof (H2 _ _ _ Hq Hj).
    replace (k <? j) with false by (symmetry; apply Nat.ltb_ge; lia). auto.
  - rewrite IH by (intros; eapply H1; [right; eauto|eauto]).
    destruct (q s) as [j|] eqn:E; auto. pose proof (H1 _ _ _ (or_introl eq_refl) E).
    replace (j <? k) with true by (symmetry; apply Nat.ltb_lt; lia). auto.
Qed.

(** ** Progress: the scanner needs no more steps than there are characters *)
Lemma drop_length : forall k s, String.length (drop k s) = String.length s - k.
Proof. induction k; intros [|c s]; simpl; auto. Qed.
Lemma span_le : forall p s, span p s <= String.length s.
Proof. induction s; simpl; [lia|]. destruct (p a); lia. Qed.
Lemma lit_pos : forall l s k, lit l s = Some k -> k = String.length l.
Proof. intros l s k H. unfold lit in H. destruct (prefix l s); congruence. Qed.
Lemma run_lit_pos : forall p l s k, run_lit p l s = Some k -> String.length l <= k.
Proof.
  intros p l s k H. unfold run_lit in H. destruct (lit l (drop (span p s) s)) eqn:E; [|discriminate].
  apply lit_pos in E. injection H as <-. lia.
Qed.
Lemma rule_pos : forall bol p a s k, In (p, a) (rules bol) -> p s = Some k ->
  0 < k /\ (a = Unput -> 1 < k).
Proof.
  intros bol p a s k Hi H. unfold rules in Hi.
  repeat (destruct Hi as [E|Hi]; [injection E as <- <-; try (split; [|discriminate])|]);
    try (apply lit_pos in H; subst k; simpl; lia);
    try (unfold keyword in H; destruct bol; [|discriminate]; apply run_lit_pos in H; simpl in H; lia);
    try (unfold m_char in H; destruct s as [|c s]; [discriminate|];
         match type of H with (if ?b then _ else _) = _ => destruct b end; [|discriminate]; injection H as <-; lia).
  - unfold and_lit in H. destruct s; [discriminate|]. destruct (Ascii.eqb a "&"); [|discriminate].
    destruct (run_lit blank "[]<>" s); [|discriminate]. simpl in H. injection H as <-. lia.
  - unfold and_lit in H. destruct s; [discriminate|]. destruct (Ascii.eqb a "&"); [|discriminate].
    destruct (run_lit blank "[]" s); [|discriminate]. simpl in H. injection H as <-. lia.
  - unfold m_ident in H. destruct s; [discriminate|]. destruct (ident_start a); [|discriminate]. injection H as <-. lia.
  - unfold m_number in H. destruct (span isdigit s =? 0) eqn:E; [discriminate|]. apply Nat.eqb_neq in E.
    destruct (drop (span isdigit s) s); [injection H as <-; lia|].
    destruct (_ && _); injection H as <-; lia.
  - unfold m_comment in H. destruct s; [discriminate|]. destruct (Ascii.eqb a "#"); [|discriminate].
    destruct (drop (span not_newline s) s); [discriminate|]. injection H as <-. lia.
  - unfold m_spaces in H. destruct (span wspace s =? 0) eqn:E; [discriminate|]. apply Nat.eqb_neq in E.
    injection H as <-. lia.
  - destruct Hi.
Qed.
(** the scanner never jams *)
Lemma best_total : forall bol c s, exists k a, best (rules bol) (String c s) = Some (k, a).
Proof.
  intros bol c s. destruct (best (rules bol) (String c s)) as [[k a]|] eqn:E; eauto.
  exfalso. destruct (Ascii.eqb newline c) eqn:En.
  - revert E. apply (best_some _ _ (m_char (Ascii.eqb newline)) Ignore 1).
    + do 11 right. left. reflexivity.
    + unfold m_char. rewrite En. reflexivity.
  - revert E. apply (best_some _ _ (m_char not_newline) (Return (fun t => CH (first_char t))) 1).
    + do 26 right. left. reflexivity.
    + unfold m_char, not_newline. rewrite Ascii.eqb_sym, En. reflexivity.
Qed.
Lemma lex_fuel : forall f1 f2 b s, String.length s <= f1 -> String.length s <= f2 ->
  yylex_all f1 b s = yylex_all f2 b s.
Proof.
  induction f1; intros f2 b s H1 H2.
  - destruct s; simpl in H1; [destruct f2; reflexivity|lia].
  - destruct s as [|c s]; [destruct f2; reflexivity|].
    destruct f2; [simpl in H2; lia|]. simpl in H1, H2. cbn [yylex_all].
    destruct (best_total b c s) as (k & a & E). rewrite E.
    destruct (best_in _ _ _ _ E) as (p & Hp & Hk). destruct (rule_pos _ _ _ _ _ Hp Hk) as (Hpos & Hu).
    assert (Hl : forall j, 0 < j -> String.length (drop j (String c s)) <= f1 /\
                                    String.length (drop j (String c s)) <= f2).
    { intros j Hj. rewrite drop_length. simpl String.length. lia. }
    destruct a.
    + rewrite (IHf1 f2); auto; apply Hl; auto.
    + apply IHf1; apply Hl; auto.
    + specialize (Hu eq_refl). apply IHf1; apply Hl; lia.
Qed.
Lemma lex_total : forall f b s, String.length s <= f -> exists l, yylex_all f b s = Ok l.
Proof.
  induction f; intros b s H.
  - destruct s; simpl in H; [exists []; reflexivity|lia].
  - destruct s as [|c s]; [exists []; reflexivity|]. simpl in H. cbn [yylex_all].
    destruct (best_total b c s) as (k & a & E). rewrite E.
    destruct (best_in _ _ _ _ E) as (p & Hp & Hk). destruct (rule_pos _ _ _ _ _ Hp Hk) as (Hpos & Hu).
    assert (Hl : forall j, 0 < j -> String.length (drop j (String c s)) <= f).
    { intros j Hj. rewrite drop_length. simpl String.length. lia. }
    destruct a.
    + destruct (IHf (ends_line (substring 0 k (String c s))) (drop k (String c s)) (Hl k Hpos)) as (l & ->).
      simpl. eauto.
    + apply IHf. auto.
    + apply IHf. apply Hl. specialize (Hu eq_refl). lia.
Qed.

(** the tokens of [s], read from a position that is ([b]) or is not at the beginning
    of a line *)
Definition lx (b : bool) (s : string) : out (list token) := yylex_all (S (String.length s)) b s.
Lemma lx_nil : forall b, lx b "" = Ok [].
Proof. reflexivity. Qed.
Lemma lx_return : forall b s k g, s <> "" -> best (rules b) s = Some (k, Return g) ->
  lx b s = (l <- lx (ends_line (substring 0 k s)) (drop k s) ;; Ok (g (substring 0 k s) :: l)).
Proof.
  intros b s k g Hs E. unfold lx. destruct s as [|c s]; [congruence|].
  cbn [yylex_all]. rewrite E.
  rewrite (lex_fuel (String.length (String c s)) (S (String.length (drop k (String c s))))); auto.
  rewrite drop_length. lia.
Qed.
Lemma lx_ignore : forall b s k, s <> "" -> best (rules b) s = Some (k, Ignore) ->
  lx b s = lx (ends_line (substring 0 k s)) (drop k s).
Proof.
  intros b s k Hs E. unfold lx. destruct s as [|c s]; [congruence|].
  transitivity (yylex_all (String.length (String c s)) (ends_line (substring 0 k (String c s))) (drop k (String c s))).
  - cbn [yylex_all]. rewrite E. reflexivity.
  - destruct (best_in _ _ _ _ E) as (p & Hp & Hk). destruct (rule_pos _ _ _ _ _ Hp Hk) as (Hpos & _).
    apply lex_fuel; rewrite drop_length; lia.
Qed.

(** ** Strings *)
Fixpoint all_chars (p : ascii -> bool) (s : string) : bool :=
  match s with EmptyString => true | String c r => p c && all_chars p r end.
Definition head_is (p : ascii -> bool) (s : string) : bool :=
  match s with EmptyString => false | String c _ => p c end.
Lemma span_app : forall p x s, all_chars p x = true -> head_is p s = false ->
  span p (x ++ s) = String.length x.
Proof.
  induction x as [|c x IH]; intros s Hx Hs; simpl in *.
  - destruct s; simpl in *; auto. rewrite Hs. reflexivity.
  - apply andb_true_iff in Hx. destruct Hx as [-> Hx]. rewrite IH; auto.
Qed.
Lemma drop_app : forall x s, drop (String.length x) (x ++ s) = s.
Proof. induction x; intros s; simpl; auto. Qed.
Lemma substring_app : forall x s, substring 0 (String.length x) (x ++ s) = x.
Proof.
  induction x; intros s; simpl; [destruct s; reflexivity|]. rewrite IHx. reflexivity.
Qed.
Lemma ends_line_no : forall p x, all_chars p x = true -> p newline = false -> ends_line x = false.
Proof.
  intros p x Hx Hp. unfold ends_line.
  assert (H : forall k c, String.get k x = Some c -> p c = true).
  { induction x as [|d x IH]; intros k c Hk; [destruct k; discriminate|].
    simpl in Hx. apply andb_true_iff in Hx. destruct Hx as [Hd Hx].
    destruct k; simpl in Hk; [congruence|]. eapply IH; eauto. }
  destruct (String.get (Nat.pred (String.length x)) x) as [c|] eqn:E; auto.
  specialize (H _ _ E). destruct (Ascii.eqb c newline) eqn:En; auto.
  apply Ascii.eqb_eq in En. congruence.
Qed.
Lemma prefix_app_short : forall p l x s, all_chars p l = true -> head_is p s = false ->
  prefix l (x ++ s) = true -> prefix l x = true.
Proof.
  induction l as [|c l IH]; intros x s Hl Hs H; [destruct x; reflexivity|].
  simpl in Hl. apply andb_true_iff in Hl. destruct Hl as [Hc Hl].
  destruct x as [|d x].
  - simpl in H. destruct s as [|d s]; [discriminate|]. simpl in H. destruct (ascii_dec c d); [|discriminate H].
    subst d. simpl in Hs. congruence.
  - simpl in H |- *. destruct (ascii_dec c d); [|discriminate H]. eapply IH; eauto.
Qed.
Lemma prefix_length : forall l x, prefix l x = true -> String.length l <= String.length x.
Proof.
  induction l as [|c l IH]; intros [|d x] H; simpl in *; try lia; try discriminate H.
  destruct (ascii_dec c d); [|discriminate H]. apply IH in H. lia.
Qed.
Lemma prefix_full : forall l x, prefix l x = true -> String.length l = String.length x -> l = x.
Proof.
  induction l as [|c l IH]; intros [|d x] H E; simpl in *; auto; try discriminate H; try discriminate E.
  destruct (ascii_dec c d); [|discriminate H]. subst. f_equal. apply IH; auto.
Qed.
(** a literal with a character outside [p] at its end does not lie in [x ++ s] *)
Lemma prefix_stop : forall p l d x s, all_chars p x = true -> head_is (fun c => Ascii.eqb c d) s = false ->
  head_is p s = false -> all_chars p l = true -> p d = false -> prefix (l ++ String d "") (x ++ s) = false.
Proof.
  induction l as [|c l IH]; intros d x s Hx Hd Hs Hl Hp.
  - destruct x as [|e x]; simpl.
    + destruct s as [|e s]; auto. simpl in Hd. simpl. destruct (ascii_dec d e); auto. subst e.
      rewrite Ascii.eqb_refl in Hd. discriminate.
    + simpl in Hx. apply andb_true_iff in Hx. destruct Hx as [He Hx].
      destruct (ascii_dec d e); auto. subst e. congruence.
  - simpl in Hl. apply andb_true_iff in Hl. destruct Hl as [Hc Hl]. destruct x as [|e x].
    + simpl. destruct s as [|e s]; auto. simpl. destruct (ascii_dec c e); auto. subst e. simpl in Hs. congruence.
    + simpl in Hx. apply andb_true_iff in Hx. destruct Hx as [He Hx]. simpl.
      destruct (ascii_dec c e); auto.
Qed.

(** what may follow a name or a number *)
Definition sep (s : string) : Prop :=
  head_is ident_char s = false /\ head_is (fun c => Ascii.eqb c ":") s = false.

Definition is_ident (x : string) : bool :=
  match x with EmptyString => false | String c r => ident_start c && all_chars ident_char r end.
Ltac char_cases c H :=
  destruct c as [b0 b1 b2 b3 b4 b5 b6 b7];
  destruct b0, b1, b2, b3, b4, b5, b6, b7; try discriminate H.

Lemma lx_char : forall c b s, mem c "()|;,'=" = true ->
  lx b (String c s) = (l <- lx false s ;; Ok (CH c :: l)).
Proof.
  intros c b s H. rewrite (lx_return b (String c s) 1 (fun t => CH (first_char t))).
  - char_cases c H; destruct s; reflexivity.
  - discriminate.
  - destruct b; char_cases c H; reflexivity.
Qed.
(** the other single characters, followed by something that does not extend them *)
Lemma lx_amp : forall b s, head_is (fun c => blank c || Ascii.eqb c "[") s = false ->
  lx b (String "&" s) = (l <- lx false s ;; Ok (CH "&" :: l)).
Proof.
  intros b s H. rewrite (lx_return b (String "&" s) 1 (fun t => CH (first_char t))).
  - destruct s; reflexivity.
  - discriminate.
  - destruct s as [|c s]; [destruct b; reflexivity|]. cbn [head_is] in H.
    destruct b; char_cases c H; reflexivity.
Qed.
Lemma lx_bang : forall b s, head_is (fun c => Ascii.eqb c "=") s = false ->
  lx b (String "!" s) = (l <- lx false s ;; Ok (CH "!" :: l)).
Proof.
  intros b s H. rewrite (lx_return b (String "!" s) 1 (fun t => CH (first_char t))).
  - destruct s; reflexivity.
  - discriminate.
  - destruct s as [|c s]; [destruct b; reflexivity|]. cbn [head_is] in H.
    destruct b; char_cases c H; reflexivity.
Qed.
Lemma lx_gt : forall b s, head_is (fun c => Ascii.eqb c "=") s = false ->
  lx b (String ">" s) = (l <- lx false s ;; Ok (CH ">" :: l)).
Proof.
  intros b s H. rewrite (lx_return b (String ">" s) 1 (fun t => CH (first_char t))).
  - destruct s; reflexivity.
  - discriminate.
  - destruct s as [|c s]; [destruct b; reflexivity|]. cbn [head_is] in H.
    destruct b; char_cases c H; reflexivity.
Qed.
Lemma lx_lt : forall b s, head_is (fun c => mem c "=>-") s = false ->
  lx b (String "<" s) = (l <- lx false s ;; Ok (CH "<" :: l)).
Proof.
  intros b s H. rewrite (lx_return b (String "<" s) 1 (fun t => CH (first_char t))).
  - destruct s; reflexivity.
  - discriminate.
  - destruct s as [|c s]; [destruct b; reflexivity|]. cbn [head_is] in H.
    destruct b; char_cases c H; reflexivity.
Qed.
(** operators of several characters *)
Lemma lx_le : forall b s, lx b ("<=" ++ s) = (l <- lx false s ;; Ok (LE_OP :: l)).
Proof. intros b s. rewrite (lx_return b _ 2 (fun _ => LE_OP)); [destruct s; reflexivity|discriminate|]. destruct b, s; reflexivity. Qed.
Lemma lx_ge : forall b s, lx b (">=" ++ s) = (l <- lx false s ;; Ok (GE_OP :: l)).
Proof. intros b s. rewrite (lx_return b _ 2 (fun _ => GE_OP)); [destruct s; reflexivity|discriminate|]. destruct b, s; reflexivity. Qed.
Lemma lx_ne : forall b s, lx b ("!=" ++ s) = (l <- lx false s ;; Ok (NOT_EQUALS :: l)).
Proof. intros b s. rewrite (lx_return b _ 2 (fun _ => NOT_EQUALS)); [destruct s; reflexivity|discriminate|]. destruct b, s; reflexivity. Qed.
Lemma lx_imp : forall b s, lx b ("->" ++ s) = (l <- lx false s ;; Ok (IMPLIES :: l)).
Proof. intros b s. rewrite (lx_return b _ 2 (fun _ => IMPLIES)); [destruct s; reflexivity|discriminate|]. destruct b, s; reflexivity. Qed.
Lemma lx_iff : forall b s, lx b ("<->" ++ s) = (l <- lx false s ;; Ok (EQUIV :: l)).
Proof. intros b s. rewrite (lx_return b _ 3 (fun _ => EQUIV)); [destruct s; reflexivity|discriminate|]. destruct b, s; reflexivity. Qed.

(** facts about all characters, checked by computation *)
Definition all_ascii : list ascii := map ascii_of_nat (seq 0 256).
Lemma all_ascii_in : forall c, In c all_ascii.
Proof.
  intros c. rewrite <- (ascii_nat_embedding c). apply in_map. apply in_seq.
  pose proof (nat_ascii_bounded c). lia.
Qed.
Lemma by_chars : forall p q : ascii -> bool, forallb (fun c => implb (p c) (q c)) all_ascii = true ->
  forall c, p c = true -> q c = true.
Proof.
  intros p q H c Hp. rewrite forallb_forall in H. specialize (H c (all_ascii_in c)).
  rewrite Hp in H. exact H.
Qed.
(** no rule for punctuation, spaces or comments starts with [c] *)
Definition plain (c : ascii) : bool :=
  negb (mem c "&[<>!-()|=';,#") && negb (Ascii.eqb newline c) && negb (wspace c).
Lemma ident_plain : forall c, ident_start c = true -> plain c = true.
Proof. apply by_chars. vm_compute. reflexivity. Qed.
Lemma ident_nodigit : forall c, ident_start c = true -> negb (isdigit c) = true.
Proof. apply (by_chars ident_start (fun c => negb (isdigit c))). vm_compute. reflexivity. Qed.
Lemma digit_plain : forall c, isdigit c = true -> plain c = true.
Proof. apply by_chars. vm_compute. reflexivity. Qed.
Lemma digit_noident : forall c, isdigit c = true -> negb (ident_start c) && negb (mem c "TFES") = true.
Proof. apply (by_chars isdigit (fun c => negb (ident_start c) && negb (mem c "TFES"))). vm_compute. reflexivity. Qed.
Lemma lit_ne : forall d l c s, Ascii.eqb c d = false -> lit (String d l) (String c s) = None.
Proof.
  intros d l c s H. unfold lit. simpl. destruct (ascii_dec d c); auto. subst.
  rewrite Ascii.eqb_refl in H. discriminate.
Qed.
Lemma mem_split : forall c s d r, s = String d r -> mem c s = false -> Ascii.eqb c d = false /\ mem c r = false.
Proof. intros c s d r -> H. simpl in H. apply orb_false_iff in H. auto. Qed.
Lemma plain_punct : forall b c s q a j, plain c = true -> In (q, a) (firstn 12 (rules b)) ->
  q (String c s) = Some j -> False.
Proof.
  intros b c s q a j Hp Hi Hq. unfold plain in Hp.
  apply andb_true_iff in Hp. destruct Hp as [Hp Hw]. apply andb_true_iff in Hp. destruct Hp as [Hp Hn].
  apply negb_true_iff in Hp, Hn, Hw. cbn [mem] in Hp.
  repeat match type of Hp with (_ || _) = false =>
    apply orb_false_iff in Hp; let H := fresh "Hc" in destruct Hp as [H Hp] end.
  cbn [rules firstn In] in Hi.
  destruct Hi as [E|[E|[E|[E|[E|[E|[E|[E|[E|[E|[E|[E|[]]]]]]]]]]]]]; injection E as <- <-;
    try (rewrite lit_ne in Hq by assumption; discriminate Hq).
  - simpl in Hq. rewrite Hc in Hq. discriminate Hq.
  - simpl in Hq. rewrite Hc in Hq. discriminate Hq.
  - unfold m_char in Hq. cbn [mem] in Hq.
    repeat match goal with H : Ascii.eqb c _ = false |- _ => rewrite H in Hq; clear H end. discriminate Hq.
  - unfold m_char in Hq. rewrite Hn in Hq. discriminate Hq.
Qed.
Lemma plain_spaces : forall c s, plain c = true -> m_spaces (String c s) = None /\ m_comment (String c s) = None.
Proof.
  intros c s Hp. unfold plain in Hp.
  apply andb_true_iff in Hp. destruct Hp as [Hp Hw]. apply andb_true_iff in Hp. destruct Hp as [Hp Hn].
  apply negb_true_iff in Hp, Hn, Hw. cbn [mem] in Hp.
  repeat match type of Hp with (_ || _) = false =>
    apply orb_false_iff in Hp; let H := fresh "Hc" in destruct Hp as [H Hp] end.
  split.
  - unfold m_spaces. cbn [span]. rewrite Hw. reflexivity.
  - unfold m_comment. match goal with H : Ascii.eqb c "#" = false |- _ => rewrite H end. reflexivity.
Qed.
Lemma plain_keyword : forall b l c s, plain c = true -> keyword b l (String c s) = if b then lit l (String c s) else None.
Proof.
  intros b l c s Hp. unfold keyword, run_lit. destruct b; auto.
  unfold plain in Hp. apply andb_true_iff in Hp. destruct Hp as [_ Hw]. apply negb_true_iff in Hw.
  cbn [span]. rewrite Hw. cbn [drop]. destruct (lit l (String c s)); reflexivity.
Qed.

Lemma ident_char_newline : ident_char newline = false.
Proof. reflexivity. Qed.
Lemma lx_ident : forall b x s, is_ident x = true -> x <> "True" -> x <> "False" -> sep s ->
  lx b (x ++ s) = (l <- lx false s ;; Ok (VARIABLE x :: l)).
Proof.
  intros b x s Hx HT HF [Hs Hc].
  assert (Ha : all_chars ident_char x = true).
  { destruct x; [discriminate|]. simpl in *. apply andb_true_iff in Hx. destruct Hx as [H1 ->].
    unfold ident_char. rewrite H1. reflexivity. }
  rewrite (lx_return b (x ++ s) (String.length x) VARIABLE).
  - rewrite substring_app, drop_app. rewrite (ends_line_no ident_char x Ha ident_char_newline). reflexivity.
  - destruct x; [discriminate|]. discriminate.
  - assert (Hm : m_ident (x ++ s) = Some (String.length x)).
    { destruct x as [|c x]; [discriminate|]. simpl in *. apply andb_true_iff in Hx. destruct Hx as [-> Hx].
      rewrite span_app; auto. }
    assert (Hl : forall l, all_chars ident_char l = true -> x <> l -> forall k, lit l (x ++ s) = Some k ->
                 k < String.length x).
    { intros l Hl Hn k Hk. unfold lit in Hk. destruct (prefix l (x ++ s)) eqn:E; [|discriminate].
      injection Hk as <-. apply (prefix_app_short ident_char) in E; auto.
      pose proof (prefix_length _ _ E). destruct (Nat.eq_dec (String.length l) (String.length x)); [|lia].
      exfalso. apply Hn. symmetry. apply prefix_full; auto. }
    assert (Hk : forall l, all_chars ident_char l = true -> keyword b (l ++ ":") (x ++ s) = None).
    { intros l Hk. destruct x as [|c x]; [discriminate|]. simpl in Hx. apply andb_true_iff in Hx.
      destruct Hx as [Hx _]. cbn [String.append]. rewrite plain_keyword by (apply ident_plain; auto).
      destruct b; auto. unfold lit.
      change (String c (x ++ s)) with (String c x ++ s)%string.
      rewrite (prefix_stop ident_char); auto. }
    change (rules b) with (firstn 12 (rules b) ++
      [(lit "True", Return (fun _ => TRUE_CONSTANT)); (lit "False", Return (fun _ => FALSE_CONSTANT));
       (keyword b ("ENV" ++ ":"), Return (fun _ => E_VARS));
       (keyword b ("SYS" ++ ":"), Return (fun _ => S_VARS));
       (keyword b ("ENVINIT" ++ ":"), Return (fun _ => E_INIT));
       (keyword b ("ENVTRANS" ++ ":"), Return (fun _ => E_TRANS));
       (keyword b ("ENVGOAL" ++ ":"), Return (fun _ => E_GOAL));
       (keyword b ("SYSINIT" ++ ":"), Return (fun _ => S_INIT));
       (keyword b ("SYSTRANS" ++ ":"), Return (fun _ => S_TRANS));
       (keyword b ("SYSGOAL" ++ ":"), Return (fun _ => S_GOAL))] ++
      (m_ident, Return VARIABLE) :: skipn 23 (rules b)).
    rewrite app_assoc. apply best_split; auto.
    + intros q a j Hi Hq. apply in_app_or in Hi. destruct Hi as [Hi|Hi]; [exfalso; destruct x as [|c x]; [discriminate|];
        simpl in Hx; apply andb_true_iff in Hx; destruct Hx as [Hx _];
        eapply plain_punct; [apply ident_plain; exact Hx|exact Hi|exact Hq]|].
      destruct Hi as [E|Hi]; [injection E as <- <-; eapply Hl; [| |exact Hq]; auto|].
      destruct Hi as [E|Hi]; [injection E as <- <-; eapply Hl; [| |exact Hq]; auto|].
      exfalso. cbn [In] in Hi.
      pose proof (Hk "ENV" eq_refl) as K1. pose proof (Hk "SYS" eq_refl) as K2.
      pose proof (Hk "ENVINIT" eq_refl) as K3. pose proof (Hk "ENVTRANS" eq_refl) as K4.
      pose proof (Hk "ENVGOAL" eq_refl) as K5. pose proof (Hk "SYSINIT" eq_refl) as K6.
      pose proof (Hk "SYSTRANS" eq_refl) as K7. pose proof (Hk "SYSGOAL" eq_refl) as K8.
      destruct Hi as [E|[E|[E|[E|[E|[E|[E|[E|[]]]]]]]]]; injection E as <- <-;
        [pose proof (eq_trans (eq_sym Hq) K1) as X|pose proof (eq_trans (eq_sym Hq) K2) as X
        |pose proof (eq_trans (eq_sym Hq) K3) as X|pose proof (eq_trans (eq_sym Hq) K4) as X
        |pose proof (eq_trans (eq_sym Hq) K5) as X|pose proof (eq_trans (eq_sym Hq) K6) as X
        |pose proof (eq_trans (eq_sym Hq) K7) as X|pose proof (eq_trans (eq_sym Hq) K8) as X]; discriminate X.
    + intros q a j Hi Hq. destruct x as [|c x]; [discriminate|]. simpl in Hx. apply andb_true_iff in Hx.
      destruct Hx as [Hx _]. cbn [rules skipn] in Hi. cbn [String.length].
      pose proof (ident_plain c Hx) as Hpl. destruct (plain_spaces c (x ++ s) Hpl) as [Hsp Hco].
      pose proof (ident_nodigit c Hx) as Hnd. apply negb_true_iff in Hnd.
      destruct Hi as [E|Hi]; [injection E as <- <-|].
      { exfalso. revert Hq. unfold m_number. cbn [String.append span]. rewrite Hnd. discriminate. }
      destruct Hi as [E|Hi]; [injection E as <- <-; exfalso; cbn [String.append] in Hq; congruence|].
      destruct Hi as [E|Hi]; [injection E as <- <-; exfalso; cbn [String.append] in Hq; congruence|].
      destruct Hi as [E|Hi]; [injection E as <- <-|destruct Hi].
      revert Hq. unfold m_char. cbn [String.append]. destruct (not_newline c); [|discriminate].
      intros E. injection E as <-. lia.
Qed.

Lemma dec_aux_digits : forall f n acc, (0 <= n)%Z -> all_chars isdigit acc = true ->
  all_chars isdigit (dec_aux f n acc) = true.
Proof.
  induction f; intros n acc Hn Ha; simpl; auto.
  assert (Hm : (0 <= n mod 10 < 10)%Z) by (apply Z.mod_pos_bound; lia).
  assert (H : all_chars isdigit (String (digit (n mod 10)) acc) = true).
  { simpl. rewrite isdigit_digit; auto. }
  destruct (n / 10 =? 0)%Z; auto. apply IHf; auto. apply Z.div_pos; lia.
Qed.
Lemma zdec_digits : forall n, (0 <= n)%Z -> all_chars isdigit (zdec n) = true.
Proof.
  intros n H. unfold zdec. replace (n <? 0)%Z with false by (symmetry; apply Z.ltb_ge; lia).
  apply dec_aux_digits; auto.
Qed.
Lemma zdec_head : forall n, (0 <= n)%Z -> exists c r, zdec n = String c r /\ isdigit c = true.
Proof.
  intros n H. pose proof (zdec_digits n H) as Hd. pose proof (AutIOProofs.zdec_len n).
  destruct (zdec n) as [|c r]; [simpl in *; lia|]. simpl in Hd. apply andb_true_iff in Hd.
  exists c, r. tauto.
Qed.
Lemma to_int_id : forall k, (0 <= k < 2 ^ 31)%Z -> to_int k = k.
Proof.
  intros k H. unfold to_int, clamp. rewrite Z.min_r, Z.max_r by lia.
  unfold wrap. simpl Z.sub. rewrite Z.mod_small by lia. lia.
Qed.
Lemma lx_number : forall b k s, (0 <= k < 2 ^ 31)%Z -> sep s ->
  lx b (zdec k ++ s) = (l <- lx false s ;; Ok (NUMBER k :: l)).
Proof.
  intros b k s Hk [Hs Hc]. pose proof (zdec_digits k ltac:(lia)) as Hd.
  destruct (zdec_head k ltac:(lia)) as (c & r & Er & Hc0).
  assert (Hs' : head_is isdigit s = false).
  { destruct s as [|d s]; auto. simpl in *. unfold ident_char in Hs. destruct (isdigit d); auto.
    rewrite orb_true_r in Hs. discriminate. }
  rewrite (lx_return b (zdec k ++ s) (String.length (zdec k)) (fun t => NUMBER (to_int (fst (strtol t))))).
  - rewrite substring_app, drop_app. rewrite (ends_line_no isdigit _ Hd eq_refl).
    pose proof (strtol_zdec k "" eq_refl) as E.
    replace (zdec k ++ "")%string with (zdec k) in E by (symmetry; clear; induction (zdec k); simpl; congruence).
    rewrite E. cbn [fst]. rewrite to_int_id by auto. reflexivity.
  - rewrite Er. discriminate.
  - assert (Hm : m_number (zdec k ++ s) = Some (String.length (zdec k))).
    { unfold m_number. rewrite span_app by auto. rewrite drop_app.
      replace (String.length (zdec k) =? 0) with false by (rewrite Er; reflexivity).
      destruct s as [|d s]; auto. simpl in Hs. unfold ident_char in Hs.
      destruct (Ascii.eqb d "."); [rewrite orb_true_r in Hs; discriminate|]. reflexivity. }
    change (rules b) with (firstn 23 (rules b) ++
      (m_number, Return (fun t => NUMBER (to_int (fst (strtol t))))) :: skipn 24 (rules b)).
    pose proof (digit_plain c Hc0) as Hpl. pose proof (digit_noident c Hc0) as Hni.
    apply andb_true_iff in Hni. destruct Hni as [Hni Hnt]. apply negb_true_iff in Hni, Hnt.
    cbn [mem] in Hnt.
    repeat match type of Hnt with (_ || _) = false =>
      apply orb_false_iff in Hnt; let H := fresh "Hc" in destruct Hnt as [H Hnt] end.
    apply best_split; auto; rewrite Er; cbn [String.append].
    + intros q a j Hi Hq. exfalso.
      change (firstn 23 (rules b)) with (firstn 12 (rules b) ++ firstn 11 (skipn 12 (rules b))) in Hi.
      apply in_app_or in Hi. destruct Hi as [Hi|Hi]; [eapply plain_punct; eauto|].
      cbn [rules skipn firstn In] in Hi.
      assert (Hkw : forall d l, Ascii.eqb c d = false -> keyword b (String d l) (String c (r ++ s)) = None).
      { intros d l He. rewrite plain_keyword by auto. rewrite lit_ne by auto. destruct b; reflexivity. }
      destruct Hi as [E|[E|[E|[E|[E|[E|[E|[E|[E|[E|[E|[]]]]]]]]]]]]; injection E as <- <-;
        try (rewrite lit_ne in Hq by assumption; discriminate Hq);
        try (rewrite Hkw in Hq by assumption; discriminate Hq).
      unfold m_ident in Hq. rewrite Hni in Hq. discriminate Hq.
    + intros q a j Hi Hq. cbn [rules skipn] in Hi. cbn [String.length].
      destruct (plain_spaces c (r ++ s) Hpl) as [Hsp Hco].
      destruct Hi as [E|Hi]; [injection E as <- <-; exfalso; congruence|].
      destruct Hi as [E|Hi]; [injection E as <- <-; exfalso; congruence|].
      destruct Hi as [E|Hi]; [injection E as <- <-|destruct Hi].
      revert Hq. unfold m_char. cbn [String.append]. destruct (not_newline c); [|discriminate].
      intros E. injection E as <-. lia.
Qed.
(** True and False *)
Lemma word_later : forall c r s b q a j, ident_start c = true -> all_chars ident_char r = true -> sep s ->
  In (q, a) (skipn 14 (rules b)) -> q (String c r ++ s)%string = Some j -> j <= String.length (String c r).
Proof.
  intros c r s b q a j Hc Hr [Hs Hs'] Hi Hq.
  pose proof (ident_plain c Hc) as Hpl. destruct (plain_spaces c (r ++ s) Hpl) as [Hsp Hco].
  pose proof (ident_nodigit c Hc) as Hnd. apply negb_true_iff in Hnd.
  assert (Hkw : forall l, all_chars ident_char l = true -> keyword b (l ++ ":") (String c r ++ s) = None).
  { intros l Hl. cbn [String.append]. rewrite plain_keyword by auto. destruct b; auto. unfold lit.
    change (String c (r ++ s)) with (String c r ++ s)%string.
    rewrite (prefix_stop ident_char); auto. simpl. unfold ident_char. rewrite Hc. simpl. exact Hr. }
  cbn [rules skipn In] in Hi.
  pose proof (Hkw "ENV" eq_refl) as K1. pose proof (Hkw "SYS" eq_refl) as K2.
  pose proof (Hkw "ENVINIT" eq_refl) as K3. pose proof (Hkw "ENVTRANS" eq_refl) as K4.
  pose proof (Hkw "ENVGOAL" eq_refl) as K5. pose proof (Hkw "SYSINIT" eq_refl) as K6.
  pose proof (Hkw "SYSTRANS" eq_refl) as K7. pose proof (Hkw "SYSGOAL" eq_refl) as K8.
  destruct Hi as [E|Hi]; [injection E as <- <-; pose proof (eq_trans (eq_sym Hq) K1) as X; discriminate X|].
  destruct Hi as [E|Hi]; [injection E as <- <-; pose proof (eq_trans (eq_sym Hq) K2) as X; discriminate X|].
  destruct Hi as [E|Hi]; [injection E as <- <-; pose proof (eq_trans (eq_sym Hq) K3) as X; discriminate X|].
  destruct Hi as [E|Hi]; [injection E as <- <-; pose proof (eq_trans (eq_sym Hq) K4) as X; discriminate X|].
  destruct Hi as [E|Hi]; [injection E as <- <-; pose proof (eq_trans (eq_sym Hq) K5) as X; discriminate X|].
  destruct Hi as [E|Hi]; [injection E as <- <-; pose proof (eq_trans (eq_sym Hq) K6) as X; discriminate X|].
  destruct Hi as [E|Hi]; [injection E as <- <-; pose proof (eq_trans (eq_sym Hq) K7) as X; discriminate X|].
  destruct Hi as [E|Hi]; [injection E as <- <-; pose proof (eq_trans (eq_sym Hq) K8) as X; discriminate X|].
  destruct Hi as [E|Hi]; [injection E as <- <-|].
  { cbn [String.append m_ident] in Hq. rewrite Hc in Hq. rewrite span_app in Hq by auto.
    injection Hq as <-. cbn [String.length]. lia. }
  destruct Hi as [E|Hi]; [injection E as <- <-|].
  { exfalso. revert Hq. unfold m_number. cbn [String.append span]. rewrite Hnd. discriminate. }
  destruct Hi as [E|Hi]; [injection E as <- <-; exfalso; cbn [String.append] in Hq; congruence|].
  destruct Hi as [E|Hi]; [injection E as <- <-; exfalso; cbn [String.append] in Hq; congruence|].
  destruct Hi as [E|Hi]; [injection E as <- <-|destruct Hi].
  revert Hq. unfold m_char. cbn [String.append]. destruct (not_newline c); [|discriminate].
  intros E. injection E as <-. cbn [String.length]. lia.
Qed.
Lemma lit_app : forall l s, lit l (l ++ s) = Some (String.length l).
Proof.
  intros l s. unfold lit. replace (prefix l (l ++ s)) with true; auto. symmetry.
  induction l as [|c l IH]; [destruct s; reflexivity|]. simpl. destruct (ascii_dec c c); congruence.
Qed.
Lemma lx_true : forall b s, sep s -> lx b ("True" ++ s) = (l <- lx false s ;; Ok (TRUE_CONSTANT :: l)).
Proof.
  intros b s Hs. rewrite (lx_return b _ 4 (fun _ => TRUE_CONSTANT)); [destruct s; reflexivity|discriminate|].
  change (rules b) with (firstn 12 (rules b) ++ (lit "True", Return (fun _ => TRUE_CONSTANT)) :: skipn 13 (rules b)).
  apply best_split.
  - apply (lit_app "True").
  - intros q a j Hi Hq. exfalso. eapply plain_punct; [|exact Hi|exact Hq]. reflexivity.
  - intros q a j Hi Hq.
    change (skipn 13 (rules b)) with ((lit "False", Return (fun _ => FALSE_CONSTANT)) :: skipn 14 (rules b)) in Hi.
    destruct Hi as [E|Hi]; [injection E as <- <-; discriminate Hq|].
    refine (word_later "T" "rue" s b q a j eq_refl eq_refl Hs Hi Hq).
Qed.
Lemma lx_false : forall b s, sep s -> lx b ("False" ++ s) = (l <- lx false s ;; Ok (FALSE_CONSTANT :: l)).
Proof.
  intros b s Hs. rewrite (lx_return b _ 5 (fun _ => FALSE_CONSTANT)); [destruct s; reflexivity|discriminate|].
  change (rules b) with ((firstn 12 (rules b) ++ [(lit "True", Return (fun _ => TRUE_CONSTANT))]) ++
    (lit "False", Return (fun _ => FALSE_CONSTANT)) :: skipn 14 (rules b)).
  apply best_split.
  - apply (lit_app "False").
  - intros q a j Hi Hq. exfalso. apply in_app_or in Hi. destruct Hi as [Hi|[E|[]]].
    + eapply plain_punct; [|exact Hi|exact Hq]. reflexivity.
    + injection E as <- <-. discriminate Hq.
  - intros q a j Hi Hq.
    refine (word_later "F" "alse" s b q a j eq_refl eq_refl Hs Hi Hq).
Qed.
(** spaces and line ends *)
Lemma lx_newline : forall b s, lx b (String newline s) = lx true s.
Proof.
  intros b s. rewrite (lx_ignore b _ 1); [destruct s; reflexivity|discriminate|].
  destruct b; reflexivity.
Qed.
(** keywords at the beginning of a line *)
Definition keywords : list (string * token) :=
  [("ENV:", E_VARS); ("SYS:", S_VARS); ("ENVINIT:", E_INIT); ("ENVTRANS:", E_TRANS); ("ENVGOAL:", E_GOAL);
   ("SYSINIT:", S_INIT); ("SYSTRANS:", S_TRANS); ("SYSGOAL:", S_GOAL)].
Lemma lx_keyword : forall l k s, In (l, k) keywords -> lx true (l ++ s) = (r <- lx false s ;; Ok (k :: r)).
Proof.
  intros l k s H. unfold keywords in H. cbn [In] in H.
  destruct H as [E|[E|[E|[E|[E|[E|[E|[E|[]]]]]]]]]; injection E as <- <-;
    match goal with |- lx true (?l ++ s) = bind _ (fun r => Ok (?k :: r)) =>
      rewrite (lx_return true (l ++ s) (String.length l) (fun _ => k));
      [destruct s; reflexivity|discriminate|destruct s; reflexivity] end.
Qed.
Lemma lx_safety : forall b s, head_is (fun c => Ascii.eqb c "<") s = false ->
  lx b ("[]" ++ s) = (r <- lx false s ;; Ok (SAFETY_OP :: r)).
Proof.
  intros b s Hs. rewrite (lx_return b _ 2 (fun _ => SAFETY_OP)); [destruct s; reflexivity|discriminate|].
  destruct s as [|c s]; [destruct b; reflexivity|]. cbn [head_is] in Hs.
  destruct b; char_cases c Hs; reflexivity.
Qed.
Lemma lx_liveness : forall b s, lx b ("[]<>" ++ s) = (r <- lx false s ;; Ok (LIVENESS_OP :: r)).
Proof.
  intros b s. rewrite (lx_return b _ 4 (fun _ => LIVENESS_OP)); [destruct s; reflexivity|discriminate|].
  destruct b, s; reflexivity.
Qed.
