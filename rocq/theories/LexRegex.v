(** The scanner of Lex.v finds the tokens of LexSpec.v: lemmas. *)
From Coq Require Import List ZArith Bool Arith Ascii String Lia.
From Verif Require Import Base Strs AutIO Lex LexSpec LexProofs.
Import ListNotations.
Open Scope string_scope.
Open Scope nat_scope.

(** ** Texts *)
Lemma app_len : forall s t : string, String.length (s ++ t) = String.length s + String.length t.
Proof. induction s as [|c s IH]; intros t; simpl; [reflexivity|]. rewrite IH. reflexivity. Qed.
Lemma app_asc : forall a b c : string, ((a ++ b) ++ c)%string = (a ++ (b ++ c))%string.
Proof. induction a as [|x a IH]; intros b c; simpl; [reflexivity|]. now rewrite IH. Qed.
Lemma app_empty : forall a : string, (a ++ "")%string = a.
Proof. induction a as [|x a IH]; simpl; [reflexivity|]. now rewrite IH. Qed.
Lemma cut : forall k s, k <= String.length s -> s = (substring 0 k s ++ drop k s)%string /\
  String.length (substring 0 k s) = k.
Proof.
  induction k as [|k IH]; intros s H; destruct s as [|c s]; cbn in *; try (split; [reflexivity|lia]); try lia.
  - destruct (IH s ltac:(lia)) as [H1 H2]. split; [now rewrite <- H1|lia].
Qed.
Lemma cut_unique : forall t t' u u' : string, (t ++ u)%string = (t' ++ u')%string ->
  String.length t = String.length t' -> t = t' /\ u = u'.
Proof.
  induction t as [|c t IH]; intros [|c' t'] u u' H L; cbn in *; try lia; [now split|].
  injection H as -> H. destruct (IH t' u u' H ltac:(lia)) as [-> ->]. now split.
Qed.

(** ** What the regular expressions match *)
Lemma allc_app : forall p s t, allc p (s ++ t) <-> allc p s /\ allc p t.
Proof. induction s as [|c s IH]; intros t; cbn; [tauto|]. rewrite IH. tauto. Qed.
Lemma chr_iff : forall p s, matches (Chr p) s <-> exists c, s = String c "" /\ p c.
Proof.
  intros p s. split.
  - intros H. inversion H; subst. eauto.
  - intros [c [-> H]]. now constructor.
Qed.
Lemma cat_iff : forall r1 r2 s, matches (Cat r1 r2) s <->
  exists s1 s2, s = (s1 ++ s2)%string /\ matches r1 s1 /\ matches r2 s2.
Proof.
  intros r1 r2 s. split.
  - intros H. inversion H; subst. eauto.
  - intros [s1 [s2 [-> [H1 H2]]]]. now constructor.
Qed.
Lemma quoted_iff : forall l s, matches (quoted l) s <-> s = l.
Proof.
  induction l as [|c l IH]; intros s; cbn [quoted].
  - split; [intros H; now inversion H|intros ->; constructor].
  - rewrite cat_iff. split.
    + intros [s1 [s2 [-> [H1 H2]]]]. apply chr_iff in H1. destruct H1 as [d [-> ->]].
      apply IH in H2. subst. reflexivity.
    + intros ->. exists (String c ""), l. split; [reflexivity|]. split; [now apply chr_iff; eauto|now apply IH].
Qed.
Lemma star_iff : forall p s, matches (Star (Chr p)) s <-> allc p s.
Proof.
  intros p s. split.
  - intros H. remember (Star (Chr p)) as r eqn:E. revert E.
    induction H as [| | | | |r|r s1 s2 H1 _ H2 IH]; intros E; try discriminate; injection E as ->; [exact I|].
    apply chr_iff in H1. destruct H1 as [c [-> H1]]. cbn. auto.
  - induction s as [|c s IH]; cbn; intros H; [constructor|].
    change (String c s) with (String c "" ++ s)%string. constructor; [now constructor|tauto].
Qed.
Lemma plus_iff : forall p s, matches (Plus (Chr p)) s <-> s <> "" /\ allc p s.
Proof.
  intros p s. unfold Plus. rewrite cat_iff. split.
  - intros [s1 [s2 [-> [H1 H2]]]]. apply chr_iff in H1. destruct H1 as [c [-> H1]].
    apply star_iff in H2. cbn. split; [discriminate|tauto].
  - destruct s as [|c s]; intros [H1 H2]; [congruence|]. cbn in H2.
    exists (String c ""), s. split; [reflexivity|]. split; [now constructor|now apply star_iff].
Qed.
Lemma opt_iff : forall r s, matches (Opt r) s <-> s = "" \/ matches r s.
Proof.
  intros r s. split; [intros H; inversion H; subst; auto|intros [->|H]; [constructor|now constructor]].
Qed.

(** ** A matching function finds the longest text *)
Definition mok (p : string -> option nat) (r : re) : Prop := forall s,
  match p s with
  | Some k => 0 < k <= String.length s /\ matches r (substring 0 k s) /\
              forall t u, s = (t ++ u)%string -> matches r t -> String.length t <= k
  | None => forall t u, s = (t ++ u)%string -> t <> "" -> matches r t -> False
  end.

Lemma mok_intro : forall (p : string -> option nat) r,
  (forall s k, p s = Some k -> exists t u, s = (t ++ u)%string /\ String.length t = k /\ t <> "" /\ matches r t /\
     forall t' u', s = (t' ++ u')%string -> matches r t' -> String.length t' <= k) ->
  (forall t u, t <> "" -> matches r t -> p (t ++ u)%string <> None) ->
  mok p r.
Proof.
  intros p r H1 H2 s. destruct (p s) as [k|] eqn:E.
  - destruct (H1 s k E) as [t [u [-> [L [N [M X]]]]]]. subst k.
    split; [|split; [|exact X]].
    + rewrite app_len. destruct t; [congruence|cbn; lia].
    + now rewrite substring_app.
  - intros t u -> N M. exact (H2 t u N M E).
Qed.

Definition dec (p : ascii -> bool) (q : ascii -> Prop) : Prop := forall c, p c = true <-> q c.
Lemma span_allc : forall p q s, dec p q -> exists t u, s = (t ++ u)%string /\ String.length t = span p s /\ allc q t /\
  drop (span p s) s = u /\ (forall c v, u = String c v -> ~ q c).
Proof.
  intros p q s D. induction s as [|c s IH]; cbn [span].
  - exists "", "". cbn. repeat split. discriminate.
  - destruct (p c) eqn:E.
    + destruct IH as [t [u [-> [L [A [Dr X]]]]]]. exists (String c t), u. cbn. rewrite L.
      repeat split; auto. now apply D.
    + exists "", (String c s). cbn. repeat split; auto. intros d v H. injection H as <- <-.
      intros Q. apply D in Q. congruence.
Qed.
Lemma run_max : forall q t u t' u', (t ++ u)%string = (t' ++ u')%string -> allc q t' ->
  (forall c v, u = String c v -> ~ q c) -> String.length t' <= String.length t.
Proof.
  induction t as [|c t IH]; intros u t' u' H A X; destruct t' as [|c' t']; cbn in *; try lia.
  - exfalso. exact (X _ _ H (proj1 A)).
  - injection H as -> H. specialize (IH _ _ _ H (proj2 A) X). lia.
Qed.
(** a run followed by a text that does not begin with a character of the run *)
Lemma run_cut : forall q t u t' u', (t ++ u)%string = (t' ++ u')%string -> allc q t -> allc q t' ->
  (forall c v, u = String c v -> ~ q c) -> (forall c v, u' = String c v -> ~ q c) -> t = t' /\ u = u'.
Proof.
  intros q t u t' u' H A A' X X'. apply cut_unique; [exact H|].
  pose proof (run_max q t u t' u' H A' X). pose proof (run_max q t' u' t u (eq_sym H) A X'). lia.
Qed.
Lemma lit_iff : forall l s k, lit l s = Some k <-> k = String.length l /\ exists u, s = (l ++ u)%string.
Proof.
  intros l s k. unfold lit. destruct (String.prefix l s) eqn:E.
  - assert (X : exists u, s = (l ++ u)%string).
    { clear k. revert s E. induction l as [|c l IH]; intros s E; [exists s; reflexivity|].
      destruct s as [|d s]; cbn in E; [discriminate|]. destruct (ascii_dec c d) as [->|]; [|discriminate].
      destruct (IH s E) as [u ->]. exists u. reflexivity. }
    split; [intros H; injection H as <-; now split|intros [-> _]; reflexivity].
  - split; [discriminate|]. intros [_ [u ->]]. exfalso. revert E. clear. induction l as [|c l IH]; cbn.
    + destruct u; discriminate.
    + destruct (ascii_dec c c); [exact IH|congruence].
Qed.
Lemma lit_mok : forall l, l <> "" -> mok (lit l) (quoted l).
Proof.
  intros l N. apply mok_intro.
  - intros s k H. apply lit_iff in H. destruct H as [-> [u ->]]. exists l, u.
    repeat split; auto; [now apply quoted_iff|]. intros t' u' _ M. apply quoted_iff in M. subst; lia.
  - intros t u _ M. apply quoted_iff in M. subst t. intros E.
    assert (X : lit l (l ++ u) = Some (String.length l)) by (apply lit_iff; eauto). congruence.
Qed.
Lemma runlit_iff : forall p q l s k, dec p q -> (forall c v, l = String c v -> ~ q c) -> l <> "" ->
  run_lit p l s = Some k <-> exists t u, s = (t ++ l ++ u)%string /\ allc q t /\ k = String.length t + String.length l.
Proof.
  intros p q l s k D X N. unfold run_lit. destruct (span_allc p q s D) as [t [u [E [L [A [Dr Y]]]]]].
  rewrite Dr. split.
  - destruct (lit l u) as [j|] eqn:F; [|discriminate]. intros H. injection H as <-.
    apply lit_iff in F. destruct F as [-> [v ->]]. exists t, v. subst s. repeat split; auto.
  - intros [t' [u' [E' [A' ->]]]].
    assert (Z : t = t' /\ u = (l ++ u')%string).
    { apply (run_cut q); auto; [congruence|]. intros c v H. destruct l as [|d l]; [congruence|].
      cbn in H. injection H as -> H. now apply (X c l). }
    destruct Z as [-> ->].
    assert (F : lit l (l ++ u')%string = Some (String.length l)) by (apply lit_iff; eauto).
    rewrite F. now rewrite L.
Qed.
Lemma runlit_mok : forall p q l, dec p q -> (forall c v, l = String c v -> ~ q c) -> l <> "" ->
  mok (run_lit p l) (Cat (Star (Chr q)) (quoted l)).
Proof.
  intros p q l D X N. apply mok_intro.
  - intros s k H. apply (runlit_iff p q) in H; auto. destruct H as [t [u [-> [A ->]]]].
    exists (t ++ l)%string, u. rewrite app_asc, app_len. split; [reflexivity|]. split; [reflexivity|].
    split; [destruct t; [exact N|discriminate]|]. split.
    + apply cat_iff. exists t, l. split; [reflexivity|]. split; [now apply star_iff|now apply quoted_iff].
    + intros t' u' E M. apply cat_iff in M. destruct M as [t1 [l1 [-> [M1 M2]]]].
      apply star_iff in M1. apply quoted_iff in M2. subst l1. rewrite app_asc in E.
      assert (Y : forall w c v, (l ++ w)%string = String c v -> ~ q c).
      { intros w c v H. destruct l as [|d l]; [congruence|]. cbn in H. injection H as -> H. now apply (X c l). }
      destruct (run_cut q _ _ _ _ E A M1 (Y _) (Y _)) as [-> _]. rewrite app_len. lia.
  - intros t u _ M. apply cat_iff in M. destruct M as [t1 [l1 [-> [M1 M2]]]].
    apply star_iff in M1. apply quoted_iff in M2. subst l1. intros E. rewrite app_asc in E.
    assert (F : run_lit p l (t1 ++ l ++ u)%string = Some (String.length t1 + String.length l))
      by (apply (runlit_iff p q); eauto). congruence.
Qed.
Lemma after_char_mok : forall (d : ascii) (p : string -> option nat) r (f : string -> option nat), mok p r ->
  (forall s, f s = match s with String c t => if Ascii.eqb c d then option_map S (p t) else None | _ => None end) ->
  (matches r "" -> False) -> mok f (Cat (quoted (String d "")) r).
Proof.
  intros d p r f P F N. apply mok_intro.
  - intros s k H. rewrite F in H. destruct s as [|c s]; [discriminate|].
    destruct (Ascii.eqb c d) eqn:E; [|discriminate]. apply Ascii.eqb_eq in E. subst c.
    specialize (P s). destruct (p s) as [j|]; [|discriminate]. cbn in H. injection H as <-.
    destruct P as [Lj [M X]]. destruct (cut j s ltac:(lia)) as [C1 C2].
    exists (String d (substring 0 j s)), (drop j s). cbn [append String.length]. rewrite C2. split; [now rewrite <- C1|].
    split; [reflexivity|]. split; [discriminate|]. split.
    + change (String d (substring 0 j s)) with (String d "" ++ substring 0 j s)%string.
      apply m_cat; [now apply quoted_iff|exact M].
    + intros t' u' E M'. apply cat_iff in M'. destruct M' as [t1 [t2 [-> [M1 M2]]]].
      apply quoted_iff in M1. subst t1. cbn in E. injection E as E. specialize (X t2 u' E M2). cbn. lia.
  - intros t u _ M. apply cat_iff in M. destruct M as [t1 [t2 [-> [M1 M2]]]].
    apply quoted_iff in M1. subst t1. cbn. rewrite F, Ascii.eqb_refl. specialize (P (t2 ++ u)%string).
    destruct (p (t2 ++ u)%string); [discriminate|]. exfalso. apply (P t2 u); auto. intros ->. exact (N M2).
Qed.
Lemma char_mok : forall p q, dec p q -> mok (m_char p) (Chr q).
Proof.
  intros p q D. apply mok_intro.
  - intros [|c s] k H; cbn in H; [discriminate|]. destruct (p c) eqn:E; [|discriminate]. injection H as <-.
    exists (String c ""), s. repeat split; [discriminate|constructor; now apply D|].
    intros t' u' _ M. apply chr_iff in M. destruct M as [d [-> _]]. cbn; lia.
  - intros t u _ M. apply chr_iff in M. destruct M as [d [-> M]]. cbn. apply D in M. now rewrite M.
Qed.

(** ** The character classes *)
Lemma all_dec : forall p (q : ascii -> Prop), (forall c, In c all_ascii -> (p c = true <-> q c)) -> dec p q.
Proof. intros p q H c. apply H, all_ascii_in. Qed.
Lemma eqb_dec' : forall d, dec (fun c => Ascii.eqb c d) (fun c => c = d).
Proof. intros d c. apply Ascii.eqb_eq. Qed.
Lemma or_dec : forall p1 p2 (q1 q2 : ascii -> Prop), dec p1 q1 -> dec p2 q2 ->
  dec (fun c => p1 c || p2 c) (fun c => q1 c \/ q2 c).
Proof. intros p1 p2 q1 q2 D1 D2 c. rewrite orb_true_iff, (D1 c), (D2 c). reflexivity. Qed.
Lemma dec_iff : forall p (q q' : ascii -> Prop), dec p q -> (forall c, q c <-> q' c) -> dec p q'.
Proof. intros p q q' D H c. rewrite <- (H c). apply D. Qed.
Lemma blank_dec : dec blank space_tab.
Proof. intros c. unfold blank, space_tab. rewrite orb_true_iff, !Ascii.eqb_eq. reflexivity. Qed.
Lemma wspace_dec : dec wspace space_tab_cr.
Proof.
  intros c. unfold wspace, space_tab_cr. rewrite orb_true_iff, (blank_dec c), Ascii.eqb_eq. reflexivity.
Qed.
Lemma isdigit_dec : dec isdigit dec_digit.
Proof.
  intros c. unfold isdigit, dec_digit, code_between, code. cbn [nat_of_ascii].
  rewrite andb_true_iff, !Z.leb_le. change (nat_of_ascii "0") with 48. change (nat_of_ascii "9") with 57. lia.
Qed.
Lemma start_dec : dec ident_start letter_or__.
Proof.
  intros c. unfold ident_start, isalpha, letter_or__, code_between.
  rewrite !orb_true_iff, !andb_true_iff, !Nat.leb_le, Ascii.eqb_eq.
  change (nat_of_ascii "a") with 97. change (nat_of_ascii "z") with 122.
  change (nat_of_ascii "A") with 65. change (nat_of_ascii "Z") with 90. tauto.
Qed.
Lemma word_dec : dec ident_char word_char.
Proof.
  intros c. unfold ident_char, word_char.
  rewrite !orb_true_iff, (start_dec c), (isdigit_dec c), Ascii.eqb_eq. tauto.
Qed.
Lemma punct_dec : dec (fun c => mem c "()&|!=';,<>") punctuation.
Proof.
  intros c. unfold punctuation. cbn [mem In]. rewrite !orb_true_iff, !Ascii.eqb_eq.
  assert (X : false = true <-> False) by (split; [discriminate|tauto]).
  rewrite X. intuition congruence.
Qed.
Lemma newline_dec : dec (Ascii.eqb newline) (fun c => c = LF).
Proof. intros c. rewrite Ascii.eqb_eq. unfold newline, LF. split; intros H; rewrite <- H || rewrite H; reflexivity. Qed.
Lemma any_dec : dec not_newline any.
Proof.
  intros c. unfold not_newline, any. rewrite negb_true_iff, Ascii.eqb_neq. reflexivity.
Qed.

(** ** The remaining rules *)
Lemma ident_mok : mok m_ident identifier_re.
Proof.
  apply mok_intro.
  - intros [|c s] k H; cbn [m_ident] in H; [discriminate|].
    destruct (ident_start c) eqn:E; [|discriminate]. injection H as <-.
    destruct (span_allc ident_char word_char s word_dec) as [t [u [-> [L [A [_ X]]]]]].
    exists (String c t), u. cbn. rewrite L. split; [reflexivity|]. split; [reflexivity|]. split; [discriminate|]. split.
    + change (String c t) with (String c "" ++ t)%string. constructor; [constructor; now apply start_dec|now apply star_iff].
    + intros t' u' E' M. apply cat_iff in M. destruct M as [t1 [t2 [-> [M1 M2]]]].
      apply chr_iff in M1. destruct M1 as [d [-> _]]. apply star_iff in M2. cbn in E'. injection E' as _ E'.
      pose proof (run_max word_char t u t2 u' E' M2 X). cbn. lia.
  - intros t u _ M. apply cat_iff in M. destruct M as [t1 [t2 [-> [M1 M2]]]].
    apply chr_iff in M1. destruct M1 as [d [-> M1]]. cbn. apply start_dec in M1. now rewrite M1.
Qed.
Lemma digit_dot : ~ dec_digit ".".
Proof. unfold dec_digit, code_between. change (nat_of_ascii ".") with 46. change (nat_of_ascii "0") with 48. lia. Qed.
Lemma number_iff : forall s, matches number_re s <->
  exists d f, s = (d ++ f)%string /\ d <> "" /\ allc dec_digit d /\
    (f = "" \/ exists e, f = String "." e /\ e <> "" /\ allc dec_digit e).
Proof.
  intros s. unfold number_re. rewrite cat_iff. split.
  - intros [d [f [-> [M1 M2]]]]. apply plus_iff in M1. apply opt_iff in M2. exists d, f.
    split; [reflexivity|]. split; [tauto|]. split; [tauto|]. destruct M2 as [->|M2]; [now left|right].
    apply cat_iff in M2. destruct M2 as [t1 [t2 [-> [M2 M3]]]]. apply chr_iff in M2. destruct M2 as [x [-> ->]].
    apply plus_iff in M3. exists t2. split; [reflexivity|exact M3].
  - intros [d [f [-> [N [A H]]]]]. exists d, f. split; [reflexivity|]. split; [now apply plus_iff|].
    apply opt_iff. destruct H as [->|[e [-> H]]]; [now left|right].
    change (String "." e) with (String "." "" ++ e)%string. constructor; [now constructor|now apply plus_iff].
Qed.
Lemma number_mok : mok m_number number_re.
Proof.
  apply mok_intro.
  - intros s k H. unfold m_number in H.
    destruct (span_allc isdigit dec_digit s isdigit_dec) as [d [u [E [L [A [Dr X]]]]]].
    rewrite Dr in H. rewrite <- L in H. destruct (String.length d =? 0) eqn:Z; [discriminate|].
    apply Nat.eqb_neq in Z. assert (Nd : d <> "") by (intros ->; now apply Z).
    assert (B : forall t' u', s = (t' ++ u')%string -> matches number_re t' ->
      exists d' f', t' = (d' ++ f')%string /\ d' <> "" /\ allc dec_digit d' /\
        (f' = "" /\ String.length d' <= String.length d \/
         d' = d /\ exists e, f' = String "." e /\ e <> "" /\ allc dec_digit e /\ u = String "." (e ++ u')%string)).
    { intros t' u' E' M. apply number_iff in M. destruct M as [d' [f' [-> [N' [A' M]]]]].
      exists d', f'. split; [reflexivity|]. split; [exact N'|]. split; [exact A'|].
      destruct M as [->|[e [-> [Ne Ae]]]].
      - left. split; [reflexivity|]. rewrite app_empty in E'. rewrite E in E'.
        exact (run_max dec_digit _ _ _ _ E' A' X).
      - right. rewrite app_asc in E'. rewrite E in E'.
        destruct (run_cut dec_digit _ _ _ _ E' A A' X) as [-> ->].
        + intros c v H'. cbn in H'. injection H' as <- _. exact digit_dot.
        + split; [reflexivity|]. exists e. repeat split; auto. }
    assert (Plain : k = String.length d -> (forall e u', u = String "." (e ++ u')%string -> e <> "" -> allc dec_digit e -> False) ->
      exists t u, s = (t ++ u)%string /\ String.length t = k /\ t <> "" /\ matches number_re t /\
        (forall t' u', s = (t' ++ u')%string -> matches number_re t' -> String.length t' <= k)).
    { intros -> Y. exists d, u. split; [exact E|]. split; [reflexivity|]. split; [exact Nd|]. split.
      - apply number_iff. exists d, "". rewrite app_empty. auto.
      - intros t' u' E' M. destruct (B t' u' E' M) as [d' [f' [-> [N' [A' [[-> Le]|[-> [e [-> [Ne [Ae Eu]]]]]]]]]]].
        + rewrite app_empty. exact Le.
        + exfalso. exact (Y _ _ Eu Ne Ae). }
    destruct u as [|c u].
    + injection H as <-. apply Plain; [reflexivity|]. discriminate.
    + destruct (span_allc isdigit dec_digit u isdigit_dec) as [e [v [Eu [Le [Ae [_ Xe]]]]]].
      destruct (Ascii.eqb c "." && negb (span isdigit u =? 0)) eqn:C.
      * apply andb_true_iff in C. destruct C as [C1 C2]. apply Ascii.eqb_eq in C1. subst c.
        apply negb_true_iff, Nat.eqb_neq in C2. rewrite <- Le in H, C2. injection H as <-.
        assert (Ne : e <> "") by (intros ->; now apply C2).
        exists (d ++ String "." e)%string, v. split; [rewrite E, Eu, app_asc; reflexivity|].
        split; [rewrite app_len; reflexivity|]. split; [destruct d; [congruence|discriminate]|]. split.
        -- apply number_iff. exists d, (String "." e). repeat split; auto. right. exists e. auto.
        -- intros t' u' E' M. destruct (B t' u' E' M) as [d' [f' [-> [N' [A' [[-> Ld]|[-> [e' [-> [Ne' [Ae' Eu']]]]]]]]]]].
           ++ rewrite app_empty. lia.
           ++ injection Eu' as Eu'. rewrite Eu in Eu'. pose proof (run_max dec_digit _ _ _ _ Eu' Ae' Xe).
              rewrite app_len. cbn. lia.
      * injection H as <-. apply Plain; [reflexivity|]. intros e' u' Eu' Ne' Ae'. injection Eu' as -> Eu'.
        rewrite Ascii.eqb_refl in C. cbn in C. apply negb_false_iff, Nat.eqb_eq in C. rewrite <- Le in C.
        rewrite Eu in Eu'. pose proof (run_max dec_digit _ _ _ _ Eu' Ae' Xe). destruct e'; [congruence|cbn in *; lia].
  - intros t u N M. apply number_iff in M. destruct M as [d [f [-> [Nd [A _]]]]]. unfold m_number.
    destruct d as [|c d]; [congruence|]. cbn in A. destruct A as [Ac _]. apply isdigit_dec in Ac.
    cbn [append span]. rewrite Ac. cbn [Nat.eqb]. destruct (drop _ _); [discriminate|].
    destruct (_ && _); discriminate.
Qed.
Lemma comment_mok : mok m_comment (Cat (quoted "#") (Cat (Star (Chr any)) (Chr (fun c => c = LF)))).
Proof.
  set (body := fun s => match drop (span not_newline s) s with
                        | String _ _ => Some (S (span not_newline s)) | EmptyString => None end).
  apply (after_char_mok "#" body).
  - apply mok_intro.
    + intros s k H. unfold body in H.
      destruct (span_allc not_newline any s any_dec) as [t [u [E [L [A [Dr X]]]]]]. rewrite Dr in H.
      destruct u as [|c u]; [discriminate|]. injection H as <-. rewrite <- L.
      assert (Ec : c = LF). { destruct (ascii_dec c LF) as [|N]; [assumption|]. exfalso. exact (X _ _ eq_refl N). }
      subst c. exists (t ++ String LF "")%string, u. rewrite app_asc, app_len. cbn.
      split; [exact E|]. split; [lia|]. split; [destruct t; discriminate|]. split.
      * apply cat_iff. exists t, (String LF ""). split; [reflexivity|]. split; [now apply star_iff|now constructor].
      * intros t' u' E' M. apply cat_iff in M. destruct M as [t1 [t2 [-> [M1 M2]]]].
        apply star_iff in M1. apply chr_iff in M2. destruct M2 as [c [-> ->]].
        rewrite app_asc in E'. rewrite E in E'.
        pose proof (run_max any _ _ _ _ E' M1 X). rewrite app_len. cbn. lia.
    + intros t u _ M. apply cat_iff in M. destruct M as [t1 [t2 [-> [M1 M2]]]].
      apply star_iff in M1. apply chr_iff in M2. destruct M2 as [c [-> ->]]. unfold body.
      destruct (span_allc not_newline any ((t1 ++ String LF "") ++ u)%string any_dec) as [t [v [E [L [A [Dr X]]]]]].
      rewrite Dr. destruct v; [|discriminate]. rewrite app_empty in E. subst t.
      rewrite app_asc in A. apply allc_app in A. destruct A as [_ [A _]]. exfalso. now apply A.
  - intros [|c s]; [reflexivity|]. cbn [m_comment]. destruct (Ascii.eqb c "#"); [|reflexivity].
    unfold body. destruct (drop (span not_newline s) s); reflexivity.
  - intros M. apply cat_iff in M. destruct M as [t1 [t2 [E [_ M2]]]]. apply chr_iff in M2.
    destruct M2 as [c [-> _]]. destruct t1; discriminate.
Qed.
Lemma spaces_mok : mok m_spaces (Plus (Chr space_tab_cr)).
Proof.
  apply mok_intro.
  - intros s k H. unfold m_spaces in H.
    destruct (span_allc wspace space_tab_cr s wspace_dec) as [t [u [E [L [A [Dr X]]]]]].
    rewrite <- L in H. destruct (String.length t =? 0) eqn:Z; [discriminate|]. apply Nat.eqb_neq in Z.
    injection H as <-. exists t, u. split; [exact E|]. split; [reflexivity|].
    assert (N : t <> "") by (intros ->; now apply Z). split; [exact N|]. split; [now apply plus_iff|].
    intros t' u' E' M. apply plus_iff in M. rewrite E in E'. exact (run_max _ _ _ _ _ E' (proj2 M) X).
  - intros t u N M. apply plus_iff in M. destruct M as [_ A]. destruct t as [|c t]; [congruence|].
    cbn in A. unfold m_spaces. cbn [append span]. rewrite (proj2 (wspace_dec c) (proj1 A)). discriminate.
Qed.

(** ** The table *)
Definition effect_agrees (a : action) (e : effect) (t : string) : Prop :=
  match a, e with
  | Return f, Gives g => f t = g t
  | Ignore, Drops => True
  | Unput, Drops_keeping_newline => True
  | _, _ => False
  end.
Definition rule_ok (bol : bool) (x : (string -> option nat) * action) (y : bool * re * effect) : Prop :=
  let '(p, a) := x in let '(w, r, e) := y in
  (if w && negb bol then forall s, p s = None else mok p r) /\
  forall t, t <> "" -> matches r t -> effect_agrees a e t.

Lemma first_agrees : forall t, t <> "" -> first_char t = first_of t.
Proof. intros [|c t] H; [congruence|reflexivity]. Qed.
Lemma read_leading : forall t z, fst (read_digits z t) = leading_digits z t.
Proof.
  induction t as [|c t IH]; intros z; cbn [read_digits leading_digits]; [reflexivity|].
  assert (E : isdigit c = ((48 <=? nat_of_ascii c) && (nat_of_ascii c <=? 57))).
  { apply eq_iff_eq_true. rewrite (isdigit_dec c), andb_true_iff, !Nat.leb_le. reflexivity. }
  rewrite <- E. destruct (isdigit c) eqn:D; [|reflexivity]. rewrite IH. f_equal. unfold code.
  symmetry in E. apply andb_true_iff in E. rewrite !Nat.leb_le in E. lia.
Qed.
Lemma leading_pos : forall t z, (0 <= z)%Z -> (0 <= leading_digits z t)%Z.
Proof.
  induction t as [|c t IH]; intros z H; cbn [leading_digits]; [exact H|].
  destruct (_ && _); [|exact H]. apply IH. lia.
Qed.
Lemma number_value : forall t, matches number_re t -> to_int (fst (strtol t)) = number_of t.
Proof.
  intros t M. apply number_iff in M. destruct M as [d [f [-> [N [A _]]]]].
  destruct d as [|c d]; [congruence|]. cbn in A. destruct A as [Ac _].
  assert (D : isdigit c = true) by now apply isdigit_dec.
  assert (S : strtol (String c d ++ f) = read_digits 0 (String c d ++ f)).
  { unfold strtol. cbn [append]. destruct c as [[] [] [] [] [] [] [] []]; try discriminate D; reflexivity. }
  rewrite S, read_leading. unfold number_of, to_int.
  pose proof (leading_pos (String c d ++ f) 0 ltac:(lia)) as P.
  unfold clamp, wrap, as_int. change (32 - 1)%Z with 31%Z. rewrite Z.max_r by lia. rewrite Z.min_comm. reflexivity.
Qed.

Lemma unquoted_empty : forall r l, l <> "" -> matches (Cat r (quoted l)) "" -> False.
Proof.
  intros r l N M. apply cat_iff in M. destruct M as [t1 [t2 [E [_ M]]]]. apply quoted_iff in M. subst.
  destruct t1; cbn in E; [congruence|discriminate].
Qed.
Lemma table_ok : forall bol, Forall2 (rule_ok bol) (rules bol) flex_rules.
Proof.
  intros bol. unfold rules, flex_rules.
  assert (B : forall c v l, l = String c v -> mem c " []" = false -> True) by auto.
  assert (NB : forall d l, Ascii.eqb d " " = false -> Ascii.eqb d TAB = false ->
     forall c v, String d l = String c v -> ~ space_tab c).
  { intros d l H1 H2 c v E. injection E as <- _. intros [->| ->]; [discriminate H1|discriminate H2]. }
  assert (NW : forall d l, Ascii.eqb d " " = false -> Ascii.eqb d TAB = false -> Ascii.eqb d CR = false ->
     forall c v, String d l = String c v -> ~ space_tab_cr c).
  { intros d l H1 H2 H3 c v E. injection E as <- _.
    intros [[->| ->]| ->]; [discriminate H1|discriminate H2|discriminate H3]. }
  assert (K : forall d l, Ascii.eqb d " " = false -> Ascii.eqb d TAB = false -> Ascii.eqb d CR = false ->
     if true && negb bol then forall s, keyword bol (String d l) s = None
     else mok (keyword bol (String d l)) (section_word (String d l))).
  { intros d l H1 H2 H3. unfold keyword. destruct bol; cbn [andb negb]; [|reflexivity].
    apply runlit_mok; [exact wspace_dec|now apply NW|discriminate]. }
  assert (A : forall d l, Ascii.eqb d " " = false -> Ascii.eqb d TAB = false ->
     mok (and_lit (String d l)) (Cat (quoted "&") (Cat (Star (Chr space_tab)) (quoted (String d l))))).
  { intros d l H1 H2. apply (after_char_mok "&" (run_lit blank (String d l))).
    - apply runlit_mok; [exact blank_dec|now apply NB|discriminate].
    - intros [|c s]; reflexivity.
    - apply unquoted_empty. discriminate. }
  repeat (apply Forall2_cons; [cbn [rule_ok]; split; [try (apply K; reflexivity); cbn [andb]|try reflexivity]|]);
    try apply Forall2_nil;
    try (apply A; reflexivity); try (apply lit_mok; discriminate);
    try (intros t Nt _; cbn [effect_agrees]; try reflexivity; now rewrite (first_agrees t Nt)).
  - exact (char_mok _ _ punct_dec).
  - exact (char_mok _ _ newline_dec).
  - exact ident_mok.
  - exact number_mok.
  - intros t _ M. cbn [effect_agrees]. now rewrite number_value.
  - exact comment_mok.
  - exact spaces_mok.
  - exact (char_mok _ _ any_dec).
Qed.

Lemma best_first : forall rs s k a, best rs s = Some (k, a) -> exists i p, nth_error rs i = Some (p, a) /\
  p s = Some k /\ forall j q b k', nth_error rs j = Some (q, b) -> q s = Some k' -> k' < k \/ (k' = k /\ i <= j).
Proof.
  induction rs as [|[p a'] rs IH]; intros s k a H; cbn [best] in H; [discriminate|].
  assert (Skip : forall k' a'', best rs s = Some (k', a'') -> (forall j, p s = Some j -> j < k') ->
    exists i p0, nth_error ((p, a') :: rs) i = Some (p0, a'') /\ p0 s = Some k' /\
    forall j q b k0, nth_error ((p, a') :: rs) j = Some (q, b) -> q s = Some k0 -> k0 < k' \/ (k0 = k' /\ i <= j)).
  { intros k' a'' B L. destruct (IH s k' a'' B) as [i [p0 [N [P X]]]]. exists (S i), p0.
    split; [exact N|]. split; [exact P|]. intros [|j] q b k0 Hn Hq.
    - cbn in Hn. injection Hn as <- <-. left. now apply L.
    - destruct (X j q b k0 Hn Hq) as [|[-> Le]]; [now left|right; lia]. }
  assert (None_rest : best rs s = None -> forall j q b k0, nth_error rs j = Some (q, b) -> q s = Some k0 -> False).
  { intros B j q b k0 Hn Hq. apply nth_error_In in Hn. exact (best_some rs s q b k0 Hn Hq B). }
  destruct (p s) as [k0|] eqn:P.
  - destruct (best rs s) as [[k1 a1]|] eqn:Bs.
    + destruct (k0 <? k1) eqn:C.
      * injection H as <- <-. apply Nat.ltb_lt in C. apply (Skip k1 a1 eq_refl). intros j Hj. congruence.
      * injection H as <- <-. apply Nat.ltb_ge in C. exists 0, p. split; [reflexivity|]. split; [exact P|].
        intros [|j] q b k2 Hn Hq.
        -- cbn in Hn. injection Hn as <- <-. right. split; [congruence|lia].
        -- destruct (IH s k1 a1 Bs) as [i [p0 [N [P0 X]]]]. destruct (X j q b k2 Hn Hq) as [|[-> _]]; lia.
    + injection H as <- <-. exists 0, p. split; [reflexivity|]. split; [exact P|]. intros [|j] q b k2 Hn Hq.
      * cbn in Hn. injection Hn as <- <-. right. split; [congruence|lia].
      * exfalso. exact (None_rest eq_refl j q b k2 Hn Hq).
  - apply (Skip k a H). discriminate.
Qed.

Lemma F2_nth : forall (A B : Type) (R : A -> B -> Prop) l1 l2 i x, Forall2 R l1 l2 -> nth_error l1 i = Some x ->
  exists y, nth_error l2 i = Some y /\ R x y.
Proof.
  intros A B R l1 l2 i x H. revert i. induction H as [|a b l1 l2 H1 _ IH]; intros [|i] E; cbn in *; try discriminate.
  - injection E as <-. eauto.
  - now apply IH.
Qed.
Lemma F2_nth' : forall (A B : Type) (R : A -> B -> Prop) l1 l2 i y, Forall2 R l1 l2 -> nth_error l2 i = Some y ->
  exists x, nth_error l1 i = Some x /\ R x y.
Proof.
  intros A B R l1 l2 i y H. revert i. induction H as [|a b l1 l2 H1 _ IH]; intros [|i] E; cbn in *; try discriminate.
  - injection E as <-. eauto.
  - now apply IH.
Qed.

Lemma best_chosen : forall bol s k a, best (rules bol) s = Some (k, a) ->
  exists i w r e, chosen bol s i (substring 0 k s) (drop k s) /\ nth_error flex_rules i = Some (w, r, e) /\
    effect_agrees a e (substring 0 k s) /\ 0 < k <= String.length s /\ matches r (substring 0 k s).
Proof.
  intros bol s k a H. destruct (best_first _ _ _ _ H) as [i [p [Hi [Hp X]]]].
  destruct (F2_nth _ _ _ _ _ _ _ (table_ok bol) Hi) as [[[w r] e] [Hr [R1 R2]]].
  destruct (w && negb bol) eqn:W; [rewrite (R1 s) in Hp; discriminate|].
  specialize (R1 s). rewrite Hp in R1. destruct R1 as [Lk [M Mx]].
  destruct (cut k s (proj2 Lk)) as [C1 C2].
  assert (Nt : substring 0 k s <> "") by (intros E; rewrite E in C2; cbn in C2; lia).
  exists i, w, r, e. split; [|split; [exact Hr|]; split; [now apply R2|split; assumption]]. split.
  - exists w, r, e. split; [exact Hr|]. split; [exact C1|]. split; [exact Nt|]. split; [exact M|].
    intros ->. destruct bol; [reflexivity|discriminate W].
  - intros j t' rest' [w' [r' [e' [Hj [E [Nt' [M' Hw]]]]]]].
    destruct (F2_nth' _ _ _ _ _ _ _ (table_ok bol) Hj) as [[q b] [Hq [Q1 Q2]]].
    destruct (w' && negb bol) eqn:W'.
    { apply andb_true_iff in W'. destruct W' as [W1 W2]. rewrite (Hw W1) in W2. discriminate. }
    specialize (Q1 s). rewrite C2. destruct (q s) as [k'|] eqn:Qs.
    + destruct Q1 as [_ [_ Qx]]. specialize (Qx t' rest' E M').
      destruct (X j q b k' Hq Qs) as [|[-> Le]]; lia.
    + exfalso. exact (Q1 t' rest' E Nt' M').
Qed.

Lemma chosen_fun : forall bol s i t u j t' u', chosen bol s i t u -> chosen bol s j t' u' -> i = j /\ t = t' /\ u = u'.
Proof.
  intros bol s i t u j t' u' [A1 X1] [A2 X2].
  pose proof (X1 _ _ _ A2) as L1. pose proof (X2 _ _ _ A1) as L2.
  destruct A1 as [? [? [? [_ [E1 _]]]]]. destruct A2 as [? [? [? [_ [E2 _]]]]].
  assert (i = j) by lia. split; [assumption|].
  apply cut_unique; [congruence|lia].
Qed.
Lemma ends_newline : forall t, ends_line t = true <-> newline_last t.
Proof.
  intros t. unfold newline_last. assert (N : LF = newline) by reflexivity. rewrite N.
  induction t as [|c t IH].
  - cbn. split; [discriminate|]. intros [u E]. destruct u; discriminate.
  - destruct t as [|d t].
    + unfold ends_line. cbn. rewrite Ascii.eqb_eq. split.
      * intros ->. exists "". reflexivity.
      * intros [[|x u] E]; cbn in E; [now injection E|]. injection E as _ E. destruct u; discriminate.
    + change (ends_line (String c (String d t))) with (ends_line (String d t)). rewrite IH. split.
      * intros [u E]. exists (String c u). cbn. now rewrite E.
      * intros [[|x u] E]; cbn in E; [discriminate|]. injection E as _ E. eauto.
Qed.
Lemma bool_iff_eq : forall (b b' : bool) (P : Prop), (b = true <-> P) -> (b' = true <-> P) -> b = b'.
Proof. intros [] [] P H H'; try reflexivity; exfalso; destruct H, H'; intuition congruence. Qed.
Lemma chosen_nonempty : forall bol i t u, chosen bol "" i t u -> False.
Proof.
  intros bol i t u [[w [r [e [_ [E [N _]]]]]] _]. destruct t; [congruence|discriminate].
Qed.
Lemma tokens_fun : forall bol s ts, tokens bol s ts -> forall ts', tokens bol s ts' -> ts = ts'.
Proof.
  intros bol s ts H. induction H as [bol|bol b s i t rest w r f ts C R B H IH|bol b s i t rest w r ts C R B H IH
    |bol s i t rest w r ts C R H IH]; intros ts' H'.
  - inversion H' as [|? ? ? ? ? ? ? ? ? ? C'|? ? ? ? ? ? ? ? ? C'|? ? ? ? ? ? ? ? C']; subst; [reflexivity|..];
      exfalso; exact (chosen_nonempty _ _ _ _ C').
  - inversion H' as [|? b' ? ? ? ? ? ? ? ? C' R' B' H''|? b' ? ? ? ? ? ? ? C' R' B' H''|? ? ? ? ? ? ? ? C' R' H'']; subst;
      [exfalso; exact (chosen_nonempty _ _ _ _ C)|..];
      destruct (chosen_fun _ _ _ _ _ _ _ _ C C') as [<- [Et <-]]; rewrite R in R'; try discriminate; subst.
    injection R' as <- <- <-. rewrite (bool_iff_eq _ _ _ B' B) in H''. now rewrite (IH _ H'').
  - inversion H' as [|? b' ? ? ? ? ? ? ? ? C' R' B' H''|? b' ? ? ? ? ? ? ? C' R' B' H''|? ? ? ? ? ? ? ? C' R' H'']; subst;
      [exfalso; exact (chosen_nonempty _ _ _ _ C)|..];
      destruct (chosen_fun _ _ _ _ _ _ _ _ C C') as [<- [Et <-]]; rewrite R in R'; try discriminate; subst.
    rewrite (bool_iff_eq _ _ _ B' B) in H''. now rewrite (IH _ H'').
  - inversion H' as [|? b' ? ? ? ? ? ? ? ? C' R' B' H''|? b' ? ? ? ? ? ? ? C' R' B' H''|? ? ? ? ? ? ? ? C' R' H'']; subst;
      [exfalso; exact (chosen_nonempty _ _ _ _ C)|..];
      destruct (chosen_fun _ _ _ _ _ _ _ _ C C') as [<- [Et <-]]; rewrite R in R'; try discriminate.
    exact (IH _ H'').
Qed.

Lemma comment_rule : forall i w r, nth_error flex_rules i = Some (w, r, Drops_keeping_newline) ->
  r = Cat (quoted "#") (Cat (Star (Chr any)) (Chr (fun c => c = LF))).
Proof.
  intros i w r H. do 27 (destruct i as [|i]; [first [discriminate H|injection H as _ <-; reflexivity]|]).
  destruct i; discriminate H.
Qed.
Lemma drop_all : forall k s t u, s = (t ++ u)%string -> String.length t = k -> drop k s = u.
Proof. intros k s t u -> <-. apply drop_app. Qed.
Lemma yylex_step : forall f bol z, z <> "" -> yylex_all (S f) bol z =
  match best (rules bol) z with
  | None => Crash
  | Some (k, a) =>
      let t := substring 0 k z in
      match a with
      | Return g => l <- yylex_all f (ends_line t) (drop k z) ;; Ok (g t :: l)
      | Ignore => yylex_all f (ends_line t) (drop k z)
      | Unput => yylex_all f (ends_line t) (drop (Nat.pred k) z)
      end
  end.
Proof. intros f bol [|c s] N; [congruence|reflexivity]. Qed.
Lemma yylex_tokens : forall f bol s ts, yylex_all f bol s = Ok ts -> tokens bol s ts.
Proof.
  induction f as [|f IH]; intros bol s ts H.
  - destruct s; cbn in H; [injection H as <-; constructor|discriminate].
  - destruct (string_dec s "") as [->|Nz]; [cbn in H; injection H as <-; constructor|].
    revert Nz H. generalize s as z. clear s. intros z Nz H. rewrite (yylex_step f bol z Nz) in H.
    destruct (best (rules bol) z) as [[k a]|] eqn:B; [|discriminate]. cbv zeta in H.
    destruct (best_chosen _ _ _ _ B) as [i [w [r [e [C [R [Ag [Lk M]]]]]]]].
    destruct a as [g| |]; destruct e as [g'| |]; cbn [effect_agrees] in Ag; try contradiction.
    + destruct (yylex_all f (ends_line (substring 0 k z)) (drop k z)) as [l| |] eqn:Y; cbn in H; try discriminate.
      injection H as <-. rewrite Ag.
      exact (tk_gives _ _ _ _ _ _ _ _ _ _ C R (ends_newline _) (IH _ _ _ Y)).
    + exact (tk_drops _ _ _ _ _ _ _ _ _ C R (ends_newline _) (IH _ _ _ H)).
    + pose proof (comment_rule _ _ _ R) as Er. subst r.
      assert (X : exists t, substring 0 k z = (t ++ String LF "")%string).
      { apply cat_iff in M. destruct M as [t1 [t2 [E [_ M]]]]. apply cat_iff in M.
        destruct M as [t3 [t4 [-> [_ M]]]]. apply chr_iff in M. destruct M as [d [-> ->]].
        exists (t1 ++ t3)%string. now rewrite E, app_asc. }
      destruct X as [t Et]. destruct (cut k z (proj2 Lk)) as [C1 C2].
      assert (Ed : drop (Nat.pred k) z = String LF (drop k z)).
      { apply (drop_all _ _ t).
        - rewrite C1 at 1. rewrite Et, app_asc. reflexivity.
        - rewrite Et, app_len in C2. cbn in C2. lia. }
      rewrite Ed in H. assert (El : ends_line (substring 0 k z) = true) by (apply ends_newline; exists t; exact Et).
      rewrite El in H. rewrite Et in C.
      exact (tk_comment _ _ _ _ _ _ _ _ C R (IH _ _ _ H)).
Qed.

Lemma scanner_exact : forall s ts, yylex s = Ok ts <-> text_tokens s ts.
Proof.
  intros s ts. unfold yylex, text_tokens. split; [apply yylex_tokens|]. intros H.
  destruct (lex_total (S (String.length s)) true s ltac:(lia)) as [l E]. rewrite E. f_equal.
  exact (tokens_fun _ _ _ (yylex_tokens _ _ _ _ E) _ H).
Qed.
Lemma scanner_unique : forall s, exists ts, text_tokens s ts /\ forall ts', text_tokens s ts' -> ts' = ts.
Proof.
  intros s. destruct (lex_total (S (String.length s)) true s ltac:(lia)) as [l E]. exists l.
  assert (T : text_tokens s l) by (apply scanner_exact; exact E). split; [exact T|].
  intros ts' H. symmetry. exact (tokens_fun _ _ _ T _ H).
Qed.
