(** Model of the C library text functions used by gr1c: printf("%d"), isspace,
    isdigit, strtol (base 10). External code: modelled by its textbook meaning.
    Text is a Coq [string]; the terminating NUL is implicit. Values that do not
    fit in an int/long are not wrapped or clamped here; theorems that depend on
    this restrict the range. *)
From Coq Require Import List ZArith Lia Bool Ascii String Wf_nat.
Import ListNotations.
Open Scope string_scope.
Open Scope Z_scope.

Definition code (c : ascii) : Z := Z.of_nat (nat_of_ascii c).
Definition isdigit (c : ascii) : bool := (48 <=? code c) && (code c <=? 57).
(** isspace in the "C" locale: space, \t \n \v \f \r *)
Definition isspace (c : ascii) : bool :=
  (code c =? 32) || ((9 <=? code c) && (code c <=? 13)).
Definition digit (d : Z) : ascii := ascii_of_nat (Z.to_nat (48 + d)).

(** printf("%d", n) *)
Fixpoint dec_aux (fuel : nat) (n : Z) (acc : string) : string :=
  match fuel with
  | O => acc
  | S f => let acc := String (digit (n mod 10)) acc in
           if n / 10 =? 0 then acc else dec_aux f (n / 10) acc
  end.
Definition dec_pos (n : Z) : string := dec_aux (S (Z.to_nat (Z.log2 n))) n "".
Definition zdec (n : Z) : string := if n <? 0 then "-" ++ dec_pos (- n) else dec_pos n.

(** reading a run of digits; returns the value and the rest *)
Fixpoint read_digits (v : Z) (s : string) : Z * string :=
  match s with
  | String c r => if isdigit c then read_digits (v * 10 + (code c - 48)) r else (v, s)
  | EmptyString => (v, s)
  end.
Fixpoint skip_space (s : string) : string :=
  match s with
  | String c r => if isspace c then skip_space r else s
  | EmptyString => s
  end.
Definition starts_digit (s : string) : bool :=
  match s with String c _ => isdigit c | EmptyString => false end.
(** strtol(s, &end, 10): value and end; when no conversion is possible the value
    is 0 and end = s. *)
Definition strtol (s : string) : Z * string :=
  match skip_space s with
  | String "-" r => if starts_digit r then let (v, e) := read_digits 0 r in (- v, e) else (0, s)
  | String "+" r => if starts_digit r then read_digits 0 r else (0, s)
  | r => if starts_digit r then read_digits 0 r else (0, s)
  end.

(** ** Laws *)
Lemma code_digit : forall d, 0 <= d < 10 -> code (digit d) = 48 + d.
Proof.
  intros d H. unfold code, digit. rewrite nat_ascii_embedding; lia.
Qed.
Lemma isdigit_digit : forall d, 0 <= d < 10 -> isdigit (digit d) = true.
Proof.
  intros d H. unfold isdigit. rewrite code_digit by auto.
  apply andb_true_iff. rewrite !Z.leb_le. lia.
Qed.

Lemma log2_div10 : forall n f, 0 <= n -> n < 2 ^ Z.of_nat (S f) -> n / 10 < 2 ^ Z.of_nat f.
Proof.
  intros n f H0 H. rewrite Nat2Z.inj_succ, Z.pow_succ_r in H by lia.
  apply Z.div_lt_upper_bound; lia.
Qed.

Lemma read_dec_aux : forall f n acc, 0 <= n < 2 ^ Z.of_nat f ->
  f <> O -> read_digits 0 (dec_aux f n acc) = read_digits n acc.
Proof.
  induction f; intros n acc H Hf; [congruence|]. cbn [dec_aux].
  assert (Hm : 0 <= n mod 10 < 10) by (apply Z.mod_pos_bound; lia).
  assert (Hd : n = 10 * (n / 10) + n mod 10) by (apply Z.div_mod; lia).
  destruct (n / 10 =? 0) eqn:E.
  - apply Z.eqb_eq in E. cbn [read_digits]. rewrite isdigit_digit by auto.
    rewrite code_digit by auto. f_equal. lia.
  - apply Z.eqb_neq in E.
    assert (Hp : 0 <= n / 10) by (apply Z.div_pos; lia).
    assert (Hlt : n / 10 < 2 ^ Z.of_nat f) by (apply log2_div10; lia).
    rewrite IHf.
    + cbn [read_digits]. rewrite isdigit_digit, code_digit by auto. f_equal. lia.
    + lia.
    + intros ->. simpl in Hlt. lia.
Qed.

Lemma log2_bound : forall n, 0 <= n -> n < 2 ^ Z.of_nat (S (Z.to_nat (Z.log2 n))).
Proof.
  intros n H. rewrite Nat2Z.inj_succ, Z2Nat.id by apply Z.log2_nonneg.
  destruct (Z.eq_dec n 0) as [->|Hn]; [simpl; lia|].
  apply Z.log2_spec. lia.
Qed.

Lemma dec_aux_app : forall f n acc r, dec_aux f n (acc ++ r) = dec_aux f n acc ++ r.
Proof.
  induction f; intros; simpl; auto. destruct (n / 10 =? 0); auto.
  rewrite <- IHf. reflexivity.
Qed.
Lemma dec_pos_app : forall n r, dec_pos n ++ r = dec_aux (S (Z.to_nat (Z.log2 n))) n r.
Proof. intros. unfold dec_pos. rewrite <- dec_aux_app. reflexivity. Qed.

Lemma read_dec_pos : forall n r, 0 <= n -> read_digits 0 (dec_pos n ++ r) = read_digits n r.
Proof.
  intros n r H. rewrite dec_pos_app. apply read_dec_aux; auto.
  split; auto. apply log2_bound; auto.
Qed.

Lemma dec_aux_starts : forall f n acc, 0 <= n -> f <> O -> starts_digit (dec_aux f n acc) = true.
Proof.
  induction f; intros n acc Hn Hf; [congruence|]. cbn [dec_aux].
  assert (Hm : 0 <= n mod 10 < 10) by (apply Z.mod_pos_bound; lia).
  destruct (n / 10 =? 0).
  - simpl. apply isdigit_digit; auto.
  - destruct f.
    + simpl. apply isdigit_digit; auto.
    + apply IHf; auto. apply Z.div_pos; lia.
Qed.
Lemma dec_pos_starts : forall n r, 0 <= n -> starts_digit (dec_pos n ++ r) = true.
Proof. intros. rewrite dec_pos_app. apply dec_aux_starts; auto. Qed.

Lemma read_stop : forall v s, starts_digit s = false -> read_digits v s = (v, s).
Proof. intros v [|c s] H; auto. simpl in *. rewrite H. reflexivity. Qed.

Lemma digit_char : forall c, isdigit c = true ->
  isspace c = false /\ c <> "-"%char /\ c <> "+"%char.
Proof.
  intros c H. unfold isdigit in H. apply andb_true_iff in H. rewrite !Z.leb_le in H.
  repeat split.
  - unfold isspace. apply orb_false_iff. split; [apply Z.eqb_neq; lia|].
    apply andb_false_iff. right. apply Z.leb_gt. lia.
  - intros ->. unfold code in H. simpl in H. lia.
  - intros ->. unfold code in H. simpl in H. lia.
Qed.

Lemma skip_digit : forall s, starts_digit s = true -> skip_space s = s.
Proof.
  intros [|c s] H; [discriminate|]. simpl in *. apply digit_char in H.
  destruct H as [-> _]. reflexivity.
Qed.

Lemma strtol_digits : forall s, starts_digit s = true -> strtol s = read_digits 0 s.
Proof.
  intros s H. unfold strtol. rewrite skip_digit by auto.
  destruct s as [|c s]; auto. simpl in H. pose proof (digit_char c H) as (_ & H1 & H2).
  destruct c as [[] [] [] [] [] [] [] []]; try congruence; try discriminate H;
    reflexivity.
Qed.

(** strtol reads back what printf("%d") wrote *)
Lemma strtol_zdec : forall n r, starts_digit r = false -> strtol (zdec n ++ r) = (n, r).
Proof.
  intros n r Hr. unfold zdec. destruct (n <? 0) eqn:E.
  - apply Z.ltb_lt in E. simpl. unfold strtol. simpl.
    rewrite dec_pos_starts by lia. rewrite read_dec_pos by lia.
    rewrite read_stop by auto. f_equal. lia.
  - apply Z.ltb_ge in E. rewrite strtol_digits by (apply dec_pos_starts; auto).
    rewrite read_dec_pos by auto. apply read_stop; auto.
Qed.
Lemma strtol_space : forall c s, isspace c = true ->
  fst (strtol (String c s)) = fst (strtol s).
Proof.
  intros c s H. unfold strtol. simpl. rewrite H.
  destruct (skip_space s) as [|c' r] eqn:E; auto.
  destruct c' as [[] [] [] [] [] [] [] []]; auto;
    try (destruct (starts_digit r); auto; destruct (read_digits 0 r); auto);
    match goal with |- context [starts_digit ?x] => destruct (starts_digit x); auto end.
Qed.

Lemma string_app_assoc : forall a b c : string, (a ++ b) ++ c = a ++ b ++ c.
Proof. induction a; simpl; intros; congruence. Qed.
Lemma string_app_nil : forall a : string, a ++ "" = a.
Proof. induction a; simpl; congruence. Qed.
Lemma string_app_inj_l : forall a b c : string, a ++ b = a ++ c -> b = c.
Proof. induction a; simpl; intros b c H; auto. injection H. auto. Qed.
Lemma length_app : forall a b : string, String.length (a ++ b) = (String.length a + String.length b)%nat.
Proof. induction a; simpl; intros; auto. Qed.

Lemma zdec_inj : forall a b, zdec a = zdec b -> a = b.
Proof.
  intros a b H.
  assert (Ha := strtol_zdec a "" eq_refl). assert (Hb := strtol_zdec b "" eq_refl).
  rewrite H in Ha. rewrite Ha in Hb. congruence.
Qed.
