(** Proofs: a text is JSON in at most one way; what json_aut_dump writes. *)
From Coq Require Import List ZArith Lia Bool Arith Ascii String.
From Verif Require Import Base Strs Ptree Automaton AutIO AutWrite JsonSpec.
Import ListNotations.
Open Scope string_scope.
Open Scope list_scope.
Open Scope Z_scope.

(** ** A reader that finds the value of every JSON text *)
Definition whiteb (c : ascii) : bool := existsb (Nat.eqb (nat_of_ascii c)) [32; 9; 10; 13]%nat.
Definition decimalb (c : ascii) : bool := ((48 <=? nat_of_ascii c) && (nat_of_ascii c <=? 57))%nat.
Fixpoint skip (s : string) : string :=
  match s with String c r => if whiteb c then skip r else s | EmptyString => s end.
Fixpoint rd_string (s : string) : option (string * string) :=
  match s with
  | EmptyString => None
  | String c r => if Ascii.eqb c "034" then Some (EmptyString, r)
                  else match rd_string r with Some (a, b) => Some (String c a, b) | None => None end
  end.
Fixpoint rd_digits (v : Z) (s : string) : Z * string :=
  match s with
  | String c r => if decimalb c then rd_digits (10 * v + (Z.of_nat (nat_of_ascii c) - 48)) r else (v, s)
  | EmptyString => (v, s)
  end.
Fixpoint rd_json (fuel : nat) (s : string) : option (json * string) :=
  match fuel with
  | O => None
  | S f =>
      match s with
      | EmptyString => None
      | String c r =>
          if Ascii.eqb c "034" then match rd_string r with Some (a, b) => Some (JString a, b) | None => None end
          else if Ascii.eqb c "-" then let (v, b) := rd_digits 0 r in Some (JInt (- v), b)
          else if decimalb c then let (v, b) := rd_digits 0 s in Some (JInt v, b)
          else if Ascii.eqb c "t" then Some (JBool true, substring 3 (String.length r) r)
          else if Ascii.eqb c "f" then Some (JBool false, substring 4 (String.length r) r)
          else if Ascii.eqb c "[" then
            match skip r with
            | String d b => if Ascii.eqb d "]" then Some (JArray [], b)
                            else match rd_elements f r with Some (l, b) => Some (JArray l, b) | None => None end
            | EmptyString => None
            end
          else
            match skip r with
            | String d b => if Ascii.eqb d "}" then Some (JObject [], b)
                            else match rd_members f r with Some (l, b) => Some (JObject l, b) | None => None end
            | EmptyString => None
            end
      end
  end
with rd_elements (fuel : nat) (s : string) : option (list json * string) :=
  match fuel with
  | O => None
  | S f =>
      match rd_json f (skip s) with
      | None => None
      | Some (j, r) =>
          match skip r with
          | String c b =>
              if Ascii.eqb c "," then match rd_elements f b with Some (l, b') => Some (j :: l, b') | None => None end
              else Some ([j], b)
          | EmptyString => None
          end
      end
  end
with rd_members (fuel : nat) (s : string) : option (list (string * json) * string) :=
  match fuel with
  | O => None
  | S f =>
      match skip s with
      | EmptyString => None
      | String _ r =>
          match rd_string r with
          | None => None
          | Some (k, r) =>
              match skip r with
              | EmptyString => None
              | String _ r =>
                  match rd_json f (skip r) with
                  | None => None
                  | Some (j, r) =>
                      match skip r with
                      | String c b =>
                          if Ascii.eqb c "," then
                            match rd_members f b with Some (l, b') => Some ((k, j) :: l, b') | None => None end
                          else Some ([(k, j)], b)
                      | EmptyString => None
                      end
                  end
              end
          end
      end
  end.

Lemma whiteb_iff : forall c, whiteb c = true <-> white c.
Proof.
  intros c. unfold whiteb, white. rewrite existsb_exists. split.
  - intros (n & H & E). apply Nat.eqb_eq in E. rewrite E. exact H.
  - intros H. exists (nat_of_ascii c). split; auto. apply Nat.eqb_refl.
Qed.
Lemma decimalb_iff : forall c, decimalb c = true <-> decimal c.
Proof.
  intros c. unfold decimalb, decimal. rewrite andb_true_iff, !Nat.leb_le. tauto.
Qed.
(** the text does not begin with a character of [p] *)
Definition heads (p : ascii -> bool) (s : string) : bool := match s with String c _ => p c | EmptyString => false end.
Lemma skip_white : forall w r, chars white w -> heads whiteb r = false -> skip (w ++ r) = r.
Proof.
  induction w as [|c w IH]; intros r Hw Hr.
  - cbn [append]. destruct r as [|c r]; auto. cbn [heads] in Hr. cbn [skip rd_digits decimal_value]. rewrite Hr. reflexivity.
  - destruct Hw as [Hc Hw]. cbn [append skip]. apply whiteb_iff in Hc. rewrite Hc. auto.
Qed.
Lemma heads_white : forall w r, chars white w -> heads decimalb r = false -> heads decimalb (w ++ r) = false.
Proof.
  intros [|c w] r Hw Hr; auto. cbn. destruct Hw as [Hc _]. unfold white in Hc. unfold decimalb.
  cbn in Hc. destruct Hc as [H|[H|[H|[H|[]]]]]; rewrite <- H; reflexivity.
Qed.
Lemma rd_plain : forall s r, chars plain s -> rd_string (s ++ quote ++ r) = Some (s, r).
Proof.
  induction s as [|c s IH]; intros r Hs; [reflexivity|]. destruct Hs as [Hc Hs]. cbn [append rd_string].
  destruct (Ascii.eqb_spec c "034") as [E|E].
  - subst c. destruct Hc as (_ & Hc & _). exfalso. apply Hc. reflexivity.
  - rewrite IH by auto. reflexivity.
Qed.
Lemma rd_decimal : forall s v r, chars decimal s -> heads decimalb r = false ->
  rd_digits v (s ++ r) = (decimal_value v s, r).
Proof.
  induction s as [|c s IH]; intros v r Hs Hr.
  - cbn [append]. destruct r as [|c r]; auto. cbn [heads] in Hr. cbn [skip rd_digits decimal_value]. rewrite Hr. reflexivity.
  - destruct Hs as [Hc Hs]. cbn [append rd_digits decimal_value]. apply decimalb_iff in Hc. rewrite Hc. auto.
Qed.
Lemma natural_starts : forall s z, natural_text s z -> heads decimalb s = true.
Proof. intros s z [|c r Hc _ _]; [reflexivity|]. cbn. apply decimalb_iff. auto. Qed.
Lemma rd_natural : forall s z r, natural_text s z -> heads decimalb r = false -> rd_digits 0 (s ++ r) = (z, r).
Proof.
  intros s z r [|c t Hc _ Ht] Hr.
  - apply (rd_decimal "0" 0 r); auto. cbn. split; auto. unfold decimal. cbn. lia.
  - apply rd_decimal; auto. cbn. auto.
Qed.
Lemma decimal_not : forall c, decimalb c = true -> Ascii.eqb c "034" = false /\ Ascii.eqb c "-" = false /\
  Ascii.eqb c "]" = false /\ whiteb c = false.
Proof. intros c. destruct c as [[] [] [] [] [] [] [] []]; cbn; intros H; try discriminate H; auto. Qed.

(** the first character of a value *)
Definition starts_value (c : ascii) : bool :=
  decimalb c || existsb (Ascii.eqb c) ["034"; "-"; "t"; "f"; "["; "{"]%char.
Lemma starts_value_not : forall c, starts_value c = true -> whiteb c = false /\ Ascii.eqb c "]" = false /\
  Ascii.eqb c "}" = false /\ Ascii.eqb c "," = false.
Proof. intros c. destruct c as [[] [] [] [] [] [] [] []]; cbn; intros H; try discriminate H; auto. Qed.
Lemma json_starts : forall s j, json_text s j -> heads starts_value s = true.
Proof.
  intros s j H. destruct H; try reflexivity. apply natural_starts in H. destruct s; auto. cbn in *.
  unfold starts_value. rewrite H. reflexivity.
Qed.
Lemma heads_app : forall p s r, heads p s = true -> heads p (s ++ r) = true.
Proof. intros p [|c s] r H; [discriminate|]. exact H. Qed.
Lemma value_not_white : forall s r, heads starts_value s = true -> heads whiteb (s ++ r) = false.
Proof. intros [|c s] r H; [discriminate|]. cbn in *. apply starts_value_not in H. tauto. Qed.

Scheme json_text_min := Minimality for json_text Sort Prop
  with elements_text_min := Minimality for elements_text Sort Prop
  with members_text_min := Minimality for members_text Sort Prop.
Combined Scheme json_text_mut from json_text_min, elements_text_min, members_text_min.

Definition finds_json (s : string) (j : json) : Prop :=
  exists n, forall f r, (n <= f)%nat -> heads decimalb r = false -> rd_json f (s ++ r) = Some (j, r).
Definition finds_elements (s : string) (l : list json) : Prop :=
  (exists w t, s = (w ++ t)%string /\ chars white w /\ heads starts_value t = true) /\
  exists n, forall f r, (n <= f)%nat -> rd_elements f (s ++ "]" ++ r) = Some (l, r).
Definition finds_members (s : string) (l : list (string * json)) : Prop :=
  (exists w t, s = (w ++ quote ++ t)%string /\ chars white w) /\
  exists n, forall f r, (n <= f)%nat -> rd_members f (s ++ "}" ++ r) = Some (l, r).
Lemma substring_all : forall s n, (String.length s <= n)%nat -> substring 0 n s = s.
Proof.
  induction s as [|c s IH]; intros n H; [destruct n; reflexivity|].
  destruct n as [|n]; [cbn in H; lia|]. cbn in *. rewrite IH by lia. reflexivity.
Qed.
Ltac fuel f H := destruct f as [|f]; [lia|]; cbn [rd_json rd_elements rd_members].
Lemma finds : (forall s j, json_text s j -> finds_json s j) /\
  (forall s l, elements_text s l -> finds_elements s l) /\
  (forall s l, members_text s l -> finds_members s l).
Proof.
  apply json_text_mut.
  - intros s Hs. exists 1%nat. intros f r Hf Hr. fuel f Hf. rewrite !string_app_assoc. cbn [quote append Ascii.eqb].
    change (String "034" r) with (quote ++ r)%string.
    change (Ascii.eqb "034" "034") with true. cbv iota. rewrite rd_plain by auto. reflexivity.
  - intros s z Hn. exists 1%nat. intros f r Hf Hr. fuel f Hf. pose proof (natural_starts _ _ Hn) as Hc.
    pose proof (rd_natural _ _ r Hn Hr) as Hd. destruct s as [|c s]; [discriminate|]. cbn [append heads] in *.
    destruct (decimal_not c Hc) as (-> & -> & _). rewrite Hc, Hd. reflexivity.
  - intros s z Hn. exists 1%nat. intros f r Hf Hr. fuel f Hf. cbn [append].
    change (Ascii.eqb "-" "034") with false. change (Ascii.eqb "-" "-") with true. cbv iota.
    rewrite (rd_natural _ _ r Hn Hr). reflexivity.
  - exists 1%nat. intros f r Hf Hr. fuel f Hf. cbn. rewrite substring_all by lia. reflexivity.
  - exists 1%nat. intros f r Hf Hr. fuel f Hf. cbn. rewrite substring_all by lia. reflexivity.
  - intros w Hw. exists 1%nat. intros f r Hf Hr. fuel f Hf. cbn [append]. rewrite string_app_assoc.
    rewrite skip_white by auto. reflexivity.
  - intros s l _ [(w & t & E & Hw & Ht) [n H]]. exists (S n). intros f r Hf Hr. fuel f Hf. cbn [append].
    rewrite string_app_assoc. rewrite H by lia. rewrite E, string_app_assoc, skip_white; auto.
    2:{ apply value_not_white; auto. }
    destruct t as [|c t]; [discriminate|]. cbn in Ht. destruct (starts_value_not c Ht) as (_ & Hc & _).
    cbn [append]. rewrite Hc. reflexivity.
  - intros w Hw. exists 1%nat. intros f r Hf Hr. fuel f Hf. cbn [append]. rewrite string_app_assoc.
    rewrite skip_white by auto. reflexivity.
  - intros s l _ [(w & t & E & Hw) [n H]]. exists (S n). intros f r Hf Hr. fuel f Hf. cbn [append].
    rewrite string_app_assoc. rewrite H by lia. rewrite E, !string_app_assoc, skip_white; auto.
  - intros w1 s w2 j Hw1 Hj [n H] Hw2. split.
    { exists w1, (s ++ w2)%string. repeat split; auto. apply heads_app. eapply json_starts; eauto. }
    exists (S n). intros f r Hf. fuel f Hf. rewrite !string_app_assoc, skip_white; auto.
    2:{ apply value_not_white. eapply json_starts; eauto. }
    rewrite H; [|lia|apply heads_white; auto]. rewrite skip_white by auto. reflexivity.
  - intros w1 s w2 j r0 l Hw1 Hj [n H] Hw2 Hl [_ [m Hm]]. split.
    { exists w1, (s ++ w2 ++ "," ++ r0)%string. repeat split; auto. apply heads_app. eapply json_starts; eauto. }
    exists (S (n + m)). intros f r Hf. fuel f Hf. rewrite !string_app_assoc, skip_white; auto.
    2:{ apply value_not_white. eapply json_starts; eauto. }
    rewrite H; [|lia|apply heads_white; auto]. rewrite skip_white by auto. cbn [append].
    change (Ascii.eqb "," ",") with true. cbv iota.
    change (String "]" r) with ("]" ++ r)%string. rewrite Hm by lia. reflexivity.
  - intros w1 k w2 w3 s w4 j Hw1 Hk Hw2 Hw3 Hj [n H] Hw4. split.
    { eexists w1, _. split; [reflexivity|auto]. }
    exists (S n). intros f r Hf. fuel f Hf. rewrite !string_app_assoc, skip_white by auto. cbn [append quote].
    change (String "034" (w2 ++ ?x)) with (quote ++ w2 ++ x)%string. rewrite rd_plain by auto.
    rewrite skip_white by auto.
    rewrite skip_white; auto; [|apply value_not_white; eapply json_starts; eauto].
    rewrite H; [|lia|apply heads_white; auto]. rewrite skip_white by auto. reflexivity.
  - intros w1 k w2 w3 s w4 j r0 l Hw1 Hk Hw2 Hw3 Hj [n H] Hw4 Hl [_ [m Hm]]. split.
    { eexists w1, _. split; [reflexivity|auto]. }
    exists (S (n + m)). intros f r Hf. fuel f Hf. rewrite !string_app_assoc, skip_white by auto. cbn [append quote].
    change (String "034" (w2 ++ ?x)) with (quote ++ w2 ++ x)%string. rewrite rd_plain by auto.
    rewrite skip_white by auto.
    rewrite skip_white; auto; [|apply value_not_white; eapply json_starts; eauto].
    rewrite H; [|lia|apply heads_white; auto]. rewrite skip_white by auto.
    change (Ascii.eqb "," ",") with true. cbv iota.
    change (String "}" r) with ("}" ++ r)%string. rewrite Hm by lia. reflexivity.
Qed.
Lemma json_unique : forall t j j', json_file t j -> json_file t j' -> j = j'.
Proof.
  intros t j j' (w1 & s & w2 & H1 & H2 & H3 & E) (w1' & s' & w2' & H1' & H2' & H3' & E').
  assert (K : forall w1 s w2 j, chars white w1 -> json_text s j -> chars white w2 ->
    exists n, forall f, (n <= f)%nat -> rd_json f (skip (w1 ++ s ++ w2)) = Some (j, w2)).
  { clear. intros w1 s w2 j H1 H2 H3. destruct (proj1 finds _ _ H2) as [n H]. exists n. intros f Hf.
    rewrite skip_white; auto; [|apply value_not_white; eapply json_starts; eauto].
    apply H; auto. rewrite <- (string_app_nil w2). apply heads_white; auto. }
  destruct (K _ _ _ _ H1 H2 H3) as [n H]. destruct (K _ _ _ _ H1' H2' H3') as [n' H'].
  specialize (H (n + n')%nat ltac:(lia)). specialize (H' (n + n')%nat ltac:(lia)).
  rewrite <- E in H. rewrite <- E' in H'. congruence.
Qed.
