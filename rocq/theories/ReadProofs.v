(** Proofs about read_state_str. *)
From Coq Require Import List ZArith Lia Bool Arith Ascii String.
From Verif Require Import Base Strs Automaton AutIO AutIOSpec AutIOProofs ReadState ReadSpec.
Import ListNotations.
Open Scope string_scope.
Open Scope list_scope.
Open Scope Z_scope.

Lemma read_digits_split : forall s v, exists ds r, s = (ds ++ r)%string /\ all_chars isdigit ds = true /\
  starts_digit r = false /\ read_digits v s = (digits_value v ds, r) /\ (starts_digit s = true -> ds <> "").
Proof.
  induction s as [|c s IH]; intros v.
  - exists "", "". repeat split; auto. discriminate.
  - cbn [read_digits]. destruct (isdigit c) eqn:E.
    + destruct (IH (v * 10 + (code c - 48))) as (ds & r & -> & H1 & H2 & H3 & _).
      exists (String c ds), r. split; auto. split; [cbn; rewrite E; auto|]. split; auto. split; [exact H3|]. discriminate.
    + exists "", (String c s). split; auto. split; auto. split; auto. split; auto. cbn. congruence.
Qed.
Lemma skip_split : forall s, exists ws, s = (ws ++ skip_space s)%string /\ all_chars isspace ws = true /\
  match skip_space s with String c _ => isspace c = false | _ => True end.
Proof.
  induction s as [|c s IH].
  { exists "". split; [reflexivity|]. split; [reflexivity|exact I]. }
  cbn [skip_space]. destruct (isspace c) eqn:E.
  - destruct IH as (ws & H1 & H2 & H3). exists (String c ws). split; [cbn; congruence|]. split; auto.
    cbn. rewrite E, H2. reflexivity.
  - exists "". split; auto.
Qed.
Lemma skip_all : forall ws r, all_chars isspace ws = true -> skip_space (ws ++ r) = skip_space r.
Proof.
  induction ws as [|c ws IH]; intros r H; auto. cbn in *. apply andb_true_iff in H. destruct H as [-> H]. auto.
Qed.
Lemma starts_digit_app : forall ds r, ds <> "" -> all_chars isdigit ds = true -> starts_digit (ds ++ r) = true.
Proof. intros [|c ds] r H H2; [congruence|]. cbn in *. apply andb_true_iff in H2. tauto. Qed.
Lemma strtol_cases : forall s,
  (exists t z r, s = (t ++ r)%string /\ num_text t z /\ starts_digit r = false /\ strtol s = (z, r)) \/
  (no_int s /\ strtol s = (0, s)).
Proof.
  intros s. destruct (skip_split s) as (ws & Hs & Hw & Hc). unfold strtol.
  set (u := skip_space s) in *.
  assert (Hno : (match u with String "-" r | String "+" r => starts_digit r | r => starts_digit r end) = false -> no_int s).
  { intros Hu t z r E (ws' & sg & ds & -> & H1 & H2 & H3 & H4).
    assert (Eu : u = skip_space (sg ++ ds ++ r)).
    { unfold u. rewrite E, !string_app_assoc, skip_all by auto. reflexivity. }
    assert (Hd : starts_digit (ds ++ r) = true) by (apply starts_digit_app; auto).
    destruct H4 as [[[->| ->] _]|[-> _]]; cbn [String.append] in Eu.
    - rewrite (skip_digit _ Hd) in Eu. rewrite Eu in Hu. destruct (ds ++ r)%string as [|c x]; [discriminate|].
      cbn in Hd. pose proof (digit_char c Hd) as (_ & N1 & N2).
      destruct c as [[] [] [] [] [] [] [] []]; try congruence; discriminate.
    - change (skip_space (String "+" (ds ++ r))) with (String "+" (ds ++ r)) in Eu. rewrite Eu in Hu. congruence.
    - change (skip_space (String "-" (ds ++ r))) with (String "-" (ds ++ r)) in Eu. rewrite Eu in Hu. congruence. }
  assert (Hplain : (match u with String "-" r | String "+" r => False | _ => True end) ->
    (exists t z r, s = (t ++ r)%string /\ num_text t z /\ starts_digit r = false /\
       (if starts_digit u then read_digits 0 u else (0, s)) = (z, r)) \/
    (no_int s /\ (if starts_digit u then read_digits 0 u else (0, s)) = (0, s))).
  { intros Hu. destruct (starts_digit u) eqn:Ed.
    - left. destruct (read_digits_split u 0) as (ds & r & Eu & H1 & H2 & H3 & H4).
      exists (ws ++ ds)%string, (digits_value 0 ds), r. split; [rewrite string_app_assoc; congruence|].
      split; [|split; auto]. exists ws, "", ds. split; auto. split; auto. split; auto.
    - right. split; auto. apply Hno. destruct u as [|c x]; auto.
      destruct c as [[] [] [] [] [] [] [] []]; auto; destruct Hu. }
  destruct u as [|c x] eqn:Eu; [apply Hplain; auto|].
  assert (Hsg : forall sg (f : Z -> Z), c = sg -> (sg = "-"%char /\ f = Z.opp \/ sg = "+"%char /\ f = (fun v => v)) ->
    (exists t z r, s = (t ++ r)%string /\ num_text t z /\ starts_digit r = false /\
       (if starts_digit x then let (v, e) := read_digits 0 x in (f v, e) else (0, s)) = (z, r)) \/
    (no_int s /\ (if starts_digit x then let (v, e) := read_digits 0 x in (f v, e) else (0, s)) = (0, s))).
  { intros sg f Ec Hf. destruct (starts_digit x) eqn:Ed.
    - left. destruct (read_digits_split x 0) as (ds & r & Ex & H1 & H2 & H3 & H4). rewrite H3.
      exists (ws ++ String sg ds)%string, (f (digits_value 0 ds)), r.
      split; [rewrite string_app_assoc; cbn; congruence|]. split; [|split; auto].
      exists ws, (String sg ""), ds. split; auto. split; auto. split; auto. split; auto.
      destruct Hf as [[-> ->]|[-> ->]]; auto.
    - right. split; auto. apply Hno. destruct Hf as [[-> _]|[-> _]]; rewrite Ec; first [exact Ed|reflexivity]. }
  destruct (Ascii.ascii_dec c "-") as [->|N1]; [apply (Hsg "-"%char Z.opp); auto|].
  destruct (Ascii.ascii_dec c "+") as [->|N2].
  { destruct (Hsg "+"%char (fun v => v)) as [(t & z & r & H1 & H2 & H3 & H4)|[H1 H2]]; auto.
    - left. exists t, z, r. split; auto. split; auto. split; auto.
      destruct (starts_digit x); auto. destruct (read_digits 0 x); auto.
    - right. split; auto. destruct (starts_digit x); auto. destruct (read_digits 0 x); auto. }
  destruct c as [[] [] [] [] [] [] [] []]; try (exact (Hplain I)); congruence.
Qed.
Lemma num_text_len : forall t z, num_text t z -> (0 < String.length t)%nat.
Proof.
  intros t z (ws & sg & ds & -> & _ & H & _). rewrite !length_app. destruct ds; [congruence|]. cbn. lia.
Qed.

Lemma loop_ok : forall fuel max_len i s, (String.length s < fuel)%nat -> 0 <= i -> (max_len < 0 \/ i <= max_len) ->
  exists zs rest, int_prefix s zs rest /\ read_state_loop fuel max_len i s = Ok (map to_int zs) /\
    (0 <= max_len -> i + Z.of_nat (List.length zs) <= max_len) /\
    (i + Z.of_nat (List.length zs) <> max_len -> no_int rest).
Proof.
  induction fuel as [|f IH]; intros max_len i s Hf Hi Hm; [lia|]. cbn [read_state_loop].
  destruct ((max_len <? 0) || (i <? max_len)) eqn:Eg; cbn [andb].
  - assert (Hg : max_len < 0 \/ i < max_len).
    { apply orb_true_iff in Eg. rewrite !Z.ltb_lt in Eg. exact Eg. }
    destruct (is_nul s) eqn:En; cbn [negb].
    + exists [], s. split; [constructor|]. split; auto. split; [cbn; lia|]. intros _.
      destruct s; [|discriminate]. intros t z r E Hn. apply num_text_len in Hn.
      destruct t; cbn in Hn; [lia|discriminate E].
    + destruct (strtol_cases s) as [(t & z & r & -> & Hn & Hr & ->)|[Hn ->]].
      * rewrite same_pos_app by (eapply num_text_len; eauto).
        pose proof (num_text_len _ _ Hn) as Hl. rewrite length_app in Hf.
        destruct (IH max_len (i + 1) r) as (zs & rest & H1 & H2 & H3 & H4); try lia.
        rewrite H2. cbn [bind]. exists (z :: zs), rest. split; [constructor; auto|]. split; [reflexivity|].
        cbn [List.length]. split; [intros; lia|]. intros Hne. apply H4. lia.
      * unfold same_pos. rewrite Nat.eqb_refl. exists [], s. split; [constructor|]. split; auto.
        split; [cbn; lia|]. auto.
  - exists [], s. split; [constructor|]. split; auto. apply orb_false_iff in Eg. rewrite !Z.ltb_ge in Eg.
    split; [cbn; lia|]. cbn. intros; lia.
Qed.
Lemma no_int_nil : no_int "".
Proof. intros t z r E Hn. apply num_text_len in Hn. destruct t; [cbn in Hn; lia|discriminate E]. Qed.
Lemma read_state_ok : forall s max_len, exists zs rest, int_prefix s zs rest /\
  read_state_str s max_len = Ok (Z.of_nat (List.length zs), map to_int zs) /\
  (0 <= max_len -> Z.of_nat (List.length zs) <= max_len) /\
  (Z.of_nat (List.length zs) <> max_len -> no_int rest).
Proof.
  intros s max_len. unfold read_state_str. destruct (Z.eqb_spec max_len 0) as [->|E]; cbn [orb].
  - exists [], s. split; [constructor|]. split; auto. split; cbn; [lia|congruence].
  - destruct (is_nul s) eqn:En.
    + exists [], s. split; [constructor|]. split; auto. split; [cbn; lia|]. intros _.
      destruct s; [|discriminate]. apply no_int_nil.
    + destruct (loop_ok (S (String.length s)) max_len 0 s) as (zs & rest & H1 & H2 & H3 & H4); try lia.
      exists zs, rest. split; auto. rewrite H2. cbn [bind]. rewrite map_length. auto.
Qed.

(** the decomposition is unique, so the result is determined by it *)
Lemma num_prefix : forall t z s, num_text t z -> starts_digit s = false -> strtol (t ++ s) = (z, s).
Proof.
  intros t z s (ws & sg & ds & -> & H1 & H2 & H3 & H4) Hs. unfold strtol. rewrite !string_app_assoc.
  rewrite skip_all by auto.
  assert (Hd : starts_digit (ds ++ s) = true) by (apply starts_digit_app; auto).
  assert (Hr : forall v, read_digits v (ds ++ s) = (digits_value v ds, s)).
  { clear - H3 Hs. induction ds as [|c ds IH]; intros v; cbn [String.append digits_value].
    - apply read_stop; auto.
    - cbn in H3. apply andb_true_iff in H3. destruct H3 as [Hc H3]. cbn [read_digits]. rewrite Hc. auto. }
  destruct H4 as [[[->| ->] ->]|[-> ->]]; cbn [String.append].
  - rewrite (skip_digit _ Hd). rewrite <- (Hr 0). destruct (ds ++ s)%string as [|c x] eqn:E; [discriminate|].
    cbn in Hd. pose proof (digit_char c Hd) as (_ & N1 & N2).
    destruct c as [[] [] [] [] [] [] [] []]; try congruence; cbn [starts_digit]; rewrite Hd; reflexivity.
  - change (skip_space (String "+" (ds ++ s))) with (String "+" (ds ++ s)). cbv iota beta. rewrite Hd. apply Hr.
  - change (skip_space (String "-" (ds ++ s))) with (String "-" (ds ++ s)). cbv iota beta. rewrite Hd, Hr. reflexivity.
Qed.
Lemma prefix_unique : forall s zs rest, int_prefix s zs rest -> forall zs' rest', int_prefix s zs' rest' ->
  (List.length zs <= List.length zs')%nat -> exists more, zs' = zs ++ more.
Proof.
  induction 1 as [s|t z s zs rest Hn Hs Hp IH]; intros zs' rest' H' Hl; [exists zs'; auto|].
  inversion H' as [|t' z' s' zs0 rest0 Hn' Hs' Hp' E1 E2 E3]; subst; [cbn in Hl; lia|].
  pose proof (num_prefix _ _ _ Hn Hs) as E. pose proof (num_prefix _ _ _ Hn' Hs') as E'.
  rewrite E1 in E'. rewrite E in E'. injection E' as <- <-. cbn in Hl.
  destruct (IH zs0 rest' Hp') as [more ->]; [lia|]. exists more. reflexivity.
Qed.
Lemma all_chars_app : forall p a b, all_chars p (a ++ b) = all_chars p a && all_chars p b.
Proof. induction a; intros; cbn; auto. rewrite IHa, andb_assoc. reflexivity. Qed.
Lemma dec_aux_digits : forall f n acc, 0 <= n -> all_chars isdigit acc = true ->
  all_chars isdigit (dec_aux f n acc) = true.
Proof.
  induction f; intros n acc Hn Ha; cbn [dec_aux]; auto.
  assert (Hm : 0 <= n mod 10 < 10) by (apply Z.mod_pos_bound; lia).
  assert (Hd : all_chars isdigit (String (digit (n mod 10)) acc) = true) by (cbn; rewrite isdigit_digit; auto).
  destruct (n / 10 =? 0); auto. apply IHf; auto. apply Z.div_pos; lia.
Qed.
Lemma read_digits_value : forall ds v, all_chars isdigit ds = true -> read_digits v ds = (digits_value v ds, "").
Proof.
  induction ds as [|c ds IH]; intros v H; auto. cbn in *. apply andb_true_iff in H. destruct H as [-> H]. auto.
Qed.
Lemma dec_pos_text : forall n, 0 <= n -> dec_pos n <> "" /\ all_chars isdigit (dec_pos n) = true /\
  digits_value 0 (dec_pos n) = n.
Proof.
  intros n H. pose proof (dec_pos_starts n "" H) as Hd. rewrite string_app_nil in Hd.
  assert (Ha : all_chars isdigit (dec_pos n) = true) by (apply dec_aux_digits; auto).
  split; [intros E; rewrite E in Hd; discriminate|]. split; auto.
  pose proof (read_dec_pos n "" H) as E. rewrite string_app_nil, read_digits_value in E by auto. change (read_digits n "") with (n, "") in E. injection E as E. exact E.
Qed.
Lemma zdec_text : forall ws n, all_chars isspace ws = true -> num_text (ws ++ zdec n) n.
Proof.
  intros ws n Hw. unfold zdec. destruct (n <? 0) eqn:E.
  - apply Z.ltb_lt in E. destruct (dec_pos_text (- n)) as (H1 & H2 & H3); [lia|].
    exists ws, "-", (dec_pos (- n)). repeat split; auto. right. split; auto. lia.
  - apply Z.ltb_ge in E. destruct (dec_pos_text n E) as (H1 & H2 & H3).
    exists ws, "", (dec_pos n). repeat split; auto.
Qed.
Lemma join_prefix : forall l ws, all_chars isspace ws = true -> l <> [] -> int_prefix (ws ++ join l) l "".
Proof.
  induction l as [|z l IH]; intros ws Hw Hne; [congruence|]. destruct l as [|y l].
  - cbn [join]. rewrite <- (string_app_nil (ws ++ zdec z)). constructor; [apply zdec_text; auto|reflexivity|constructor].
  - cbn [join]. rewrite <- string_app_assoc. constructor; [apply zdec_text; auto|reflexivity|].
    apply (IH " "); [reflexivity|discriminate].
Qed.
Lemma read_back : forall l max_len, ints l -> l <> [] -> max_len < 0 \/ Z.of_nat (List.length l) <= max_len ->
  read_state_str (join l) max_len = Ok (Z.of_nat (List.length l), l).
Proof.
  intros l max_len Hi Hne Hm. pose proof (join_prefix l "" eq_refl Hne) as Hj. cbn [String.append] in Hj.
  destruct (read_state_ok (join l) max_len) as (zs & rest & H1 & H2 & H3 & H4).
  assert (E : zs = l).
  { destruct (Nat.le_ge_cases (List.length zs) (List.length l)) as [Hl|Hl].
    - destruct (prefix_unique _ _ _ H1 _ _ Hj Hl) as [more Em].
      destruct more as [|m more]; [rewrite app_nil_r in Em; auto|]. exfalso.
      assert (Hne2 : Z.of_nat (List.length zs) <> max_len) by (rewrite Em, app_length in Hm; cbn in Hm; lia).
      specialize (H4 Hne2). clear - H1 H4 Hj Em. revert Hj. generalize (join l) H1. intros s Hs Hj. subst l.
      clear H1. induction Hs as [s|t z s zs rest Hn Hsd Hp IH].
      + inversion Hj; subst. apply (H4 t m s0 eq_refl). auto.
      + inversion Hj as [|t' z' s' zs0 rest0 Hn' Hs' Hp' E1 E2 E3]; subst.
        pose proof (num_prefix _ _ _ Hn Hsd) as E. pose proof (num_prefix _ _ _ Hn' Hs') as E'.
        rewrite E1 in E'. rewrite E in E'. injection E' as <-. apply IH; auto.
    - destruct (prefix_unique _ _ _ Hj _ _ H1 Hl) as [more Em].
      destruct more as [|m more]; [rewrite app_nil_r in Em; auto|]. exfalso.
      clear - Hj H1 Em. revert Hj H1. generalize (join l). intros s Hj. revert zs rest Em.
      remember "" as e eqn:Ee. induction Hj as [s|t z s l rest0 Hn Hsd Hp IH]; intros zs rest Em H1.
      + subst. inversion H1 as [|t' z' s' zs0 rest1 Hn' Hs' Hp' E1 E2 E3]; subst.
        apply num_text_len in Hn'. destruct t'; [cbn in Hn'; lia|discriminate E1].
      + subst zs. inversion H1 as [|t' z' s' zs0 rest1 Hn' Hs' Hp' E1 E2 E3]; subst.
        pose proof (num_prefix _ _ _ Hn Hsd) as E. pose proof (num_prefix _ _ _ Hn' Hs') as E'.
        rewrite E1 in E'. rewrite E in E'. injection E' as <-. eapply IH; eauto. }
  subst zs. rewrite H2. do 2 f_equal. rewrite <- (map_id l) at 2. apply map_ext_in. intros z Hz. apply to_int_ok; auto.
Qed.
