(** Proofs: the plain list and DOT writers. *)
From Coq Require Import List ZArith Lia Bool Arith Ascii String.
From Verif Require Import Base Strs Ptree Form FSpec Automaton AutIO AutIOSpec AutIOProofs AutWrite JsonSpec JsonProofs JsonWrite
  FormatSpec.
Import ListNotations.
Open Scope string_scope.
Open Scope list_scope.
Open Scope Z_scope.

(** ** Texts *)
Lemma between_cons : forall sep x y l, between sep (x :: y :: l) = (x ++ sep ++ between sep (y :: l))%string.
Proof. reflexivity. Qed.
Lemma all_of_cons : forall x l, all_of (x :: l) = (x ++ all_of l)%string.
Proof. intros x [|y l]; [cbn; rewrite string_app_nil; reflexivity|reflexivity]. Qed.
Lemma all_of_cat : forall l, all_of l = cat l.
Proof. induction l as [|x l IH]; [reflexivity|]. rewrite all_of_cons, IH. reflexivity. Qed.
Lemma all_of_app : forall l k, all_of (l ++ k) = (all_of l ++ all_of k)%string.
Proof. induction l as [|x l IH]; intros k; [reflexivity|]. cbn [List.app]. rewrite !all_of_cons, IH, string_app_assoc. reflexivity. Qed.
Lemma blanks_all : forall n, blanks n = all_of (repeat " " n).
Proof. induction n; [reflexivity|]. cbn [repeat]. rewrite all_of_cons. cbn. rewrite IHn. reflexivity. Qed.
Lemma padded_right : forall w z, padded w z = right_aligned w (zdec z).
Proof. intros. unfold padded, right_aligned. rewrite blanks_all. reflexivity. Qed.

Lemma print_loop : forall A (l : list A) (g : A -> string) (f : nat -> out string) k,
  (forall i x, nth_error l i = Some x -> f (k + i)%nat = Ok (g x)) ->
  map_out f (seq k (List.length l)) = Ok (map g l).
Proof.
  induction l as [|x l IH]; intros g f k Hf; [reflexivity|]. cbn [List.length seq map_out map].
  assert (H0 := Hf 0%nat x eq_refl). rewrite Nat.add_0_r in H0. rewrite H0. cbn [bind].
  rewrite (IH g); [reflexivity|]. intros i y Hy. specialize (Hf (S i) y Hy).
  replace (S k + i)%nat with (k + S i)%nat by lia. exact Hf.
Qed.
Lemma print_all : forall A (l : list A) (g : A -> string) (f : nat -> out string) n, n = List.length l ->
  (forall i x, nth_error l i = Some x -> f i = Ok (g x)) -> for_print n f = Ok (all_of (map g l)).
Proof.
  intros A l g f n -> Hf. unfold for_print. rewrite (print_loop A l g f 0) by exact Hf. cbn [bind].
  rewrite all_of_cat. reflexivity.
Qed.

(** ** Numbered rows *)
Definition rows_aut (A : aut) : list frow := rows_from A A 0.
Lemma rows_numbered : forall A, closed_aut A -> numbered A (rows_aut A).
Proof.
  intros A Hc. split; [apply rows_from_length|]. intros i x r Hx Hr.
  destruct (rows_from_nth A A 0 i r Hr) as (x' & Hx' & ->). assert (x' = x) by congruence. subst x'.
  cbn [f_id f_state f_init f_mode f_rgrad f_trans]. repeat (split; [reflexivity|]).
  assert (Ht : incl (atrans x) (map aid A)) by (apply Hc; eapply nth_error_In; eauto).
  clear Hr. revert Ht. induction (atrans x) as [|t l IH]; intros Ht; [constructor|]. cbn [map]. constructor.
  - destruct (index_ok A t) as (k & y & E & Hy & Ha); [apply Ht; cbn; auto|]. rewrite E, Nat2Z.id.
    exists y. repeat split; auto. lia.
  - apply IH. intros u Hu. apply Ht. cbn. auto.
Qed.
Lemma numbered_unique : forall A rows rows', NoDup (map aid A) -> numbered A rows -> numbered A rows' -> rows = rows'.
Proof.
  intros A rows rows' Hnd [L H] [L' H']. apply (nth_ext rows rows' (FRow 0 [] false 0 0 []) (FRow 0 [] false 0 0 [])); [congruence|].
  intros i Hi. destruct (nth_error rows i) as [r|] eqn:Er; [|apply nth_error_None in Er; lia].
  destruct (nth_error rows' i) as [r'|] eqn:Er'; [|apply nth_error_None in Er'; lia].
  destruct (nth_error A i) as [x|] eqn:Ex; [|apply nth_error_None in Ex; lia].
  rewrite (nth_error_nth _ _ _ Er), (nth_error_nth _ _ _ Er').
  destruct (H _ _ _ Ex Er) as (I1 & I2 & I3 & I4 & I5 & I6). destruct (H' _ _ _ Ex Er') as (J1 & J2 & J3 & J4 & J5 & J6).
  assert (T : f_trans r = f_trans r').
  { clear - Hnd I6 J6. revert I6 J6. generalize (f_trans r) (f_trans r'). induction (atrans x) as [|t l IH]; intros k k' F F';
      inversion F; inversion F'; subst; auto. f_equal; [|apply IH; auto].
    destruct H1 as (z & Hz & Ha & Hp), H6 as (z' & Hz' & Ha' & Hp').
    assert (Z.to_nat y = Z.to_nat y0); [|lia].
    apply (proj1 (NoDup_nth_error (map aid A)) Hnd).
    - rewrite map_length. apply nth_error_Some. congruence.
    - rewrite !nth_error_map, Hz, Hz'. cbn. congruence. }
  destruct r, r'; cbn in *; congruence.
Qed.

(** ** Plain list *)
Lemma state_list : forall st, st <> [] ->
  (first <- for_print (Z.to_nat (Z.of_nat (List.length st) - 1)) (fun i =>
             z <- at_state st i ;; Ok (zdec z ++ ",")%string) ;;
   last <- at_state st (Z.to_nat (Z.of_nat (List.length st) - 1)) ;;
   Ok (first ++ zdec last)%string) = Ok (between "," (map zdec st)).
Proof.
  intros st Hs. rewrite (app_removelast_last 0 Hs). set (l := removelast st). set (z := last st 0).
  rewrite app_length. cbn [List.length]. replace (Z.to_nat (Z.of_nat (List.length l + 1) - 1)) with (List.length l) by lia.
  rewrite (print_all Z l (fun z => (zdec z ++ ",")%string)); [|reflexivity|].
  2:{ intros i x Hx. unfold at_state. rewrite nth_error_app1 by (apply nth_error_Some; congruence). rewrite Hx. reflexivity. }
  cbn [bind]. unfold at_state. rewrite nth_error_app2, Nat.sub_diag by lia. cbn [nth_error bind]. f_equal.
  clear. induction l as [|x l IH]; [reflexivity|]. cbn [map List.app]. rewrite all_of_cons, !string_app_assoc.
  rewrite IH. destruct l; reflexivity.
Qed.
Lemma list_nodes_eq : forall A n nodes c, (forall x, In x nodes -> List.length (astate x) = n) ->
  list_nodes A (Z.of_nat n) nodes (Z.of_nat c) = Ok (list_file (rows_from A nodes c)).
Proof.
  intros A n. induction nodes as [|x nodes IH]; intros c Hl; [reflexivity|]. cbn [list_nodes rows_from].
  replace (Z.of_nat c + 1) with (Z.of_nat (S c)) by lia.
  assert (Hx : List.length (astate x) = n) by (apply Hl; cbn; auto).
  rewrite IH by (intros y Hy; apply Hl; cbn; auto).
  assert (S : (if 0 <? Z.of_nat n
    then first <- for_print (Z.to_nat (Z.of_nat n - 1)) (fun i => z <- at_state (astate x) i ;; Ok (zdec z ++ ",")%string) ;;
         last <- at_state (astate x) (Z.to_nat (Z.of_nat n - 1)) ;; Ok (first ++ zdec last)%string
    else Ok "(nil)") = Ok (values_text (astate x))).
  { rewrite <- Hx. destruct (astate x) as [|z st] eqn:E; [reflexivity|].
    rewrite (proj2 (Z.ltb_lt _ _)) by (cbn [List.length]; lia). apply state_list. discriminate. }
  rewrite S. cbn [bind]. f_equal. unfold list_file. cbn [map]. rewrite all_of_cons. unfold list_row.
  cbn [f_id f_state f_init f_mode f_rgrad f_trans]. rewrite !padded_right, map_map, <- !all_of_cat.
  rewrite !string_app_assoc. reflexivity.
Qed.
Lemma list_written : forall A n, (forall x, In x A -> List.length (astate x) = n) ->
  list_aut_dump A (Z.of_nat n) = Ok (list_file (rows_aut A)).
Proof. intros. unfold list_aut_dump. apply (list_nodes_eq A n A 0). auto. Qed.

(** ** The list determines the rows *)
Definition stops (p : ascii -> Prop) (s : string) : Prop := match s with EmptyString => True | String c _ => ~ p c end.
Lemma span_split : forall (p : ascii -> Prop) a b r r', chars p a -> chars p b -> stops p r -> stops p r' ->
  (a ++ r = b ++ r')%string -> a = b /\ r = r'.
Proof.
  intros p. induction a as [|c a IH]; intros [|d b] r r' Ha Hb Hr Hr' E; cbn in *.
  - auto.
  - subst r. cbn in Hr. tauto.
  - subst r'. cbn in Hr'. tauto.
  - injection E as -> E. destruct (IH b r r') as [-> ->]; tauto.
Qed.
Lemma app_cancel : forall a b c : string, (a ++ b = a ++ c)%string -> b = c.
Proof. induction a; cbn; intros b c H; auto. injection H as H. auto. Qed.
Lemma chars_app : forall p a b, chars p (a ++ b) <-> chars p a /\ chars p b.
Proof. induction a; cbn; intros; [tauto|]. rewrite IHa. tauto. Qed.
Definition numchar (c : ascii) : Prop := decimal c \/ c = "-"%char.
Lemma zdec_chars : forall z, chars numchar (zdec z).
Proof.
  intros z. unfold zdec. destruct (Z.ltb_spec z 0).
  - cbn. split; [right; reflexivity|]. apply (chars_impl decimal); [left; auto|]. eapply natural_decimal, dec_natural. lia.
  - apply (chars_impl decimal); [left; auto|]. eapply natural_decimal, dec_natural. lia.
Qed.
Lemma zdec_one : forall a b, zdec a = zdec b -> a = b.
Proof.
  intros a b H. assert (J := zdec_json a). assert (J' := zdec_json b). rewrite <- H in J'.
  assert (JInt a = JInt b); [|congruence].
  apply (json_unique (zdec a)); exists "", (zdec a), ""; cbn; rewrite string_app_nil; auto.
Qed.
Lemma zdec_starts : forall z, exists c s, zdec z = String c s /\ numchar c.
Proof.
  intros z. assert (H := zdec_chars z). assert (J := json_starts _ _ (zdec_json z)).
  destruct (zdec z) as [|c s]; [discriminate|]. exists c, s. split; auto. apply H.
Qed.
Lemma zdec_split : forall a b r r', stops numchar r -> stops numchar r' ->
  (zdec a ++ r = zdec b ++ r')%string -> a = b /\ r = r'.
Proof.
  intros a b r r' Hr Hr' E. destruct (span_split numchar (zdec a) (zdec b) r r') as [H1 H2]; auto using zdec_chars.
  split; auto. apply zdec_one; auto.
Qed.
Definition blank (c : ascii) : Prop := c = " "%char.
Lemma all_blank : forall n, chars blank (all_of (repeat " " n)).
Proof. induction n; [exact I|]. cbn [repeat]. rewrite all_of_cons. cbn. split; [reflexivity|auto]. Qed.
Lemma num_not : forall c, numchar c -> c <> " "%char /\ c <> "("%char /\ c <> ","%char /\ c <> "]"%char /\ c <> ";"%char /\
  c <> "034"%char /\ c <> ")"%char /\ c <> "{"%char /\ c <> "["%char.
Proof.
  intros c [H| ->]; [|repeat split; discriminate]. unfold decimal in H.
  repeat split; intros ->; revert H; cbv [nat_of_ascii N_of_ascii N_of_digits]; cbn; lia.
Qed.
Lemma not_num : forall c, In c [" "; "("; ","; "]"; ";"; "034"; ")"; "{"; "["]%char -> ~ numchar c.
Proof. intros c Hc H. apply num_not in H. cbn in Hc. intuition congruence. Qed.
Ltac stop := cbn; apply not_num; cbn; tauto.
Lemma right_split : forall w a b r r', stops numchar r -> stops numchar r' ->
  (right_aligned w (zdec a) ++ r = right_aligned w (zdec b) ++ r')%string -> a = b /\ r = r'.
Proof.
  intros w a b r r' Hr Hr' E. unfold right_aligned in E. rewrite !string_app_assoc in E.
  apply (span_split blank) in E; auto using all_blank.
  - destruct E as [_ E]. apply zdec_split in E; auto.
  - destruct (zdec_starts a) as (c & s & -> & H). cbn. apply num_not in H. tauto.
  - destruct (zdec_starts b) as (c & s & -> & H). cbn. apply num_not in H. tauto.
Qed.
Lemma commas_split : forall l l' r r', l <> [] -> l' <> [] -> stops (fun c => numchar c \/ c = ","%char) r ->
  stops (fun c => numchar c \/ c = ","%char) r' ->
  (between "," (map zdec l) ++ r = between "," (map zdec l') ++ r')%string -> l = l' /\ r = r'.
Proof.
  assert (K : forall l r, l <> [] -> stops (fun c => numchar c \/ c = ","%char) r ->
    exists z l0 t, l = z :: l0 /\ (between "," (map zdec l) ++ r = zdec z ++ t)%string /\ stops numchar t /\
    (l0 = [] -> t = r) /\ (l0 <> [] -> t = ("," ++ between "," (map zdec l0) ++ r)%string)).
  { intros [|z [|y l]] r Hn Hr; [congruence| |].
    - exists z, [], r. repeat split; auto; [|congruence]. destruct r; cbn in *; tauto.
    - exists z, (y :: l), ("," ++ between "," (map zdec (y :: l)) ++ r)%string.
      split; [reflexivity|]. split; [|split; [stop|split; [discriminate|reflexivity]]].
      change (between "," (map zdec (z :: y :: l))) with (zdec z ++ "," ++ between "," (map zdec (y :: l)))%string.
      rewrite !string_app_assoc. reflexivity. }
  induction l as [|z l IH]; intros l' r r' Hn Hn' Hr Hr' E; [congruence|].
  destruct (K (z :: l) r Hn Hr) as (z0 & l0 & t & E1 & E2 & St & T1 & T2). injection E1 as <- <-.
  destruct (K l' r' Hn' Hr') as (z' & l0' & t' & E1' & E2' & St' & T1' & T2'). subst l'.
  rewrite E2, E2' in E. apply zdec_split in E; auto. destruct E as [-> ->].
  destruct l as [|y l], l0' as [|y' l'].
  - split; auto. rewrite <- T1, <- T1' by auto. reflexivity.
  - rewrite T1 in T2' by auto. rewrite T2' in Hr by discriminate. cbn in Hr. tauto.
  - rewrite T1' in T2 by auto. rewrite T2 in Hr' by discriminate. cbn in Hr'. tauto.
  - assert (H : (between "," (map zdec (y :: l)) ++ r = between "," (map zdec (y' :: l')) ++ r')%string).
    { apply (app_cancel ","). rewrite <- T2 by discriminate. apply T2'. discriminate. }
    destruct (IH (y' :: l') r r') as [-> ->]; auto; discriminate.
Qed.
Lemma blanks_split : forall l l' r r', stops numchar r -> stops numchar r' -> stops blank r -> stops blank r' ->
  (all_of (map (fun k => " " ++ zdec k) l) ++ r = all_of (map (fun k => " " ++ zdec k) l') ++ r')%string -> l = l' /\ r = r'.
Proof.
  assert (K : forall l r, stops numchar r -> stops numchar (all_of (map (fun k => (" " ++ zdec k)%string) l) ++ r)).
  { intros [|z l] r Hr; [exact Hr|]. cbn [map]. rewrite all_of_cons. stop. }
  induction l as [|z l IH]; intros [|z' l'] r r' Hr Hr' Hb Hb' E.
  - auto.
  - cbn [map] in E. rewrite all_of_cons in E. cbn in E. subst r. exfalso. apply Hb. reflexivity.
  - cbn [map] in E. rewrite all_of_cons in E. cbn in E. subst r'. exfalso. apply Hb'. reflexivity.
  - cbn [map] in E. rewrite !all_of_cons, !string_app_assoc in E. apply app_cancel in E. apply zdec_split in E; auto.
    destruct E as [-> E]. destruct (IH l' r r') as [-> ->]; auto.
Qed.
Lemma list_row_split : forall r r' t t', (list_row r ++ line_end ++ t = list_row r' ++ line_end ++ t')%string -> r = r' /\ t = t'.
Proof.
  intros [i st b m g ts] [i' st' b' m' g' ts'] t t' E. unfold list_row in E. cbn [f_id f_state f_init f_mode f_rgrad f_trans] in E.
  rewrite !string_app_assoc in E. apply right_split in E; [|stop|stop]. destruct E as [-> E]. apply app_cancel in E.
  assert (H : b = b' /\
    (values_text st ++
      " - " ++ right_aligned 2 (zdec m) ++ " - " ++ right_aligned 2 (zdec g) ++ " - [" ++
      all_of (map (fun k => (" " ++ zdec k)%string) ts) ++ "]" ++ line_end ++ t =
     values_text st' ++
      " - " ++ right_aligned 2 (zdec m') ++ " - " ++ right_aligned 2 (zdec g') ++ " - [" ++
      all_of (map (fun k => (" " ++ zdec k)%string) ts') ++ "]" ++ line_end ++ t')%string).
  { destruct b, b'; try discriminate E; (split; [reflexivity|]); [exact (app_cancel "(init) : " _ _ E)|exact (app_cancel ": " _ _ E)]. }
  clear E. destruct H as [-> E].
  assert (H : st = st' /\ (right_aligned 2 (zdec m) ++ " - " ++ right_aligned 2 (zdec g) ++ " - [" ++
      all_of (map (fun k => (" " ++ zdec k)%string) ts) ++ "]" ++ line_end ++ t =
      right_aligned 2 (zdec m') ++ " - " ++ right_aligned 2 (zdec g') ++ " - [" ++
      all_of (map (fun k => (" " ++ zdec k)%string) ts') ++ "]" ++ line_end ++ t')%string).
  { assert (K : forall z l, exists c s, between "," (map zdec (z :: l)) = String c s /\ numchar c).
    { intros z l. destruct (zdec_starts z) as (c & s & H & Hc). destruct l; cbn [map between]; rewrite H; cbn; eauto. }
    destruct st as [|z st], st' as [|z' st']; unfold values_text in E.
    - apply (app_cancel "(nil) - ") in E. auto.
    - destruct (K z' st') as (c & s & H & Hc). rewrite H in E. cbn in E. injection E as <- _. apply num_not in Hc. tauto.
    - destruct (K z st) as (c & s & H & Hc). rewrite H in E. cbn in E. injection E as -> _. apply num_not in Hc. tauto.
    - apply commas_split in E; try discriminate.
      + destruct E as [-> E]. apply (app_cancel " - ") in E. auto.
      + cbn. intros [H|H]; [revert H; stop|discriminate].
      + cbn. intros [H|H]; [revert H; stop|discriminate]. }
  clear E. destruct H as [-> E].
  apply right_split in E; [|stop|stop]. destruct E as [-> E]. apply (app_cancel " - ") in E.
  apply right_split in E; [|stop|stop]. destruct E as [-> E]. apply (app_cancel " - [") in E.
  apply blanks_split in E; try stop; try (cbn; discriminate). destruct E as [-> E].
  apply (app_cancel "]") in E. apply app_cancel in E. auto.
Qed.
Lemma row_not_empty : forall r, list_row r <> "".
Proof.
  intros r H. apply (f_equal String.length) in H. unfold list_row in H. rewrite !length_app in H.
  cbn [String.length] in H. lia.
Qed.
Lemma list_file_inj : forall rows rows', list_file rows = list_file rows' -> rows = rows'.
Proof.
  assert (K : forall r l, list_file (r :: l) = (list_row r ++ line_end ++ list_file l)%string).
  { intros. unfold list_file. cbn [map]. rewrite all_of_cons, string_app_assoc. reflexivity. }
  induction rows as [|r rows IH]; intros [|r' rows'] E; auto.
  - rewrite K in E. change (list_file []) with "" in E. destruct (list_row r') eqn:E'; [|discriminate E].
    apply row_not_empty in E'. tauto.
  - rewrite K in E. change (list_file []) with "" in E. destruct (list_row r) eqn:E'; [|discriminate E].
    apply row_not_empty in E'. tauto.
  - rewrite !K in E. apply list_row_split in E. destruct E as [-> E]. f_equal. auto.
Qed.
