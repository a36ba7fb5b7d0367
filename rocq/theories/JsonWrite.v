(** Proofs: json_aut_dump writes the JSON text of [strategy_json]. *)
From Coq Require Import List ZArith Lia Bool Arith Ascii String.
From Verif Require Import Base Strs Ptree Form FSpec Automaton AutIO AutWrite JsonSpec JsonProofs.
Import ListNotations.
Open Scope string_scope.
Open Scope list_scope.
Open Scope Z_scope.

(** ** Numbers *)
Lemma digit_code : forall d, 0 <= d < 10 -> nat_of_ascii (digit d) = Z.to_nat (48 + d).
Proof. intros d H. unfold digit. rewrite nat_ascii_embedding; lia. Qed.
Lemma dec_value : forall f n acc, 0 <= n < 2 ^ Z.of_nat f -> f <> O ->
  decimal_value 0 (dec_aux f n acc) = decimal_value n acc /\ (chars decimal acc -> chars decimal (dec_aux f n acc)) /\
  (0 < n -> exists c r, dec_aux f n acc = String c r /\ c <> "0"%char).
Proof.
  induction f as [|f IH]; intros n acc H Hf; [congruence|]. cbn [dec_aux].
  assert (Hm : 0 <= n mod 10 < 10) by (apply Z.mod_pos_bound; lia).
  assert (Hd : n = 10 * (n / 10) + n mod 10) by (apply Z.div_mod; lia).
  assert (Hc : decimal (digit (n mod 10))).
  { unfold decimal. rewrite digit_code by auto. lia. }
  destruct (n / 10 =? 0) eqn:E.
  - apply Z.eqb_eq in E. split; [|split].
    + cbn [decimal_value]. rewrite digit_code by auto. f_equal. lia.
    + cbn [chars]. auto.
    + intros Hn. exists (digit (n mod 10)), acc. split; auto. intros E0.
      assert (HH := digit_code _ Hm). rewrite E0 in HH. change (nat_of_ascii "0") with 48%nat in HH. lia.
  - apply Z.eqb_neq in E.
    assert (Hp : 0 <= n / 10) by (apply Z.div_pos; lia).
    assert (Hlt : n / 10 < 2 ^ Z.of_nat f) by (apply log2_div10; lia).
    assert (f <> O) by (intros ->; simpl in Hlt; lia).
    destruct (IH (n / 10) (String (digit (n mod 10)) acc)) as (I1 & I2 & I3); auto.
    split; [|split].
    + rewrite I1. cbn [decimal_value]. rewrite digit_code by auto. f_equal. lia.
    + intros Ha. apply I2. cbn [chars]. auto.
    + intros _. apply I3. lia.
Qed.
Lemma dec_natural : forall n, 0 <= n -> natural_text (dec_pos n) n.
Proof.
  intros n H. destruct (Z.eq_dec n 0) as [->|Hn]; [constructor|].
  destruct (dec_value (S (Z.to_nat (Z.log2 n))) n "") as (I1 & I2 & I3).
  { split; auto. apply log2_bound; auto. }
  { congruence. }
  fold (dec_pos n) in *. destruct I3 as (c & r & E & Hc); [lia|]. cbn [decimal_value] in I1.
  rewrite E in *. rewrite <- I1. destruct I2 as [J1 J2]; [exact I|]. constructor; auto.
Qed.
Lemma zdec_json : forall z, json_text (zdec z) (JInt z).
Proof.
  intros z. unfold zdec. destruct (z <? 0) eqn:E.
  - apply Z.ltb_lt in E. replace z with (- (- z)) at 2 by lia. apply jt_negative. apply dec_natural. lia.
  - apply Z.ltb_ge in E. apply jt_natural. apply dec_natural. auto.
Qed.

(** ** Loops with separators *)
Fixpoint joined (l : list string) : string :=
  match l with
  | [] => ""
  | [x] => x
  | x :: r => (x ++ ", " ++ joined r)%string
  end.
Lemma sep_loop : forall A (l : list A) (g : A -> string) (f : nat -> out string) n k,
  n = (k + List.length l)%nat ->
  (forall i x, nth_error l i = Some x ->
     f (k + i)%nat = Ok (g x ++ (if (Z.of_nat (k + i) <? Z.of_nat n - 1)%Z then ", " else ""))%string) ->
  exists ss, map_out f (seq k (List.length l)) = Ok ss /\ cat ss = joined (map g l).
Proof.
  induction l as [|x l IH]; intros g f n k Hn Hf.
  - exists []. split; reflexivity.
  - cbn [List.length seq map_out].
    assert (H0 := Hf 0%nat x eq_refl). rewrite Nat.add_0_r in H0. rewrite H0. cbn [bind].
    destruct (IH g f n (S k)) as (ss & E1 & E2).
    { cbn in Hn. lia. }
    { intros i y Hy. specialize (Hf (S i) y Hy). replace (S k + i)%nat with (k + S i)%nat by lia. exact Hf. }
    rewrite E1. cbn [bind]. eexists. split; [reflexivity|]. cbn [cat fold_right]. fold (cat ss). rewrite E2.
    cbn [List.length] in Hn. destruct l as [|y l].
    + cbn [map joined]. rewrite (proj2 (Z.ltb_ge _ _)) by (cbn in Hn; lia). rewrite !string_app_nil. reflexivity.
    + cbn [map joined]. rewrite (proj2 (Z.ltb_lt _ _)) by (cbn in Hn; lia). rewrite string_app_assoc. reflexivity.
Qed.
Lemma sep_print : forall A (l : list A) (g : A -> string) (f : nat -> out string) n,
  n = List.length l ->
  (forall i x, nth_error l i = Some x ->
     f i = Ok (g x ++ (if (Z.of_nat i <? Z.of_nat n - 1)%Z then ", " else ""))%string) ->
  for_print n f = Ok (joined (map g l)).
Proof.
  intros A l g f n Hn Hf. unfold for_print. subst n.
  destruct (sep_loop A l g f (List.length l) 0) as (ss & E1 & E2); auto. rewrite E1. cbn [bind]. rewrite E2. reflexivity.
Qed.
Lemma elements_joined : forall A (g : A -> string) (v : A -> json) (l : list A) w,
  (forall x, In x l -> json_text (g x) (v x)) -> l <> [] -> chars white w ->
  elements_text (w ++ joined (map g l)) (map v l).
Proof.
  intros A g v l. induction l as [|x l IH]; intros w Hl Hn Hw; [congruence|]. destruct l as [|y l].
  - cbn [map joined]. rewrite <- (string_app_nil (g x)). apply et_one; cbn; auto. apply Hl. cbn. auto.
  - change (joined (map g (x :: y :: l))) with (g x ++ "" ++ "," ++ " " ++ joined (map g (y :: l)))%string.
    change (map v (x :: y :: l)) with (v x :: map v (y :: l)).
    apply et_more; cbn [chars]; auto.
    + apply Hl. cbn. auto.
    + apply IH.
      * intros z Hz. apply Hl. cbn. auto.
      * discriminate.
      * cbn. unfold white. cbn. auto.
Qed.
Lemma array_joined : forall A (g : A -> string) (v : A -> json) (l : list A),
  (forall x, In x l -> json_text (g x) (v x)) -> json_text ("[" ++ joined (map g l) ++ "]") (JArray (map v l)).
Proof.
  intros A g v l Hl. destruct l as [|x l]; [exact (jt_array0 "" I)|]. apply jt_array.
  apply (elements_joined A g v (x :: l) ""); cbn; auto. discriminate.
Qed.

(** ** Lists of variables *)
Lemma item_name_vlist : forall (E : list vdecl) i d, nth_error E i = Some d -> item_name (vlist E) i = Ok (fst d) /\
  item_value (vlist E) i = Ok (snd d).
Proof.
  intros E i d H. unfold item_name, item_value. assert (G : get_list_item (vlist E) (Z.of_nat i) = vlist (skipn i E)).
  { unfold get_list_item. destruct E as [|[en ev] E]; [destruct i; discriminate|]. cbn [vlist].
    rewrite (proj2 (Z.ltb_ge _ _)) by lia. rewrite (proj2 (Z.eqb_neq _ _)) by lia. rewrite Nat2Z.id.
    change (nth_item (vlist ((en, ev) :: E)) i = vlist (skipn i ((en, ev) :: E))). generalize ((en, ev) :: E). clear.
    induction i; intros [|[en ev] E]; auto. cbn. apply IHi. }
  rewrite G. clear G. revert i H. induction E as [|e E IH]; intros [|i] H; try discriminate.
  - cbn in *. injection H as ->. destruct d. cbn. auto.
  - cbn in *. apply IH. auto.
Qed.
Lemma vlist_size : forall E : list vdecl, tree_size (vlist E) = List.length E.
Proof. induction E as [|[n v] E IH]; cbn; auto. rewrite IH. lia. Qed.

Definition var_text (sep : string) (d : vdecl) : string :=
  ("{" ++ q ++ fst d ++ q ++ ": " ++
   (if (0 <=? snd d)%Z then "[0," ++ sep ++ zdec (snd d) ++ "]}" else q ++ "boolean" ++ q ++ "}"))%string.
Lemma json_vars_eq : forall E sep, json_vars (vlist E) sep = Ok (joined (map (var_text sep) E)).
Proof.
  intros E sep. unfold json_vars. apply sep_print; [apply vlist_size|].
  intros i d Hd. destruct (item_name_vlist E i d Hd) as [-> ->]. cbn [bind]. f_equal. unfold var_text.
  rewrite !string_app_assoc. reflexivity.
Qed.
Lemma white_blank : chars white " ".
Proof. cbn. unfold white. cbn. auto. Qed.
Lemma var_json : forall sep d, chars plain (fst d) -> chars white sep -> json_text (var_text sep d) (decl_json d).
Proof.
  intros sep [n hi] Hn Hs. unfold var_text, decl_json, domain_json. cbn [fst snd] in *.
  rewrite Z.leb_antisym. destruct (hi <? 0) eqn:E; cbn [negb].
  - assert (J : json_text (quote ++ "boolean" ++ quote) (JString "boolean")).
    { constructor. cbn. unfold plain. cbn. lia. }
    generalize (mt_one "" n "" " " _ "" _ I Hn I white_blank J I). intros M. apply jt_object in M.
    cbn [append quote q] in *. rewrite !string_app_assoc in M. exact M.
  - assert (J : json_text ("[" ++ ("" ++ "0" ++ "" ++ "," ++ (sep ++ zdec hi ++ "")) ++ "]") (JArray [JInt 0; JInt hi])).
    { apply jt_array. apply et_more; cbn; auto; [apply (zdec_json 0)|]. apply et_one; cbn; auto. apply zdec_json. }
    generalize (mt_one "" n "" " " _ "" _ I Hn I white_blank J I). intros M. apply jt_object in M.
    cbn [append quote q] in *. rewrite !string_app_assoc in M. cbn [append] in *.
    rewrite !string_app_assoc in M. cbn [append] in *. exact M.
Qed.

(** ** Nodes *)
Lemma white_nl : chars white nl.
Proof. cbn. unfold white. cbn. auto. Qed.
Definition state_text (st : vec) : string := joined (map zdec st).
Definition trans_text (key : nat -> string) (t : list nat) : string := joined (map (fun a => (q ++ key a ++ q)%string) t).
Definition body_text (key : nat -> string) (x : anode) : string :=
  ("{" ++ nl ++ "    " ++ q ++ "state" ++ q ++ ": [" ++ state_text (astate x) ++
   "]," ++ nl ++ "    " ++ q ++ "mode" ++ q ++ ": " ++ zdec (amode x) ++ "," ++ nl ++
   "    " ++ q ++ "rgrad" ++ q ++ ": " ++ zdec (argrad x) ++ "," ++ nl ++
   "    " ++ q ++ "initial" ++ q ++ ": " ++ (if ainit x then "true" else "false") ++ "," ++ nl ++
   "    " ++ q ++ "trans" ++ q ++ ": [" ++ trans_text key (atrans x) ++ "] }")%string.
Fixpoint nodes_text (key : nat -> string) (A : aut) : string :=
  match A with
  | [] => ""
  | x :: r => (q ++ key (aid x) ++ q ++ ": " ++ body_text key x ++ (match r with [] => "" | _ => "," end) ++ nl ++
               nodes_text key r)%string
  end.
Lemma json_nodes_eq : forall key n A, (forall x, In x A -> List.length (astate x) = n) ->
  json_nodes key n A = Ok (nodes_text key A).
Proof.
  intros key n A. induction A as [|x A IH]; intros Hl; [reflexivity|]. cbn [json_nodes].
  rewrite (sep_print Z (astate x) zdec).
  2:{ symmetry. apply Hl. cbn. auto. }
  2:{ intros i z Hz. unfold at_state. rewrite Hz. reflexivity. }
  cbn [bind]. rewrite (sep_print nat (atrans x) (fun a => (q ++ key a ++ q)%string)); [|reflexivity|].
  2:{ intros i t Ht. rewrite Ht. rewrite !string_app_assoc. reflexivity. }
  cbn [bind]. rewrite IH by (intros y Hy; apply Hl; cbn; auto). cbn [bind nodes_text]. f_equal.
  unfold body_text, state_text, trans_text. rewrite !string_app_assoc. reflexivity.
Qed.
Lemma mt_one' : forall t w1 k w2 w3 s w4 j, chars white w1 -> chars plain k -> chars white w2 -> chars white w3 ->
  json_text s j -> chars white w4 ->
  t = (w1 ++ quote ++ k ++ quote ++ w2 ++ ":" ++ w3 ++ s ++ w4)%string -> members_text t [(k, j)].
Proof. intros; subst; constructor; auto. Qed.
Lemma mt_more' : forall t w1 k w2 w3 s w4 j r l, chars white w1 -> chars plain k -> chars white w2 -> chars white w3 ->
  json_text s j -> chars white w4 -> members_text r l ->
  t = (w1 ++ quote ++ k ++ quote ++ w2 ++ ":" ++ w3 ++ s ++ w4 ++ "," ++ r)%string -> members_text t ((k, j) :: l).
Proof. intros; subst; constructor; auto. Qed.
Ltac plainly := cbn; unfold plain, white; cbn; repeat split; auto; try lia.
Lemma body_json : forall key x, keys_ok key -> json_text (body_text key x) (snd (node_json key x)).
Proof.
  intros key x [Hk _]. unfold body_text, node_json. cbn [snd].
  assert (HS := array_joined Z zdec JInt (astate x) (fun z _ => zdec_json z)).
  assert (HT := array_joined nat (fun a => (q ++ key a ++ q)%string) (fun t => JString (key t)) (atrans x)
    (fun t _ => jt_string (key t) (Hk t))).
  fold (state_text (astate x)) in HS. fold (trans_text key (atrans x)) in HT.
  assert (HB : json_text (if ainit x then "true" else "false") (JBool (ainit x))) by (destruct (ainit x); constructor).
  set (ind := (nl ++ "    ")%string). assert (Hind : chars white ind) by plainly.
  assert (M5 : members_text (ind ++ quote ++ "trans" ++ quote ++ "" ++ ":" ++ " " ++ ("[" ++ trans_text key (atrans x) ++ "]") ++ " ")
    [("trans", JArray (map (fun t => JString (key t)) (atrans x)))]).
  { apply mt_one; auto; plainly. }
  assert (M4 := mt_more ind "initial" "" " " _ "" _ _ _ Hind ltac:(plainly) I white_blank HB I M5).
  assert (M3 := mt_more ind "rgrad" "" " " _ "" _ _ _ Hind ltac:(plainly) I white_blank (zdec_json (argrad x)) I M4).
  assert (M2 := mt_more ind "mode" "" " " _ "" _ _ _ Hind ltac:(plainly) I white_blank (zdec_json (amode x)) I M3).
  assert (M1 := mt_more ind "state" "" " " _ "" _ _ _ Hind ltac:(plainly) I white_blank HS I M2).
  apply jt_object in M1. unfold ind in M1. clear - M1.
  set (T := (if ainit x then "true" else "false")) in *. clearbody T.
  repeat (rewrite !string_app_assoc in M1; cbn [append quote q nl] in M1).
  repeat (rewrite !string_app_assoc; cbn [append quote q nl]). exact M1.
Qed.
Lemma nodes_json : forall key A w, keys_ok key -> A <> [] -> chars white w ->
  members_text (w ++ nodes_text key A) (map (node_json key) A).
Proof.
  intros key A. induction A as [|x A IH]; intros w Hk Hn Hw; [congruence|]. destruct A as [|y A].
  - cbn [map nodes_text]. rewrite (surjective_pairing (node_json key x)).
    apply (mt_one' _ w (key (aid x)) "" " " (body_text key x) nl); auto; try apply Hk; try apply body_json; auto; try exact I.
    + apply white_blank.
    + apply white_nl.
  - change (nodes_text key (x :: y :: A)) with
      (q ++ key (aid x) ++ q ++ ": " ++ body_text key x ++ "," ++ nl ++ nodes_text key (y :: A))%string.
    change (map (node_json key) (x :: y :: A)) with (node_json key x :: map (node_json key) (y :: A)).
    rewrite (surjective_pairing (node_json key x)).
    apply (mt_more' _ w (key (aid x)) "" " " (body_text key x) "" _ (nl ++ nodes_text key (y :: A))); auto;
      try apply Hk; try apply body_json; auto; try exact I.
    + apply white_blank.
    + apply IH; auto; [discriminate|apply white_nl].
Qed.

Theorem json_written : forall key date E S A, keys_ok key -> chars plain date -> printable E S A ->
  exists text, json_aut_dump key date A (vlist E) (vlist S) = Ok (text, 0) /\
    json_file text (strategy_json key date E S A).
Proof.
  intros key date E S A Hk Hd [Hn Hl]. unfold json_aut_dump. rewrite !json_vars_eq. cbn [bind].
  rewrite !vlist_size, json_nodes_eq by (intros x Hx; rewrite Hl, app_length by auto; reflexivity).
  cbn [bind]. eexists. split; [reflexivity|].
  assert (HE : json_text ("[" ++ joined (map (var_text "") E) ++ "]") (JArray (map decl_json E))).
  { apply array_joined. intros d Hd0. apply var_json; [|exact I]. apply Hn. apply in_or_app. auto. }
  assert (HS : json_text ("[" ++ joined (map (var_text " ") S) ++ "]") (JArray (map decl_json S))).
  { apply array_joined. intros d Hd0. apply var_json; [|apply white_blank]. apply Hn. apply in_or_app. auto. }
  assert (HN : json_text ("{" ++ (nl ++ nodes_text key A) ++ "}") (JObject (map (node_json key) A))).
  { destruct A as [|x A]; [exact (jt_object0 nl white_nl)|]. apply jt_object. apply nodes_json; auto; [discriminate|].
    apply white_nl. }
  set (ind := (nl ++ " ")%string). assert (Hind : chars white ind) by plainly.
  set (ind2 := (nl ++ nl ++ " ")%string). assert (Hind2 : chars white ind2) by plainly.
  assert (M7 : members_text (ind2 ++ quote ++ "nodes" ++ quote ++ "" ++ ":" ++ " " ++ ("{" ++ (nl ++ nodes_text key A) ++ "}") ++ "")
    [("nodes", JObject (map (node_json key) A))]).
  { apply mt_one; auto; plainly. }
  assert (M6 := mt_more ind "SYS" "" " " _ "" _ _ _ Hind ltac:(plainly) I white_blank HS I M7).
  assert (M5 := mt_more ind2 "ENV" "" " " _ "" _ _ _ Hind2 ltac:(plainly) I white_blank HE I M6).
  assert (M4 := mt_more ind "extra" "" " " _ "" _ _ _ Hind ltac:(plainly) I white_blank (jt_string "" I) I M5).
  assert (M3 := mt_more ind "date" "" " " _ "" _ _ _ Hind ltac:(plainly) I white_blank (jt_string date Hd) I M4).
  assert (M2 := mt_more ind "gr1c" "" " " _ "" _ _ _ Hind ltac:(plainly) I white_blank (jt_string "0.13.4" ltac:(plainly)) I M3).
  assert (M1 := mt_more "" "version" "" " " _ "" _ _ _ I ltac:(plainly) I white_blank (zdec_json 1) I M2).
  apply jt_object in M1. exists "", ("{" ++ (quote ++ "version" ++ quote ++ "" ++ ":" ++ " " ++ zdec 1 ++ "" ++ "," ++
    ind ++ quote ++ "gr1c" ++ quote ++ "" ++ ":" ++ " " ++ (quote ++ "0.13.4" ++ quote) ++ "" ++ "," ++
    ind ++ quote ++ "date" ++ quote ++ "" ++ ":" ++ " " ++ (quote ++ date ++ quote) ++ "" ++ "," ++
    ind ++ quote ++ "extra" ++ quote ++ "" ++ ":" ++ " " ++ (quote ++ "" ++ quote) ++ "" ++ "," ++
    ind2 ++ quote ++ "ENV" ++ quote ++ "" ++ ":" ++ " " ++ ("[" ++ joined (map (var_text "") E) ++ "]") ++ "" ++ "," ++
    ind ++ quote ++ "SYS" ++ quote ++ "" ++ ":" ++ " " ++ ("[" ++ joined (map (var_text " ") S) ++ "]") ++ "" ++ "," ++
    ind2 ++ quote ++ "nodes" ++ quote ++ "" ++ ":" ++ " " ++ ("{" ++ (nl ++ nodes_text key A) ++ "}") ++ "") ++ "}")%string, nl.
  split; [exact I|]. split; [exact M1|]. split; [apply white_nl|].
  clear. unfold ind, ind2, GR1C_VERSION. change (zdec 1) with "1".
  repeat (rewrite !string_app_assoc; cbn [append quote q nl]). reflexivity.
Qed.

(** ** The value determines the strategy *)
Lemma map_inj : forall A B (f : A -> B), (forall x y, f x = f y -> x = y) -> forall l l', map f l = map f l' -> l = l'.
Proof.
  intros A B f Hf. induction l as [|x l IH]; intros [|y l'] H; try discriminate; auto. cbn in H.
  injection H as H1 H2. f_equal; auto.
Qed.
Lemma decl_inj : forall d d', (0 <= snd d \/ snd d = -1) -> (0 <= snd d' \/ snd d' = -1) ->
  decl_json d = decl_json d' -> d = d'.
Proof.
  intros [n v] [n' v'] H H' E. unfold decl_json, domain_json in E. cbn [fst snd] in *.
  destruct (Z.ltb_spec v 0), (Z.ltb_spec v' 0); injection E; intros; try discriminate; subst; f_equal; lia.
Qed.
Lemma decls_inj : forall l l', (forall d, In d (l ++ l') -> 0 <= snd d \/ snd d = -1) ->
  map decl_json l = map decl_json l' -> l = l'.
Proof.
  induction l as [|x l IH]; intros [|y l'] H E; try discriminate; auto. cbn [map] in E.
  assert (H1 : decl_json x = decl_json y) by congruence. assert (H2 : map decl_json l = map decl_json l') by congruence.
  f_equal.
  - apply decl_inj; auto; apply H; cbn; auto. right. apply in_or_app. cbn. auto.
  - apply IH; auto. intros d Hd. apply H. apply in_app_or in Hd. cbn. right. apply in_or_app. cbn. tauto.
Qed.
Lemma node_inj : forall key, keys_ok key -> forall x y, node_json key x = node_json key y -> x = y.
Proof.
  intros key [_ Hk] [a i st m r t] [a' i' st' m' r' t'] E. unfold node_json in E. cbn in E.
  injection E as E1 E2 E3 E4 E5 E6. apply Hk in E1. apply map_inj in E2; [|intros; congruence].
  apply map_inj in E6; [|intros b c Hbc; apply Hk; congruence]. congruence.
Qed.
Lemma strategy_inj : forall key date date' E S A E' S' A', keys_ok key ->
  (forall d, In d (E ++ S ++ E' ++ S') -> 0 <= snd d \/ snd d = -1) ->
  strategy_json key date E S A = strategy_json key date' E' S' A' -> E = E' /\ S = S' /\ A = A'.
Proof.
  intros key date date' E S A E' S' A' Hk Hd H. unfold strategy_json in H.
  assert (H1 : map decl_json E = map decl_json E') by congruence.
  assert (H2 : map decl_json S = map decl_json S') by congruence.
  assert (H3 : map (node_json key) A = map (node_json key) A') by congruence.
  split; [|split].
  - apply decls_inj; auto. intros d Hi. apply Hd. rewrite !in_app_iff in *. tauto.
  - apply decls_inj; auto. intros d Hi. apply Hd. rewrite !in_app_iff in *. tauto.
  - revert H3. apply map_inj. apply node_inj. auto.
Qed.

(** ** Equal texts; references *)
Lemma json_determines : forall key date date' E S A E' S' A' text, keys_ok key ->
  chars plain date -> chars plain date' -> printable E S A -> printable E' S' A' ->
  (forall d, In d (E ++ S ++ E' ++ S') -> 0 <= snd d \/ snd d = -1) ->
  json_aut_dump key date A (vlist E) (vlist S) = Ok (text, 0) ->
  json_aut_dump key date' A' (vlist E') (vlist S') = Ok (text, 0) ->
  E = E' /\ S = S' /\ A = A'.
Proof.
  intros key date date' E S A E' S' A' text Hk Hd Hd' Hp Hp' Hv H H'.
  destruct (json_written key date E S A Hk Hd Hp) as (t & Ht & Hj).
  destruct (json_written key date' E' S' A' Hk Hd' Hp') as (t' & Ht' & Hj').
  assert (t = text) by congruence. assert (t' = text) by congruence. subst.
  apply (strategy_inj key date date'); auto. eapply json_unique; eauto.
Qed.
Definition object_keys (l : list (string * json)) : list string := map fst l.
Lemma json_references : forall key A, keys_ok key -> NoDup (map aid A) ->
  (forall x, In x A -> incl (atrans x) (map aid A)) ->
  NoDup (object_keys (map (node_json key) A)) /\
  forall k o t, In (k, o) (map (node_json key) A) -> forall s b m r i,
    o = JObject [("state", JArray s); ("mode", m); ("rgrad", r); ("initial", i); ("trans", JArray b)] ->
    In t b -> exists k', t = JString k' /\ In k' (object_keys (map (node_json key) A)).
Proof.
  intros key A [_ Hk] Hnd Hc. split.
  - unfold object_keys. rewrite map_map. cbn. rewrite <- (map_map aid key). clear Hc.
    induction (map aid A) as [|a l IH]; [constructor|]. inversion Hnd; subst. cbn. constructor; auto.
    intros Hi. apply in_map_iff in Hi. destruct Hi as (b & Hb & Hi). apply Hk in Hb. subst. contradiction.
  - intros k o t Hi s b m r i -> Ht. apply in_map_iff in Hi. destruct Hi as (x & Hx & Hi).
    unfold node_json in Hx. injection Hx as _ _ _ _ _ <-. apply in_map_iff in Ht. destruct Ht as (a & <- & Ha).
    exists (key a). split; auto. unfold object_keys. rewrite map_map. cbn. rewrite <- (map_map aid key).
    apply in_map. apply (Hc x); auto.
Qed.

(** ** Examples *)
Lemma chars_impl : forall (p r : ascii -> Prop) s, (forall c, p c -> r c) -> chars p s -> chars r s.
Proof. induction s; cbn; firstorder. Qed.
Lemma decimal_plain : forall c, decimal c -> plain c.
Proof. unfold decimal, plain. intros. lia. Qed.
Lemma natural_decimal : forall s z, natural_text s z -> chars decimal s.
Proof. intros s z [|c r H _ H']; cbn; auto. split; auto. unfold decimal. cbn. lia. Qed.
(** keys as printed by %p in common C libraries, but decimal *)
Definition ex_key (a : nat) : string := ("0x" ++ zdec (Z.of_nat a))%string.
Lemma ex_key_ok : keys_ok ex_key.
Proof.
  split.
  - intros a. unfold ex_key. assert (H : chars plain (zdec (Z.of_nat a))).
    { unfold zdec. rewrite (proj2 (Z.ltb_ge _ _)) by lia.
      apply (chars_impl decimal); [apply decimal_plain|]. eapply natural_decimal, dec_natural. lia. }
    cbn. repeat split; auto; unfold plain; cbn; lia.
  - intros a b H. unfold ex_key in H. cbn [append] in H. injection H as H.
    assert (J := zdec_json (Z.of_nat a)). assert (J' := zdec_json (Z.of_nat b)). rewrite <- H in J'.
    assert (JInt (Z.of_nat a) = JInt (Z.of_nat b)).
    { apply (json_unique (zdec (Z.of_nat a))); exists "", (zdec (Z.of_nat a)), ""; cbn; rewrite string_app_nil; auto. }
    assert (Z.of_nat a = Z.of_nat b) by congruence. lia.
Qed.
