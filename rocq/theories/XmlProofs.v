(** Proofs: a text is XML in at most one way; what tulip_aut_dump writes. *)
From Coq Require Import List ZArith Lia Bool Arith Ascii String.
From Verif Require Import Base Strs Ptree Form FSpec Automaton AutIO AutIOSpec AutIOProofs AutWrite JsonSpec JsonProofs JsonWrite
  FormatSpec WriteProofs DotProofs DotInj.
Import ListNotations.
Open Scope string_scope.
Open Scope list_scope.
Open Scope Z_scope.
Local Notation combine := List.combine (only parsing).

(** ** A reader that finds the tree of every XML text *)
Definition name_charb (c : ascii) : bool :=
  let n := nat_of_ascii c in
  (((97 <=? n) && (n <=? 122)) || ((65 <=? n) && (n <=? 90)) || ((48 <=? n) && (n <=? 57)) || (n =? 95) || (n =? 58) || (n =? 45) || (n =? 46))%nat.
Lemma name_charb_iff : forall c, name_charb c = true <-> name_char c.
Proof.
  intros c. unfold name_charb, name_char. rewrite !orb_true_iff, !andb_true_iff, !Nat.leb_le, !Nat.eqb_eq. tauto.
Qed.
Fixpoint span (p : ascii -> bool) (s : string) : string * string :=
  match s with
  | String c r => if p c then let (a, b) := span p r in (String c a, b) else ("", s)
  | EmptyString => ("", "")
  end.
Definition tl (s : string) : string := match s with String _ r => r | EmptyString => "" end.
Lemma span_all : forall p (P : ascii -> Prop), (forall c, P c -> p c = true) -> forall a r, chars P a -> heads p r = false -> span p (a ++ r) = (a, r).
Proof.
  intros p P HP. induction a as [|c a IH]; intros r Ha Hr.
  - cbn [append]. destruct r as [|c r]; auto. cbn in *. rewrite Hr. reflexivity.
  - destruct Ha as [Hc Ha]. cbn [append span]. rewrite (HP c Hc), IH by auto. reflexivity.
Qed.
Fixpoint rd_attrs (fuel : nat) (s : string) : option (list (string * string) * string) :=
  match fuel with
  | O => None
  | S f =>
      let s := skip s in
      if heads name_charb s then
        let (n, r) := span name_charb s in
        match rd_string (tl (tl r)) with
        | Some (v, r) => match rd_attrs f r with Some (l, r) => Some ((n, v) :: l, r) | None => None end
        | None => None
        end
      else Some ([], s)
  end.
Definition is_text (c : ascii) : bool := negb (Ascii.eqb c "<").
Fixpoint rd_element (fuel : nat) (s : string) : option (xml * string) :=
  match fuel with
  | O => None
  | S f =>
      let (n, r) := span name_charb (tl s) in
      match rd_attrs f r with
      | None => None
      | Some (l, r) =>
          match r with
          | EmptyString => None
          | String c r =>
              if Ascii.eqb c "/" then Some (Element n l "" [], tl r)
              else
                let (t, r) := span is_text r in
                match rd_children f r with
                | None => None
                | Some (cs, r) => Some (Element n l t cs, tl (snd (span name_charb (tl (tl r)))))
                end
          end
      end
  end
with rd_children (fuel : nat) (s : string) : option (list (xml * string) * string) :=
  match fuel with
  | O => None
  | S f =>
      if heads (Ascii.eqb "/") (tl s) then Some ([], s)
      else
        match rd_element f s with
        | None => None
        | Some (x, r) =>
            let (t, r) := span is_text r in
            match rd_children f r with
            | None => None
            | Some (cs, r) => Some ((x, t) :: cs, r)
            end
        end
  end.
Scheme element_text_min := Minimality for element_text Sort Prop
  with children_text_min := Minimality for children_text Sort Prop.
Combined Scheme element_text_mut from element_text_min, children_text_min.

Lemma name_not : forall c, name_charb c = true -> whiteb c = false /\ Ascii.eqb c "/" = false.
Proof. intros c. destruct c as [[] [] [] [] [] [] [] []]; cbn; intros H; try discriminate H; auto. Qed.
Lemma white_not : forall c, white c -> name_charb c = false.
Proof. intros c H. unfold white in H. cbn in H. unfold name_charb. repeat (destruct H as [H|H]; [rewrite <- H; reflexivity|]). destruct H. Qed.
Lemma heads_name : forall n r, xml_name n -> heads name_charb (n ++ r) = true.
Proof. intros [|c n] r [H1 H2]; [congruence|]. cbn. apply name_charb_iff. apply H2. Qed.
Lemma name_span : forall n r, xml_name n -> heads name_charb r = false -> span name_charb (n ++ r) = (n, r).
Proof. intros n r [_ H] Hr. apply (span_all name_charb name_char); auto. intros c. apply name_charb_iff. Qed.
Lemma white_no_name : forall w r, chars white w -> heads name_charb r = false -> heads name_charb (w ++ r) = false.
Proof. intros [|c w] r Hw Hr; auto. cbn. apply white_not. apply Hw. Qed.
Lemma rd_value : forall v r, chars value_char v -> rd_string (v ++ quote ++ r) = Some (v, r).
Proof.
  induction v as [|c v IH]; intros r Hv; [reflexivity|]. destruct Hv as [Hc Hv]. cbn [append rd_string].
  destruct (Ascii.eqb_spec c "034") as [E|E].
  - subst c. destruct Hc as [_ Hc]. exfalso. apply Hc. reflexivity.
  - rewrite IH by auto. reflexivity.
Qed.
Lemma attrs_no_name : forall a l w r, attrs_text a l -> chars white w -> heads name_charb r = false ->
  heads name_charb (a ++ w ++ r) = false.
Proof.
  intros a l w r Ha Hw Hr. destruct Ha as [|v n x s k H1 H2].
  - exact (white_no_name w r Hw Hr).
  - destruct v as [|c v]; [congruence|]. cbn. apply white_not. apply H2.
Qed.
Lemma attrs_found : forall a l, attrs_text a l -> exists n, forall f w r, (n <= f)%nat -> chars white w ->
  heads name_charb r = false -> heads whiteb r = false -> rd_attrs f (a ++ w ++ r) = Some (l, r).
Proof.
  induction 1 as [|w0 n v s l H1 H2 H3 H4 H5 [m IH]].
  - exists 1%nat. intros f w r Hf Hw Hn Hr. destruct f as [|f]; [lia|]. cbn [append rd_attrs]. rewrite skip_white by auto.
    rewrite Hn. reflexivity.
  - exists (S m). intros f w r Hf Hw Hn Hr. destruct f as [|f]; [lia|]. cbn [rd_attrs]. rewrite !string_app_assoc.
    rewrite skip_white; auto.
    2:{ assert (X := heads_name n ("=" ++ quote ++ v ++ quote ++ s ++ w ++ r) H3). destruct n as [|c n]; [discriminate|].
        cbn in X |- *. apply name_not in X. tauto. }
    rewrite heads_name, name_span by auto. cbn [append quote tl].
    change (String "034" (s ++ w ++ r)) with (quote ++ s ++ w ++ r)%string.
    rewrite rd_value by auto. rewrite IH by (auto; lia). reflexivity.
Qed.
Lemma text_span : forall t r, chars xml_char t -> heads is_text r = false -> span is_text (t ++ r) = (t, r).
Proof.
  intros t r Ht Hr. apply (span_all is_text xml_char); auto. intros c [_ [Hc _]]. unfold is_text.
  destruct (Ascii.eqb_spec c "<"); auto. subst c. exfalso. apply Hc. reflexivity.
Qed.
Definition finds_element (e : string) (x : xml) : Prop :=
  (exists c t, e = String "<" (String c t) /\ name_char c) /\
  exists n, forall f r, (n <= f)%nat -> rd_element f (e ++ r) = Some (x, r).
Definition finds_children (s : string) (cs : list (xml * string)) : Prop :=
  (s = "" \/ exists t, s = String "<" t) /\
  exists n, forall f r, (n <= f)%nat -> rd_children f (s ++ "</" ++ r) = Some (cs, ("</" ++ r)%string).
Lemma xml_finds : (forall e x, element_text e x -> finds_element e x) /\ (forall s cs, children_text s cs -> finds_children s cs).
Proof.
  assert (ST : forall n t, xml_name n -> exists c u, ("<" ++ n ++ t)%string = String "<" (String c u) /\ name_char c).
  { intros [|c n] t [H1 H2]; [congruence|]. cbn. exists c, (n ++ t)%string. split; auto. apply H2. }
  apply element_text_mut.
  - intros n a l w Hn Ha Hw. split; [apply ST; auto|]. destruct (attrs_found a l Ha) as [m H]. exists (S m).
    intros f r Hf. destruct f as [|f]; [lia|]. cbn [rd_element]. rewrite !string_app_assoc. cbn [append tl].
    change (String "/" (String ">" r)) with ("/>" ++ r)%string.
    rewrite name_span; auto; [|eapply attrs_no_name; eauto]. rewrite H by (auto; lia). reflexivity.
  - intros n a l w t s cs Hn Ha Hw Ht Hs [Ls [k IH]]. split; [apply ST; auto|]. destruct (attrs_found a l Ha) as [m H].
    exists (S (m + k)). intros f r Hf. destruct f as [|f]; [lia|]. cbn [rd_element]. rewrite !string_app_assoc. cbn [append tl].
    match goal with |- context [String ">" ?z] => change (String ">" z) with (">" ++ z)%string end.
    rewrite name_span; auto; [|eapply attrs_no_name; eauto]. rewrite H by (auto; lia). cbn [append].
    change (Ascii.eqb ">" "/") with false. cbv iota.
    rewrite text_span; auto.
    2:{ destruct Ls as [->|[u ->]]; reflexivity. }
    change (String "<" (String "/" (n ++ String ">" r))) with ("</" ++ n ++ ">" ++ r)%string.
    rewrite IH by lia. cbn [append tl]. change (String ">" r) with (">" ++ r)%string. rewrite name_span by auto. reflexivity.
  - split; auto. exists 1%nat. intros f r Hf. destruct f as [|f]; [lia|]. reflexivity.
  - intros e x t s cs He [(c & u & Ee & Hc) [m IHe]] Ht Hs [Ls [k IHs]]. split.
    { right. rewrite Ee. cbn. eauto. }
    exists (S (m + k)). intros f r Hf. destruct f as [|f]; [lia|]. cbn [rd_children]. rewrite !string_app_assoc.
    assert (X : heads (Ascii.eqb "/") (tl (e ++ t ++ s ++ "</" ++ r)) = false).
    { rewrite Ee. cbn [append tl heads]. rewrite Ascii.eqb_sym. apply name_charb_iff in Hc. apply name_not in Hc. tauto. }
    rewrite X, IHe by lia. rewrite text_span; auto.
    2:{ destruct Ls as [->|[v ->]]; reflexivity. }
    rewrite IHs by lia. reflexivity.
Qed.
Lemma xml_unique : forall t x x', xml_file t x -> xml_file t x' -> x = x'.
Proof.
  intros t x x' (e & He & E) (e' & He' & E'). rewrite E in E'. clear E.
  do 6 apply app_cancel in E'.
  destruct (proj1 xml_finds _ _ He) as [_ [n H]]. destruct (proj1 xml_finds _ _ He') as [_ [n' H']].
  specialize (H (n + n')%nat line_end ltac:(lia)). specialize (H' (n + n')%nat line_end ltac:(lia)).
  rewrite E' in H. rewrite H' in H. congruence.
Qed.

(** ** What tulip_aut_dump writes *)
Definition pad (n : nat) : string := all_of (repeat "  " n).
Lemma on_lines_text : forall A (g : A -> string) (v : A -> xml) n l, (forall x, In x l -> element_text (g x) (v x)) ->
  exists s, children_text s (snd (on_lines n (map v l))) /\
    (line_end ++ all_of (map (fun x => (pad (S n) ++ g x ++ line_end)%string) l) ++ pad n = fst (on_lines n (map v l)) ++ s)%string.
Proof.
  intros A g v n l Hl. destruct l as [|x l].
  - exists "". split; [constructor|]. cbn. rewrite string_app_nil. reflexivity.
  - unfold on_lines. cbn [map fst snd].
    assert (K : forall l x, (forall y, In y (x :: l) -> element_text (g y) (v y)) -> exists s,
      children_text s (map (fun y => (y, indent (S n))) (removelast (v x :: map v l)) ++ [(last (v x :: map v l) (Element "" [] "" []), indent n)]) /\
      (all_of (map (fun x => pad (S n) ++ g x ++ line_end) (x :: l)) ++ pad n = pad (S n) ++ s)%string).
    { assert (Hind : forall m, chars xml_char (indent m)).
      { intros m. unfold indent. cbn. split; [unfold xml_char; cbn; lia|]. induction m; [exact I|]. cbn [repeat].
        rewrite all_of_cons. cbn. unfold xml_char. cbn. repeat split; auto; lia. }
      clear Hl l x. induction l as [|y l IH]; intros x Hl.
      - exists (g x ++ indent n ++ "")%string. split.
        + cbn [map removelast last List.app]. constructor; auto; [apply Hl; cbn; auto|constructor].
        + cbn [map]. rewrite all_of_cons. change (all_of []) with "". unfold indent. fold (pad n). rewrite !string_app_assoc, !string_app_nil.
          reflexivity.
      - destruct (IH y) as (s & H1 & H2); [intros z Hz; apply Hl; cbn in *; tauto|].
        exists (g x ++ indent (S n) ++ s)%string. split.
        + change (removelast (v x :: map v (y :: l))) with (v x :: removelast (v y :: map v l)).
          change (last (v x :: map v (y :: l)) (Element "" [] "" [])) with (last (v y :: map v l) (Element "" [] "" [])).
          cbn [map List.app]. constructor; auto. apply Hl. cbn. auto.
        + cbn [map] in H2 |- *. rewrite all_of_cons. rewrite !string_app_assoc. rewrite H2. unfold indent. fold (pad (S n)).
          rewrite !string_app_assoc. reflexivity. }
    destruct (K l x) as (s & H1 & H2); auto. exists s. split; auto. cbn [map] in H2. rewrite H2. unfold indent. fold (pad (S n)).
    rewrite string_app_assoc. reflexivity.
Qed.
Lemma elem0 : forall n t s cs, xml_name n -> chars xml_char t -> children_text s cs ->
  element_text ("<" ++ n ++ ">" ++ t ++ s ++ "</" ++ n ++ ">") (Element n [] t cs).
Proof. intros n t s cs Hn Ht Hs. exact (xe_full n "" [] "" t s cs Hn xa_nil I Ht Hs). Qed.
Lemma elem1 : forall n t, xml_name n -> chars xml_char t -> element_text ("<" ++ n ++ ">" ++ t ++ "</" ++ n ++ ">") (Element n [] t []).
Proof. intros n t Hn Ht. exact (elem0 n t "" [] Hn Ht xc_nil). Qed.
Ltac named := split; [discriminate|cbn; unfold name_char; cbn; repeat split; lia].
Definition item_text (k v : string) : string := ("<item key=" ++ q ++ k ++ q ++ " value=" ++ q ++ v ++ q ++ " />")%string.
Lemma item_element : forall k v, chars value_char k -> chars value_char v -> element_text (item_text k v) (item_xml k v).
Proof.
  intros k v Hk Hv. unfold item_text, item_xml.
  assert (A2 : attrs_text (" " ++ "value" ++ "=" ++ quote ++ v ++ quote ++ "") [("value", v)]).
  { constructor; auto; [discriminate|apply white_blank|named|constructor]. }
  assert (A1 := xa_cons " " "key" k _ _ ltac:(discriminate) white_blank ltac:(named) Hk A2).
  assert (X := xe_empty "item" _ _ " " ltac:(named) A1 white_blank).
  repeat (rewrite !string_app_assoc in X; cbn [append quote] in X).
  repeat (rewrite !string_app_assoc; cbn [append q]). exact X.
Qed.
Lemma name_value : forall c, name_char c -> value_char c.
Proof. intros c. unfold name_char, value_char, xml_char. lia. Qed.
Lemma num_value : forall c, numchar c -> value_char c.
Proof. intros c [H| ->]; unfold value_char, xml_char; [unfold decimal in H; lia|cbn; lia]. Qed.
Lemma value_xml : forall c, value_char c -> xml_char c.
Proof. intros c [H _]. exact H. Qed.
Lemma zdec_value : forall z, chars value_char (zdec z).
Proof. intros. apply (chars_impl numchar); [apply num_value|apply zdec_chars]. Qed.
Lemma zdec_xml : forall z, chars xml_char (zdec z).
Proof. intros. apply (chars_impl value_char); [apply value_xml|apply zdec_value]. Qed.
Lemma domain_chars : forall hi, chars value_char (domain_value hi).
Proof.
  intros hi. unfold domain_value. destruct (hi <? 0).
  - cbn. unfold value_char, xml_char. cbn. repeat split; lia.
  - rewrite chars_app, chars_app. split; [cbn; unfold value_char, xml_char; cbn; repeat split; lia|]. split; [apply zdec_value|].
    cbn; unfold value_char, xml_char; cbn; repeat split; lia.
Qed.
Lemma tulip_vars_eq : forall E, tulip_vars (vlist E) =
  Ok (all_of (map (fun d => pad 2 ++ item_text (fst d) (domain_value (snd d)) ++ line_end)%string E)).
Proof.
  intros E. unfold tulip_vars. apply print_all; [apply vlist_size|]. intros i d Hd.
  destruct (item_name_vlist E i d Hd) as [-> ->]. cbn [bind]. f_equal. unfold item_text, domain_value.
  rewrite Z.leb_antisym. destruct (snd d <? 0); cbn [negb]; rewrite !string_app_assoc; reflexivity.
Qed.
Lemma indent_xml : forall m, chars xml_char (indent m).
Proof.
  intros m. unfold indent. cbn. split; [unfold xml_char; cbn; lia|]. induction m; [exact I|]. cbn [repeat].
  rewrite all_of_cons. cbn. unfold xml_char. cbn. repeat split; auto; lia.
Qed.
Lemma lines_element : forall A (g : A -> string) (v : A -> xml) n l name a attrs, xml_name name -> attrs_text a attrs ->
  (forall x, In x l -> element_text (g x) (v x)) ->
  element_text ("<" ++ name ++ a ++ ">" ++ line_end ++ all_of (map (fun x => (pad (S n) ++ g x ++ line_end)%string) l) ++ pad n ++
                "</" ++ name ++ ">") (lines_xml n name attrs (map v l)).
Proof.
  intros A g v n l name a attrs Hn Ha Hl. destruct (on_lines_text A g v n l Hl) as (s & H1 & H2). unfold lines_xml.
  assert (C : chars xml_char (fst (on_lines n (map v l)))) by apply indent_xml.
  assert (X := xe_full name a attrs "" _ s _ Hn Ha I C H1). cbn [append] in X.
  rewrite <- (string_app_assoc (fst _) s) in X. rewrite <- H2 in X. rewrite !string_app_assoc in X. exact X.
Qed.
Definition item_for (d : vdecl) : string := item_text (fst d) (domain_value (snd d)).
Lemma vars_element : forall name E, xml_name name -> good_names E ->
  element_text ("<" ++ name ++ ">" ++ line_end ++
    all_of (map (fun d : vdecl => (pad 2 ++ item_for d ++ line_end)%string) E) ++ pad 1 ++ "</" ++ name ++ ">")
    (vars_xml name E).
Proof.
  intros name E Hn HE. apply (lines_element vdecl item_for _ 1 E name "" []); auto; [constructor|].
  intros d Hd. apply item_element; [|apply domain_chars]. apply (chars_impl name_char); [apply name_value|]. apply HE. auto.
Qed.
Definition state_items (vars : list vdecl) (st : vec) : list (vdecl * Z) := combine vars st.
Definition item_of (p : vdecl * Z) : string := item_text (fst (fst p)) (zdec (snd p)).
Lemma tulip_items_eq : forall vars vals st offset, part st offset vars vals ->
  for_print (tree_size (vlist vars)) (tulip_item (vlist vars) st offset) =
  Ok (all_of (map (fun p => (pad 4 ++ item_of p ++ line_end)%string) (combine vars vals))).
Proof.
  intros vars vals st offset [Hl Hv]. apply print_all; [rewrite vlist_size, combine_same by auto; reflexivity|].
  intros i p Hp. apply nth_combine in Hp. destruct Hp as [H1 H2]. unfold tulip_item.
  destruct (item_name_vlist vars i (fst p) H1) as [-> _]. cbn [bind]. unfold at_state. rewrite (Hv _ _ H2). cbn [bind].
  unfold item_of, item_text. rewrite !string_app_assoc. reflexivity.
Qed.
Definition anno_text (r : frow) : string :=
  if negb (f_mode r =? -1) && negb (f_rgrad r =? -1) then (zdec (f_mode r) ++ " " ++ zdec (f_rgrad r))%string else "".
Definition childs_text (r : frow) : string := all_of (map (fun k => (" " ++ zdec k)%string) (f_trans r)).
Definition node_text (V : list vdecl) (r : frow) : string :=
  ("<node>" ++ indent 3 ++ "<id>" ++ zdec (f_id r) ++ "</id><anno>" ++ anno_text r ++ "</anno>" ++ indent 3 ++
   "<child_list>" ++ childs_text r ++ "</child_list>" ++ indent 3 ++ "<state>" ++ line_end ++
   all_of (map (fun p => (pad 4 ++ item_of p ++ line_end)%string) (combine V (f_state r))) ++ pad 3 ++ "</state>" ++ indent 2 ++ "</node>")%string.
Lemma node_element : forall V r, good_names V -> element_text (node_text V r) (node_xml V r).
Proof.
  intros V r HV. unfold node_xml.
  assert (X1 := elem1 "id" (zdec (f_id r)) ltac:(named) (zdec_xml _)).
  assert (HA : chars xml_char (anno_text r)).
  { unfold anno_text. destruct (negb (f_mode r =? -1) && negb (f_rgrad r =? -1)); [|exact I].
    rewrite chars_app. split; [apply zdec_xml|]. cbn. split; [unfold xml_char; cbn; lia|]. apply zdec_xml. }
  assert (X2 := elem1 "anno" (anno_text r) ltac:(named) HA).
  assert (HC : chars xml_char (childs_text r)).
  { unfold childs_text. induction (f_trans r) as [|k l IH]; [exact I|]. cbn [map]. rewrite all_of_cons, chars_app. split; auto.
    cbn. split; [unfold xml_char; cbn; lia|]. apply zdec_xml. }
  assert (X3 := elem1 "child_list" (childs_text r) ltac:(named) HC).
  assert (X4 : element_text ("<" ++ "state" ++ "" ++ ">" ++ line_end ++
     all_of (map (fun p => (pad 4 ++ item_of p ++ line_end)%string) (combine V (f_state r))) ++ pad 3 ++ "</" ++ "state" ++ ">")
     (lines_xml 3 "state" [] (map (fun p : vdecl * Z => item_xml (fst (fst p)) (zdec (snd p))) (combine V (f_state r))))).
  { apply (lines_element _ item_of); [named|constructor|]. intros [d z] Hp. apply in_combine_l in Hp. apply item_element; [|apply zdec_value].
    apply (chars_impl name_char); [apply name_value|]. apply HV. auto. }
  assert (C := xc_cons _ _ "" _ _ X1 I (xc_cons _ _ _ _ _ X2 (indent_xml 3) (xc_cons _ _ _ _ _ X3 (indent_xml 3)
     (xc_cons _ _ _ _ _ X4 (indent_xml 2) xc_nil)))).
  assert (X := elem0 "node" (indent 3) _ _ ltac:(named) (indent_xml 3) C). clear - X.
  unfold node_text. unfold anno_text in *. fold (childs_text r).
  repeat (rewrite !string_app_assoc in X; cbn [append] in X). repeat (rewrite !string_app_assoc; cbn [append]).
  rewrite ?string_app_nil in X. exact X.
Qed.
Lemma tulip_nodes_eq : forall E S A nodes c, (forall x, In x nodes -> List.length (astate x) = List.length (E ++ S)) ->
  tulip_nodes A (vlist E) (vlist S) nodes (Z.of_nat c) =
  Ok (all_of (map (fun r => (pad 2 ++ node_text (E ++ S) r ++ line_end)%string) (rows_from A nodes c))).
Proof.
  intros E S A. induction nodes as [|x nodes IH]; intros c Hl; [reflexivity|]. cbn [tulip_nodes rows_from map].
  assert (Hx : List.length (astate x) = List.length (E ++ S)) by (apply Hl; cbn; auto).
  assert (PE := part_env _ E S Hx). assert (PS := part_sys _ E S Hx).
  rewrite (tulip_items_eq _ _ _ _ PE), (vlist_size E), (tulip_items_eq _ _ _ _ PS). cbn [bind].
  replace (Z.of_nat c + 1) with (Z.of_nat (Datatypes.S c)) by lia. rewrite IH by (intros; apply Hl; cbn; auto). cbn [bind].
  rewrite all_of_cons. f_equal. unfold node_text, anno_text, childs_text.
  cbn [f_id f_state f_init f_mode f_rgrad f_trans].
  assert (C : combine (E ++ S) (astate x) = combine E (firstn (List.length E) (astate x)) ++ combine S (skipn (List.length E) (astate x))).
  { rewrite <- (firstn_skipn (List.length E) (astate x)) at 1. apply combine_app. destruct PE as [PE _]. auto. }
  rewrite C, map_app, all_of_app, map_map, <- all_of_cat.
  match goal with |- context [if ?b then ?u else ""] => set (an := if b then u else "") end. clearbody an.
  rewrite !string_app_assoc. reflexivity.
Qed.
Lemma tulip_written : forall E S A, good_names (E ++ S) -> (forall x, In x A -> List.length (astate x) = List.length (E ++ S)) ->
  exists text, tulip_aut_dump A (vlist E) (vlist S) = Ok (text, 0) /\ xml_file text (tulip_xml E S (rows_aut A)).
Proof.
  intros E S A Hg HA. unfold tulip_aut_dump. rewrite !tulip_vars_eq. cbn [bind].
  rewrite (tulip_nodes_eq E S A A 0 HA : tulip_nodes A (vlist E) (vlist S) A 0 = _). cbn [bind]. eexists. split; [reflexivity|].
  assert (GE : good_names E) by (intros d Hd; apply Hg; apply in_or_app; auto).
  assert (GS : good_names S) by (intros d Hd; apply Hg; apply in_or_app; auto).
  assert (X1 := vars_element "env_vars" E ltac:(named) GE). assert (X2 := vars_element "sys_vars" S ltac:(named) GS).
  assert (EM : forall n, xml_name n -> element_text ("<" ++ n ++ "></" ++ n ++ ">") (empty_xml n)).
  { intros n Hn. exact (elem1 n "" Hn I). }
  assert (X3 := elem0 "spec" (indent 2) _ _ ltac:(named) (indent_xml 2)
    (xc_cons _ _ "" _ _ (EM "env_init" ltac:(named)) I (xc_cons _ _ "" _ _ (EM "env_safety" ltac:(named)) I
    (xc_cons _ _ "" _ _ (EM "env_prog" ltac:(named)) I (xc_cons _ _ "" _ _ (EM "sys_init" ltac:(named)) I
    (xc_cons _ _ "" _ _ (EM "sys_safety" ltac:(named)) I (xc_cons _ _ (indent 1) _ _ (EM "sys_prog" ltac:(named)) (indent_xml 1) xc_nil))))))).
  assert (AT : attrs_text (" " ++ "type" ++ "=" ++ quote ++ "basic" ++ quote ++ "") [("type", "basic")]).
  { constructor; [discriminate|apply white_blank|named| |constructor]. cbn. unfold value_char, xml_char. cbn. repeat split; lia. }
  assert (X4 := lines_element frow (node_text (E ++ S)) (node_xml (E ++ S)) 1 (rows_aut A) "aut" _ _ ltac:(named) AT
     (fun r _ => node_element (E ++ S) r Hg)).
  assert (X5 := elem1 "extra" "created using gr1c, version 0.13.4" ltac:(named) ltac:(cbn; unfold xml_char; cbn; repeat split; lia)).
  assert (C := xc_cons _ _ _ _ _ X1 (indent_xml 1) (xc_cons _ _ _ _ _ X2 (indent_xml 1) (xc_cons _ _ _ _ _ X3 (indent_xml 1)
    (xc_cons _ _ _ _ _ X4 (indent_xml 1) (xc_cons _ _ line_end _ _ X5 ltac:(cbn; unfold xml_char; cbn; repeat split; lia) xc_nil))))).
  assert (A2 : attrs_text (" " ++ "version" ++ "=" ++ quote ++ "1" ++ quote ++ "") [("version", "1")]).
  { constructor; [discriminate|apply white_blank|named| |constructor]. cbn. unfold value_char, xml_char. cbn. repeat split; lia. }
  assert (A1 := xa_cons " " "xmlns" "http://tulip-control.sourceforge.net/ns/1" _ _ ltac:(discriminate) white_blank ltac:(named)
     ltac:(cbn; unfold value_char, xml_char; cbn; repeat split; lia) A2).
  assert (X := xe_full "tulipcon" _ _ "" (indent 1) _ _ ltac:(named) A1 I (indent_xml 1) C).
  eexists. split; [exact X|]. clear. fold (rows_aut A). unfold GR1C_VERSION, in_quotes, item_for.
  repeat (rewrite !string_app_assoc; cbn [append quote q nl line_end]). reflexivity.
Qed.
