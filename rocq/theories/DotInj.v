(** Proofs: the DOT text determines the strategy. *)
From Coq Require Import List ZArith Lia Bool Arith Ascii String.
From Verif Require Import Base Strs Ptree Form FSpec Automaton AutIO AutIOSpec AutIOProofs AutWrite JsonSpec JsonProofs JsonWrite
  FormatSpec WriteProofs DotProofs.
Import ListNotations.
Open Scope string_scope.
Open Scope list_scope.
Open Scope Z_scope.
Local Notation combine := List.combine (only parsing).

(** ** Statements *)
Definition unquoted (c : ascii) : Prop := c <> "034"%char.
Definition clean (s : dot_statement) : Prop :=
  match s with
  | DotNode i => chars unquoted i
  | DotEdge a b l => chars unquoted a /\ chars unquoted b /\ match l with Some t => chars unquoted t | None => True end
  end.
Lemma quotes_split : forall a b r r', chars unquoted a -> chars unquoted b ->
  (in_quotes a ++ r = in_quotes b ++ r')%string -> a = b /\ r = r'.
Proof.
  intros a b r r' Ha Hb E. unfold in_quotes in E. rewrite !string_app_assoc in E. apply app_cancel in E.
  apply (span_split unquoted) in E; auto.
  - destruct E as [-> E]. apply app_cancel in E. auto.
  - cbn. unfold unquoted. congruence.
  - cbn. unfold unquoted. congruence.
Qed.
Lemma statement_split : forall s s' r r', clean s -> clean s' ->
  (statement_text s ++ r = statement_text s' ++ r')%string -> s = s' /\ r = r'.
Proof.
  intros s s' r r' Hs Hs' E. destruct s as [i|a b l], s' as [i'|a' b' l']; cbn [statement_text] in E; cbn [clean] in Hs, Hs'.
  - rewrite !string_app_assoc in E. apply app_cancel in E. apply quotes_split in E; auto. destruct E as [-> E].
    apply app_cancel in E. auto.
  - exfalso. assert (X : exists t, (statement_text (DotEdge a' b' l') ++ r' = "    " ++ in_quotes a' ++ " -> " ++ t)%string).
    { destruct l'; cbn [statement_text]; rewrite !string_app_assoc; eauto. }
    destruct X as [t X]. cbn [statement_text] in X. rewrite X in E. rewrite !string_app_assoc in E.
    apply app_cancel in E. apply quotes_split in E; try tauto. destruct E as [_ E]. discriminate E.
  - exfalso. assert (X : exists t, (statement_text (DotEdge a b l) ++ r = "    " ++ in_quotes a ++ " -> " ++ t)%string).
    { destruct l; cbn [statement_text]; rewrite !string_app_assoc; eauto. }
    destruct X as [t X]. cbn [statement_text] in X. rewrite X in E. rewrite !string_app_assoc in E.
    apply app_cancel in E. apply quotes_split in E; try tauto. destruct E as [_ E]. discriminate E.
  - assert (X : forall a b l r, (statement_text (DotEdge a b l) ++ r = "    " ++ in_quotes a ++ " -> " ++ in_quotes b ++
      label_text l ++ line_end ++ r)%string).
    { clear. intros. destruct l; cbn [statement_text]; unfold label_text; rewrite !string_app_assoc; reflexivity. }
    assert (E' : (statement_text (DotEdge a b l) ++ r = statement_text (DotEdge a' b' l') ++ r')%string) by exact E.
    rewrite !X in E'. clear E. rename E' into E.
    apply app_cancel in E. apply quotes_split in E; try tauto. destruct E as [-> E]. apply app_cancel in E.
    apply quotes_split in E; try tauto. destruct E as [-> E].
    destruct l as [l|], l' as [l'|]; try discriminate E; cbn [label_text] in E.
    + rewrite !string_app_assoc in E. apply app_cancel in E. apply quotes_split in E; try tauto.
      destruct E as [-> E]. apply app_cancel in E. apply app_cancel in E. auto.
    + apply (app_cancel line_end) in E. auto.
Qed.
Lemma statements_inj : forall l l' r r', (forall s, In s l -> clean s) -> (forall s, In s l' -> clean s) ->
  stops blank r -> stops blank r' ->
  (all_of (map statement_text l) ++ r = all_of (map statement_text l') ++ r')%string -> l = l'.
Proof.
  assert (B : forall s t, exists u, (statement_text s ++ t)%string = String " " u).
  { intros [i|a b [x|]] t; cbn; eauto. }
  induction l as [|s l IH]; intros [|s' l'] r r' Hl Hl' Hr Hr' E; auto.
  - cbn [map] in E. rewrite all_of_cons, string_app_assoc in E. destruct (B s' (all_of (map statement_text l') ++ r')%string) as [u X].
    rewrite X in E. cbn in E. subst r. exfalso. apply Hr. reflexivity.
  - cbn [map] in E. rewrite all_of_cons, string_app_assoc in E. destruct (B s (all_of (map statement_text l) ++ r)%string) as [u X].
    rewrite X in E. cbn in E. subst r'. exfalso. apply Hr'. reflexivity.
  - cbn [map] in E. rewrite !all_of_cons, !string_app_assoc in E. apply statement_split in E; [|apply Hl; cbn; auto|apply Hl'; cbn; auto].
    destruct E as [-> E]. f_equal. apply (IH l' r r'); auto; intros; [apply Hl|apply Hl']; cbn; auto.
Qed.
Lemma dot_file_inj : forall l l', (forall s, In s l -> clean s) -> (forall s, In s l' -> clean s) -> dot_file l = dot_file l' -> l = l'.
Proof.
  intros l l' Hl Hl' E. unfold dot_file in E. repeat (apply app_cancel in E).
  apply statements_inj in E; auto; discriminate.
Qed.

(** ** Names *)
Definition no_comma (c : ascii) : Prop := c <> ","%char.
Lemma between_inj : forall l l', (forall x, In x l -> x <> "" /\ chars no_comma x) -> (forall x, In x l' -> x <> "" /\ chars no_comma x) ->
  between ", " l = between ", " l' -> l = l'.
Proof.
  assert (K : forall x l, exists t, between ", " (x :: l) = (x ++ t)%string /\ (l = [] -> t = "") /\
    (l <> [] -> t = (", " ++ between ", " l)%string)).
  { intros x [|y l]; [exists ""|exists (", " ++ between ", " (y :: l))%string]; repeat split; auto; try congruence.
    cbn. rewrite string_app_nil. reflexivity. }
  assert (N : forall x l, x <> "" -> between ", " (x :: l) <> "").
  { intros x l Hx. destruct (K x l) as (t & -> & _). destruct x; [congruence|discriminate]. }
  induction l as [|x l IH]; intros [|x' l'] Hl Hl' E; auto.
  - exfalso. apply (N x' l'); [apply Hl'; cbn; auto|]. auto.
  - exfalso. apply (N x l); [apply Hl; cbn; auto|]. auto.
  - destruct (K x l) as (t & E1 & T1 & T2). destruct (K x' l') as (t' & E1' & T1' & T2'). rewrite E1, E1' in E.
    destruct (Hl x) as [_ Hx]; [cbn; auto|]. destruct (Hl' x') as [_ Hx']; [cbn; auto|].
    assert (St : stops no_comma t).
    { destruct l; [rewrite T1 by auto; exact I|rewrite T2 by discriminate; cbn; unfold no_comma; congruence]. }
    assert (St' : stops no_comma t').
    { destruct l'; [rewrite T1' by auto; exact I|rewrite T2' by discriminate; cbn; unfold no_comma; congruence]. }
    apply (span_split no_comma) in E; auto. destruct E as [-> E]. f_equal.
    destruct l as [|y l], l' as [|y' l']; auto.
    + exfalso. rewrite T1, T2' in E by (auto; discriminate). discriminate E.
    + exfalso. rewrite T2, T1' in E by (auto; discriminate). discriminate E.
    + rewrite T2, T2' in E by discriminate. apply app_cancel in E. apply IH; auto; intros; [apply Hl|apply Hl']; cbn; auto.
Qed.
Lemma name_char_not : forall c, name_char c -> c <> ","%char /\ c <> "{"%char /\ c <> "034"%char /\ c <> "="%char.
Proof.
  intros c H. unfold name_char in H. repeat split; intros ->; revert H; cbn; lia.
Qed.
Lemma shown_good : forall s V vals x, good_names V -> In x (shown s V vals) ->
  x <> "" /\ chars no_comma x /\ chars unquoted x /\ stops (fun c => c = "{"%char) x.
Proof.
  intros s V vals x HV Hx.
  assert (K : forall n t, xml_name n -> chars no_comma t -> chars unquoted t ->
    (n ++ t)%string <> "" /\ chars no_comma (n ++ t) /\ chars unquoted (n ++ t) /\ stops (fun c => c = "{"%char) (n ++ t)).
  { intros n t [Hn Hc] H1 H2. destruct n as [|c n]; [congruence|].
    split; [discriminate|]. split; [|split].
    - rewrite chars_app. split; auto. apply (chars_impl name_char); auto. intros d Hd. apply name_char_not in Hd. unfold no_comma. tauto.
    - rewrite chars_app. split; auto. apply (chars_impl name_char); auto. intros d Hd. apply name_char_not in Hd. unfold unquoted. tauto.
    - cbn. destruct Hc as [Hc _]. apply name_char_not in Hc. tauto. }
  assert (Z : forall z, chars no_comma ("=" ++ zdec z) /\ chars unquoted ("=" ++ zdec z)).
  { intros z. split; (cbn; split; [unfold no_comma, unquoted; discriminate|]); apply (chars_impl numchar); try apply zdec_chars;
      intros c Hc; apply num_not in Hc; unfold no_comma, unquoted; tauto. }
  unfold shown in Hx. destruct (dot_binary s).
  - apply in_map_iff in Hx. destruct Hx as (p & <- & Hp). apply filter_In in Hp. destruct Hp as [Hp _]. destruct p as [d z].
    apply in_combine_l in Hp. specialize (K (fst d) "" (HV _ Hp) I I). rewrite string_app_nil in K. exact K.
  - apply in_map_iff in Hx. destruct Hx as (p & <- & Hp). destruct p as [d z].
    apply in_combine_l in Hp. apply K; auto; apply Z.
Qed.
Lemma braces_inj : forall l l',
  (forall x, In x l -> x <> "" /\ chars no_comma x /\ chars unquoted x /\ stops (fun c => c = "{"%char) x) ->
  (forall x, In x l' -> x <> "" /\ chars no_comma x /\ chars unquoted x /\ stops (fun c => c = "{"%char) x) ->
  braces_if_none l = braces_if_none l' -> l = l'.
Proof.
  intros l l' Hl Hl' E.
  assert (K : forall x k, (x <> "" /\ chars no_comma x /\ chars unquoted x /\ stops (fun c => c = "{"%char) x) -> "{}" <> between ", " (x :: k)).
  { intros x k (H1 & _ & _ & H2) F. destruct x as [|c x]; [congruence|]. cbn in H2.
    assert (exists t, between ", " (String c x :: k) = String c t) as [t X] by (destruct k; cbn; eauto).
    rewrite X in F. injection F as <- _. auto. }
  destruct l as [|x l], l' as [|x' l']; auto; cbn [braces_if_none] in E.
  - exfalso. apply (K x' l'); [apply Hl'; cbn; auto|auto].
  - exfalso. apply (K x l); [apply Hl; cbn; auto|auto].
  - apply between_inj; auto; intros y Hy; [apply Hl in Hy|apply Hl' in Hy]; tauto.
Qed.

(** ** Values *)
Lemma shown_inj : forall s (V : list vdecl) vals vals', List.length vals = List.length V -> List.length vals' = List.length V ->
  NoDup (map fst V) -> (dot_binary s = true -> bits vals /\ bits vals') -> shown s V vals = shown s V vals' -> vals = vals'.
Proof.
  intros s V vals vals' H H' Hn Hb E. unfold shown in E. destruct (dot_binary s).
  - destruct Hb as [B B']; auto. revert V H H' Hn E. revert vals' B'. induction vals as [|z vals IH]; intros [|z' vals'] B' [|d V] H H' Hn E;
      try discriminate; auto.
    cbn [List.combine filter] in E. cbn [map] in Hn. inversion Hn as [|? ? Hd Hn']; subst.
    assert (IN : forall vals x, In x (map (fun p => fst (fst p)) (filter (fun p : vdecl * Z => negb (snd p =? 0)) (combine V vals))) -> In x (map fst V)).
    { intros v x Hx. apply in_map_iff in Hx. destruct Hx as ([e z0] & <- & Hp). apply filter_In in Hp. destruct Hp as [Hp _].
      apply in_combine_l in Hp. apply in_map. auto. }
    assert (Bz : z = 0 \/ z = 1) by (apply B; cbn; auto). assert (Bz' : z' = 0 \/ z' = 1) by (apply B'; cbn; auto).
    cbn [List.length] in H, H'.
    assert (R : map (fun p => fst (fst p)) (filter (fun p : vdecl * Z => negb (snd p =? 0)) (combine V vals)) =
                map (fun p => fst (fst p)) (filter (fun p : vdecl * Z => negb (snd p =? 0)) (combine V vals')) -> vals = vals').
    { intros F. apply (IH (fun y Hy => B y (or_intror Hy)) vals' (fun y Hy => B' y (or_intror Hy)) V); auto. }
    destruct Bz as [-> | ->], Bz' as [-> | ->]; cbn [snd fst Z.eqb negb map Pos.eqb] in E.
    + f_equal. auto.
    + exfalso. apply Hd. apply (IN vals). setoid_rewrite E. cbn. auto.
    + exfalso. apply Hd. apply (IN vals'). setoid_rewrite <- E. cbn. auto.
    + f_equal. apply R. injection E as E. exact E.
  - clear Hb Hn. revert V H H' E. revert vals'. induction vals as [|z vals IH]; intros [|z' vals'] [|d V] H H' E; try discriminate; auto.
    cbn [List.combine map fst snd] in E. injection E as E1 E2. apply app_cancel in E1. injection E1 as E1. apply zdec_one in E1. subst z'.
    f_equal. apply (IH vals' V); auto.
Qed.
Lemma combine_app : forall A B (a b : list A) (c d : list B), List.length a = List.length c -> combine (a ++ b) (c ++ d) = combine a c ++ combine b d.
Proof. induction a; intros b [|y c] d H; try discriminate; auto. cbn. rewrite IHa by (cbn in H; lia). reflexivity. Qed.
Lemma shown_app : forall s (E S : list vdecl) st, List.length st = List.length (E ++ S) ->
  shown s E (firstn (List.length E) st) ++ shown s S (skipn (List.length E) st) = shown s (E ++ S) st.
Proof.
  intros s E S st H. rewrite app_length in H. rewrite <- (firstn_skipn (List.length E) st) at 3. unfold shown.
  rewrite combine_app by (rewrite firstn_length; lia). destruct (dot_binary s); rewrite ?filter_app, map_app; reflexivity.
Qed.

(** ** Rows *)
Definition row_good (s : dot_style) (E S : list vdecl) (r : frow) : Prop :=
  List.length (f_state r) = List.length (E ++ S) /\ (dot_binary s = true -> bits (f_state r)).
Lemma dot_id_pos : forall s E S r r', dot_id s E S r = dot_id s E S r' -> f_id r = f_id r'.
Proof. intros s E S r r' H. unfold dot_id in H. apply zdec_split in H; [tauto|stop|stop]. Qed.
Lemma dot_id_inj : forall s E S r r', dot_attributes s = true -> dot_edge_input s = false -> good_names (E ++ S) -> NoDup (map fst (E ++ S)) ->
  row_good s E S r -> row_good s E S r' -> dot_id s E S r = dot_id s E S r' ->
  f_id r = f_id r' /\ f_mode r = f_mode r' /\ f_rgrad r = f_rgrad r' /\ f_state r = f_state r'.
Proof.
  intros s E S r r' Ha He Hg Hn [Hl Hb] [Hl' Hb'] H. unfold dot_id in H. rewrite Ha, He in H.
  apply zdec_split in H; [|stop|stop]. destruct H as [-> H]. rewrite !string_app_assoc in H.
  apply (app_cancel ";") in H. apply app_cancel in H. apply (app_cancel "(") in H.
  apply zdec_split in H; [|stop|stop]. destruct H as [-> H]. apply (app_cancel ", ") in H.
  apply zdec_split in H; [|stop|stop]. destruct H as [-> H]. apply (app_cancel ")") in H. apply app_cancel in H.
  rewrite !shown_app in H by auto. apply braces_inj in H; try (intros x Hx; eapply shown_good; eauto).
  repeat (split; [reflexivity|]). apply (shown_inj s (E ++ S)); auto.
Qed.
Definition rows_good (s : dot_style) (E S : list vdecl) (rows : list frow) : Prop :=
  forall i r, nth_error rows i = Some r -> f_id r = Z.of_nat i /\ row_good s E S r /\
    forall k, In k (f_trans r) -> 0 <= k < Z.of_nat (List.length rows).
Definition is_edge (s : dot_statement) : bool := match s with DotEdge _ _ _ => true | DotNode _ => false end.
Lemma edges_split : forall l l' r r', (forall s, In s l -> is_edge s = true) -> (forall s, In s l' -> is_edge s = true) ->
  match r with [] => True | s :: _ => is_edge s = false end -> match r' with [] => True | s :: _ => is_edge s = false end ->
  l ++ r = l' ++ r' -> l = l' /\ r = r'.
Proof.
  induction l as [|s l IH]; intros [|s' l'] r r' Hl Hl' Hr Hr' E; cbn in E.
  - auto.
  - subst r. rewrite (Hl' s') in Hr by (cbn; auto). discriminate.
  - subst r'. rewrite (Hl s) in Hr' by (cbn; auto). discriminate.
  - injection E as -> E. destruct (IH l' r r') as [-> ->]; auto; intros; [apply Hl|apply Hl']; cbn; auto.
Qed.
Lemma dot_id_not_empty : forall s E S r, dot_id s E S r <> "".
Proof. intros s E S r H. unfold dot_id in H. destruct (zdec_starts (f_id r)) as (c & t & X & _). rewrite X in H. discriminate. Qed.
Lemma rows_inj : forall s E S R R', dot_attributes s = true -> dot_edge_input s = false -> good_names (E ++ S) -> NoDup (map fst (E ++ S)) ->
  rows_good s E S R -> rows_good s E S R' ->
  forall rows rows', incl rows R -> incl rows' R' ->
  flat_map (row_statements s E S R) rows = flat_map (row_statements s E S R') rows' -> rows = rows'.
Proof.
  intros s E S R R' Ha He Hg Hn HR HR'. induction rows as [|r rows IH]; intros [|r' rows'] Hi Hi' H; try discriminate H; auto.
  cbn [flat_map] in H. unfold row_statements at 1 3 in H. cbn [List.app] in H. injection H as H1 H2.
  assert (Ir : In r R) by (apply Hi; cbn; auto). assert (Ir' : In r' R') by (apply Hi'; cbn; auto).
  apply In_nth_error in Ir. destruct Ir as [i Ir]. apply In_nth_error in Ir'. destruct Ir' as [i' Ir'].
  destruct (HR _ _ Ir) as (I1 & I2 & I3). destruct (HR' _ _ Ir') as (J1 & J2 & J3).
  destruct (dot_id_inj s E S r r' Ha He Hg Hn I2 J2 H1) as (E1 & E2 & E3 & E4).
  pose (edges := fun (R : list frow) (r : frow) (k : Z) => match nth_error R (Z.to_nat k) with
     | Some t => [DotEdge (dot_id s E S r) (dot_id s E S t) (dot_label s E t)] | None => [] end).
  rewrite <- !app_assoc in H2.
  change (fun k => match nth_error R (Z.to_nat k) with Some t => [DotEdge (dot_id s E S r) (dot_id s E S t) (dot_label s E t)] | None => [] end)
    with (edges R r) in H2.
  change (fun k => match nth_error R' (Z.to_nat k) with Some t => [DotEdge (dot_id s E S r') (dot_id s E S t) (dot_label s E t)] | None => [] end)
    with (edges R' r') in H2.
  assert (ED : forall R r ts x, In x (flat_map (edges R r) ts) -> is_edge x = true).
  { clear. intros R r ts x Hx. apply in_flat_map in Hx. destruct Hx as (k & _ & Hx). unfold edges in Hx.
    destruct (nth_error R (Z.to_nat k)); [|destruct Hx]. destruct Hx as [<-|[]]. reflexivity. }
  assert (RS : forall R rows, match flat_map (row_statements s E S R) rows with [] => True | x :: _ => is_edge x = false end).
  { clear. intros R [|r rows]; cbn; auto. }
  assert (HI : f_init r = f_init r' /\ flat_map (edges R r) (f_trans r) ++ flat_map (row_statements s E S R) rows =
     flat_map (edges R' r') (f_trans r') ++ flat_map (row_statements s E S R') rows').
  { destruct (f_init r), (f_init r'); cbn [List.app] in H2.
    - injection H2 as _ H2. auto.
    - exfalso. destruct (flat_map (edges R' r') (f_trans r')) as [|x l] eqn:X.
      + cbn [List.app] in H2. assert (Y := RS R' rows'). rewrite <- H2 in Y. discriminate Y.
      + assert (Y : In x (flat_map (edges R' r') (f_trans r'))) by (rewrite X; cbn; auto).
        apply in_flat_map in Y. destruct Y as (k & _ & Y). unfold edges in Y. destruct (nth_error R' (Z.to_nat k)); [|destruct Y].
        destruct Y as [<-|[]]. cbn [List.app] in H2. injection H2 as H2 _. symmetry in H2. apply dot_id_not_empty in H2. auto.
    - exfalso. destruct (flat_map (edges R r) (f_trans r)) as [|x l] eqn:X.
      + cbn [List.app] in H2. assert (Y := RS R rows). rewrite H2 in Y. discriminate Y.
      + assert (Y : In x (flat_map (edges R r) (f_trans r))) by (rewrite X; cbn; auto).
        apply in_flat_map in Y. destruct Y as (k & _ & Y). unfold edges in Y. destruct (nth_error R (Z.to_nat k)); [|destruct Y].
        destruct Y as [<-|[]]. cbn [List.app] in H2. injection H2 as H2 _. apply dot_id_not_empty in H2. auto.
    - auto. }
  destruct HI as [E5 H3]. destruct (edges_split _ _ _ _ (ED R r (f_trans r)) (ED R' r' (f_trans r')) (RS R rows) (RS R' rows') H3) as [H3' H4].
  clear H3. rename H3' into H3.
  assert (E6 : f_trans r = f_trans r').
  { clear - H3 I3 J3 HR HR'. revert H3 I3 J3. generalize (f_trans r) as l, (f_trans r') as l'.
    assert (K : forall R r k, 0 <= k < Z.of_nat (List.length R) -> rows_good s E S R -> exists t, edges R r k = [DotEdge (dot_id s E S r) (dot_id s E S t) (dot_label s E t)] /\ f_id t = k).
    { clear. intros R r k Hk HR. unfold edges. destruct (nth_error R (Z.to_nat k)) as [t|] eqn:X.
      - exists t. split; auto. apply HR in X. destruct X as [X _]. lia.
      - apply nth_error_None in X. lia. }
    induction l as [|k l IH]; intros [|k' l'] H I3 J3; auto.
    - exfalso. cbn [flat_map] in H. destruct (K R' r' k') as (t & X & _); [apply J3; cbn; auto|auto|]. rewrite X in H. discriminate H.
    - exfalso. cbn [flat_map] in H. destruct (K R r k) as (t & X & _); [apply I3; cbn; auto|auto|]. rewrite X in H. discriminate H.
    - cbn [flat_map] in H. destruct (K R r k) as (t & X & Hk); [apply I3; cbn; auto|auto|].
      destruct (K R' r' k') as (t' & X' & Hk'); [apply J3; cbn; auto|auto|]. rewrite X, X' in H. cbn [List.app] in H.
      injection H as _ H _ H'. apply dot_id_pos in H. f_equal; [congruence|]. apply IH; auto; intros; [apply I3|apply J3]; cbn; auto. }
  f_equal.
  - destruct r, r'; cbn in *; congruence.
  - apply IH; auto; intros y Hy; [apply Hi|apply Hi']; cbn; auto.
Qed.
