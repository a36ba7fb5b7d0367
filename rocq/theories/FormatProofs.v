(** Proofs: what the list, DOT and TuLiP texts determine. *)
From Coq Require Import List ZArith Lia Bool Arith Ascii String.
From Verif Require Import Base Strs Ptree Form FSpec Automaton AutIO AutIOSpec AutIOProofs AutWrite JsonSpec JsonProofs JsonWrite
  FormatSpec WriteProofs DotProofs DotInj XmlProofs.
Import ListNotations.
Open Scope string_scope.
Open Scope list_scope.
Open Scope Z_scope.
Local Notation combine := List.combine (only parsing).

(** ** TuLiP *)
Lemma on_lines_fst : forall n l, map fst (snd (on_lines n l)) = l.
Proof.
  intros n l. unfold on_lines. cbn [snd]. destruct l as [|x l]; [reflexivity|].
  rewrite map_app, map_map. cbn [map fst]. rewrite map_id. symmetry. apply app_removelast_last. discriminate.
Qed.
Lemma lines_inj : forall n name a l l', lines_xml n name a l = lines_xml n name a l' -> l = l'.
Proof.
  intros n name a l l' H. unfold lines_xml in H. injection H as _ H.
  rewrite <- (on_lines_fst n l), <- (on_lines_fst n l'). unfold on_lines in *. cbn [snd] in *. rewrite H. reflexivity.
Qed.
Lemma vars_inj : forall name E E', (forall d, In d (E ++ E') -> domain_ok d) -> vars_xml name E = vars_xml name E' -> E = E'.
Proof.
  intros name E E' Hd H. unfold vars_xml in H. apply lines_inj in H.
  revert E' Hd H. induction E as [|d E IH]; intros [|d' E'] Hd H; try discriminate; auto. cbn [map] in H.
  injection H as H1 H2 H3. f_equal.
  - assert (D := Hd d ltac:(cbn; auto)). assert (D' := Hd d' ltac:(cbn; right; apply in_or_app; cbn; auto)).
    destruct d as [n v], d' as [n' v']. cbn [fst snd] in *. unfold domain_ok in *. cbn [fst snd] in *. subst n'. f_equal.
    unfold domain_value in H2. destruct (Z.ltb_spec v 0), (Z.ltb_spec v' 0).
    + lia.
    + discriminate H2.
    + discriminate H2.
    + apply (app_cancel "[0,") in H2. apply zdec_split in H2; [tauto|stop|stop].
  - apply IH; auto. intros x Hx. apply Hd. apply in_app_or in Hx. cbn. right. apply in_or_app. cbn. tauto.
Qed.
Lemma annotated_iff : forall r, negb (f_mode r =? -1) && negb (f_rgrad r =? -1) = true <-> annotated r.
Proof. intros r. unfold annotated. rewrite andb_true_iff, !negb_true_iff, !Z.eqb_neq. tauto. Qed.
Lemma node_xml_inj : forall V r r', List.length (f_state r) = List.length V -> List.length (f_state r') = List.length V ->
  node_xml V r = node_xml V r' -> alike r r'.
Proof.
  intros V r r' Hl Hl' H. unfold node_xml in H.
  assert (H5 : lines_xml 3 "state" [] (map (fun p : vdecl * Z => item_xml (fst (fst p)) (zdec (snd p))) (combine V (f_state r))) =
    lines_xml 3 "state" [] (map (fun p : vdecl * Z => item_xml (fst (fst p)) (zdec (snd p))) (combine V (f_state r')))).
  { assert (X : forall (t : string) (a b c d a' b' c' d' : xml * string), Element "node" [] t [a; b; c; d] = Element "node" [] t [a'; b'; c'; d'] -> fst d = fst d')
      by (intros; congruence).
    apply X in H. exact H. }
  injection H as H1 H2 H3 _ _. apply lines_inj in H5. apply zdec_one in H1.
  assert (E1 : f_state r = f_state r').
  { revert H5 Hl Hl'. generalize (f_state r) as l, (f_state r') as l'. clear. induction V as [|d V IH]; intros [|z l] [|z' l'] H Hl Hl';
      try discriminate; auto. cbn in H. injection H as H1 H2. apply zdec_one in H1. f_equal; auto. }
  assert (E2 : f_trans r = f_trans r').
  { assert (X : (all_of (map (fun k => (" " ++ zdec k)%string) (f_trans r)) ++ "" = all_of (map (fun k => (" " ++ zdec k)%string) (f_trans r')) ++ "")%string).
    { rewrite !string_app_nil. exact H3. }
    apply blanks_split in X; cbn; auto. tauto. }
  unfold alike. repeat (split; [assumption|]).
  destruct (negb (f_mode r =? -1) && negb (f_rgrad r =? -1)) eqn:A1, (negb (f_mode r' =? -1) && negb (f_rgrad r' =? -1)) eqn:A2.
  - apply annotated_iff in A1. apply annotated_iff in A2. split; [tauto|]. intros _.
    apply zdec_split in H2; [|stop|stop]. destruct H2 as [-> H2]. apply (app_cancel " ") in H2. apply zdec_one in H2. auto.
  - exfalso. destruct (zdec_starts (f_mode r)) as (c & s & X & _). rewrite X in H2. discriminate H2.
  - exfalso. destruct (zdec_starts (f_mode r')) as (c & s & X & _). rewrite X in H2. discriminate H2.
  - assert (N1 : ~ annotated r) by (intros N; apply annotated_iff in N; congruence).
    assert (N2 : ~ annotated r') by (intros N; apply annotated_iff in N; congruence). tauto.
Qed.
Lemma tulip_inj : forall E S E' S' rows rows', (forall d, In d (E ++ S ++ E' ++ S') -> domain_ok d) ->
  (forall r, In r rows -> List.length (f_state r) = List.length (E ++ S)) ->
  (forall r, In r rows' -> List.length (f_state r) = List.length (E' ++ S')) ->
  tulip_xml E S rows = tulip_xml E' S' rows' -> E = E' /\ S = S' /\ Forall2 alike rows rows'.
Proof.
  intros E S E' S' rows rows' Hd Hr Hr' H. unfold tulip_xml in H.
  assert (X : forall n at0 (t : string) (a b c d e a' b' c' d' e' : xml * string), Element n at0 t [a; b; c; d; e] = Element n at0 t [a'; b'; c'; d'; e'] ->
    fst a = fst a' /\ fst b = fst b' /\ fst d = fst d') by (intros; repeat split; congruence).
  apply X in H. destruct H as (H1 & H2 & H3). cbn [fst] in H1, H2, H3. clear X.
  apply vars_inj in H1. 2:{ intros d Hi. apply Hd. rewrite !in_app_iff in *. tauto. }
  apply vars_inj in H2. 2:{ intros d Hi. apply Hd. rewrite !in_app_iff in *. tauto. }
  subst E' S'. split; [reflexivity|]. split; [reflexivity|]. apply lines_inj in H3. clear Hd.
  revert rows' H3 Hr'. induction rows as [|r rows IH]; intros [|r' rows'] H3 Hr'; try discriminate; auto. cbn [map] in H3.
  assert (X : forall (x y : xml) l l', x :: l = y :: l' -> x = y /\ l = l') by (intros; split; congruence).
  apply X in H3. destruct H3 as [H3 H4]. constructor.
  - apply (node_xml_inj (E ++ S)); [apply Hr; cbn; auto|apply Hr'; cbn; auto|exact H3].
  - apply IH; [intros; apply Hr; cbn; auto|exact H4|intros; apply Hr'; cbn; auto].
Qed.

(** ** With automata *)
Lemma rows_states : forall n A, states_fit n A -> forall r, In r (rows_aut A) -> List.length (f_state r) = n.
Proof.
  intros n A HA r Hr. apply In_nth_error in Hr. destruct Hr as [i Hi]. destruct (rows_from_nth A A 0 i r Hi) as (x & Hx & ->).
  cbn. apply HA. eapply nth_error_In; eauto.
Qed.
Lemma same_rows : forall A A', closed_aut A -> closed_aut A' -> rows_aut A = rows_aut A' -> exists rows, numbered A rows /\ numbered A' rows.
Proof. intros A A' HA HA' H. exists (rows_aut A). split; [apply rows_numbered; auto|]. rewrite H. apply rows_numbered. auto. Qed.

Lemma list_shape : forall A n, states_fit n A -> closed_aut A ->
  exists rows, numbered A rows /\ list_aut_dump A (Z.of_nat n) = Ok (list_file rows).
Proof. intros A n HA Hc. exists (rows_aut A). split; [apply rows_numbered; auto|apply list_written; auto]. Qed.
Lemma list_determines : forall A A' n n' text, states_fit n A -> closed_aut A -> states_fit n' A' -> closed_aut A' ->
  list_aut_dump A (Z.of_nat n) = Ok text -> list_aut_dump A' (Z.of_nat n') = Ok text ->
  exists rows, numbered A rows /\ numbered A' rows.
Proof.
  intros A A' n n' text HA Hc HA' Hc' H H'. rewrite list_written in H, H' by auto.
  apply same_rows; auto. apply list_file_inj. congruence.
Qed.

Lemma dot_shape : forall f E S A, closed_aut A -> states_fit (List.length (E ++ S)) A ->
  exists rows, numbered A rows /\
    ((forall r, In r rows -> dot_short (style_of f) E S r) ->
       dot_aut_dump f A (vlist E) (vlist S) = Ok (dot_file (dot_statements (style_of f) E S rows), 0)) /\
    ((exists r, In r rows /\ ~ dot_short (style_of f) E S r) -> exists text, dot_aut_dump f A (vlist E) (vlist S) = Ok (text, -1)).
Proof.
  intros f E S A Hc HA. exists (rows_aut A). split; [apply rows_numbered; auto|]. split.
  - intros Hs. apply dot_written; auto.
  - intros Hs. destruct (dot_cut f E S A Hc HA Hs) as (a & r & b & _ & _ & _ & H). eauto.
Qed.
Lemma rows_good_aut : forall f E S A, closed_aut A -> states_fit (List.length (E ++ S)) A ->
  (dot_binary f = true -> forall x, In x A -> bits (astate x)) -> rows_good f E S (rows_aut A).
Proof.
  intros f E S A Hc HA Hb i r Hr. destruct (rows_from_nth A A 0 i r Hr) as (x & Hx & ->). cbn [f_id f_state f_trans].
  assert (Hi : In x A) by (eapply nth_error_In; eauto). split; [reflexivity|]. split; [split; [exact (HA x Hi)|intros B; exact (Hb B x Hi)]|].
  intros k Hk. apply in_map_iff in Hk. destruct Hk as (t & <- & Ht). apply (Hc x Hi) in Ht.
  destruct (index_ok A t Ht) as (j & y & -> & Hy & _). unfold rows_aut. rewrite rows_from_length.
  assert (j < List.length A)%nat by (apply nth_error_Some; congruence). lia.
Qed.
Lemma clean_braces : forall l, (forall x, In x l -> chars unquoted x) -> chars unquoted (braces_if_none l).
Proof.
  intros [|x l] H; [cbn; unfold unquoted; repeat split; discriminate|]. unfold braces_if_none.
  revert x H. induction l as [|y l IH]; intros x H; [apply H; cbn; auto|]. rewrite between_cons, !chars_app.
  split; [apply H; cbn; auto|]. split; [cbn; unfold unquoted; repeat split; discriminate|]. apply IH. intros z Hz. apply H. cbn in *. tauto.
Qed.
Lemma zdec_unquoted : forall z, chars unquoted (zdec z).
Proof. intros. apply (chars_impl numchar); [|apply zdec_chars]. intros c Hc. apply num_not in Hc. unfold unquoted. tauto. Qed.
Lemma shown_clean : forall s V vals x, good_names V -> In x (shown s V vals) -> chars unquoted x.
Proof. intros s V vals x HV Hx. destruct (shown_good s V vals x HV Hx) as (_ & _ & H & _). exact H. Qed.
Lemma dot_id_clean : forall s E S r, good_names (E ++ S) -> chars unquoted (dot_id s E S r).
Proof.
  intros s E S r Hg. assert (GE : good_names E) by (intros d Hd; apply Hg; apply in_or_app; auto).
  assert (GS : good_names S) by (intros d Hd; apply Hg; apply in_or_app; auto).
  unfold dot_id. rewrite !chars_app. split; [apply zdec_unquoted|]. split; [cbn; unfold unquoted; repeat split; discriminate|].
  split; [cbn; unfold unquoted; repeat split; discriminate|]. split.
  - destruct (dot_attributes s); [|exact I]. rewrite !chars_app. repeat split; try apply zdec_unquoted; cbn; unfold unquoted; repeat split; discriminate.
  - apply clean_braces. intros x Hx. apply in_app_or in Hx. destruct Hx as [Hx|Hx].
    + destruct (dot_edge_input s); [destruct Hx|]. eapply shown_clean; [|eauto]. auto.
    + eapply shown_clean; [|eauto]. auto.
Qed.
Lemma statements_clean : forall s E S rows, good_names (E ++ S) -> forall x, In x (dot_statements s E S rows) -> clean x.
Proof.
  intros s E S rows Hg x Hx. rewrite statements_eq in Hx. apply in_flat_map in Hx. destruct Hx as (r & _ & Hx).
  destruct Hx as [<-|Hx]; [apply dot_id_clean; auto|]. apply in_app_or in Hx. destruct Hx as [Hx|Hx].
  - destruct (f_init r); [|destruct Hx]. destruct Hx as [<-|[]]. cbn. repeat split; auto. apply dot_id_clean. auto.
  - apply in_flat_map in Hx. destruct Hx as (k & _ & Hx). destruct (nth_error rows (Z.to_nat k)) as [t|]; [|destruct Hx].
    destruct Hx as [<-|[]]. cbn. split; [apply dot_id_clean; auto|]. split; [apply dot_id_clean; auto|].
    unfold dot_label. destruct (dot_edge_input s); [|exact I]. apply clean_braces. intros x Hx.
    eapply shown_clean; [|eauto]. intros d Hd. apply Hg. apply in_or_app. auto.
Qed.
Lemma dot_determines : forall f E S A A' text, DOT_AUT_ATTRIB f = true -> DOT_AUT_EDGEINPUT f = false ->
  good_names (E ++ S) -> NoDup (map fst (E ++ S)) ->
  closed_aut A -> states_fit (List.length (E ++ S)) A -> closed_aut A' -> states_fit (List.length (E ++ S)) A' ->
  (DOT_AUT_BINARY f = true -> forall x, In x (A ++ A') -> bits (astate x)) ->
  dot_aut_dump f A (vlist E) (vlist S) = Ok (text, 0) -> dot_aut_dump f A' (vlist E) (vlist S) = Ok (text, 0) ->
  exists rows, numbered A rows /\ numbered A' rows.
Proof.
  intros f E S A A' text Ha He Hg Hn Hc HA Hc' HA' Hb H H'.
  assert (K : forall A, closed_aut A -> states_fit (List.length (E ++ S)) A -> dot_aut_dump f A (vlist E) (vlist S) = Ok (text, 0) ->
    text = dot_file (dot_statements (style_of f) E S (rows_aut A))).
  { clear - Hg. intros A Hc HA H. destruct (forallb (shortb (style_of f) E S) (rows_aut A)) eqn:X.
    - rewrite dot_written in H; auto; [congruence|]. intros r Hr. apply shortb_iff. rewrite forallb_forall in X. auto.
    - assert (Y : exists r, In r (rows_aut A) /\ ~ dot_short (style_of f) E S r).
      { clear -X. induction (rows_aut A) as [|r l IH]; [discriminate|]. cbn in X. destruct (shortb (style_of f) E S r) eqn:Er.
        - destruct IH as (x & Hx & Hs); auto. exists x. cbn. auto.
        - exists r. cbn. split; auto. intros N. apply shortb_iff in N. congruence. }
      destruct (dot_cut f E S A Hc HA Y) as (a & r & b & _ & _ & _ & Z). congruence. }
  apply same_rows; auto.
  assert (X := K A Hc HA H). assert (X' := K A' Hc' HA' H'). rewrite X in X'. apply dot_file_inj in X'; try (apply statements_clean; auto).
  rewrite !statements_eq in X'.
  apply (rows_inj (style_of f) E S (rows_aut A) (rows_aut A')); auto using incl_refl.
  - apply rows_good_aut; auto. intros Hy x Hx. apply Hb; auto. apply in_or_app. auto.
  - apply rows_good_aut; auto. intros Hy x Hx. apply Hb; auto. apply in_or_app. auto.
Qed.
(** the graph has one node statement per node, with different identifiers, and edges
    only between them (and from the empty identifier) *)
Lemma node_ids_eq : forall s E S R rows, node_ids (flat_map (row_statements s E S R) rows) = map (dot_id s E S) rows.
Proof.
  intros s E S R. induction rows as [|r rows IH]; [reflexivity|]. cbn [flat_map map]. unfold node_ids in *. rewrite flat_map_app, IH.
  unfold row_statements. cbn [flat_map List.app]. f_equal.
  assert (X : flat_map (fun s0 : dot_statement => match s0 with DotNode i => [i] | DotEdge _ _ _ => [] end)
    ((if f_init r then [DotEdge "" (dot_id s E S r) None] else []) ++
     flat_map (fun k => match nth_error R (Z.to_nat k) with Some t => [DotEdge (dot_id s E S r) (dot_id s E S t) (dot_label s E t)] | None => [] end) (f_trans r)) = []).
  { rewrite flat_map_app. replace (flat_map _ (if f_init r then _ else _)) with (@nil string) by (destruct (f_init r); reflexivity).
    cbn [List.app]. induction (f_trans r) as [|k l IHl]; [reflexivity|]. cbn [flat_map]. rewrite flat_map_app, IHl.
    destruct (nth_error R (Z.to_nat k)); reflexivity. }
  rewrite X. reflexivity.
Qed.
Lemma dot_graph : forall s E S A rows, closed_aut A -> numbered A rows ->
  List.length (node_ids (dot_statements s E S rows)) = List.length A /\
  NoDup (node_ids (dot_statements s E S rows)) /\ ~ In "" (node_ids (dot_statements s E S rows)) /\
  forall a b l, In (DotEdge a b l) (dot_statements s E S rows) ->
    (a = "" \/ In a (node_ids (dot_statements s E S rows))) /\ In b (node_ids (dot_statements s E S rows)).
Proof.
  intros s E S A rows Hc [HL HN]. rewrite statements_eq, node_ids_eq. split; [rewrite map_length; auto|].
  assert (HI : forall i r, nth_error rows i = Some r -> f_id r = Z.of_nat i).
  { intros i r Hr. destruct (nth_error A i) as [x|] eqn:Ex.
    - apply (HN i x r); auto.
    - apply nth_error_None in Ex. assert (i < List.length rows)%nat by (apply nth_error_Some; congruence). lia. }
  split; [|split].
  - apply NoDup_nth_error. intros i j Hi H. rewrite map_length in Hi. rewrite !nth_error_map in H.
    destruct (nth_error rows i) as [r|] eqn:Er; [|apply nth_error_None in Er; lia].
    destruct (nth_error rows j) as [r'|] eqn:Er'; [|discriminate H]. cbn in H. injection H as H. apply dot_id_pos in H.
    rewrite (HI _ _ Er), (HI _ _ Er') in H. lia.
  - intros H. apply in_map_iff in H. destruct H as (r & H & _). apply dot_id_not_empty in H. auto.
  - intros a b l H. apply in_flat_map in H. destruct H as (r & Hr & H). destruct H as [H|H]; [discriminate|].
    apply in_app_or in H. destruct H as [H|H].
    + destruct (f_init r); [|destruct H]. destruct H as [H|[]]. injection H as <- <- _. split; auto. apply in_map. auto.
    + apply in_flat_map in H. destruct H as (k & _ & H). destruct (nth_error rows (Z.to_nat k)) as [t|] eqn:Et; [|destruct H].
      destruct H as [H|[]]. injection H as <- <- _. split; [right|]; apply in_map; auto. eapply nth_error_In; eauto.
Qed.

Lemma tulip_shape : forall E S A, good_names (E ++ S) -> states_fit (List.length (E ++ S)) A -> closed_aut A ->
  exists text rows, tulip_aut_dump A (vlist E) (vlist S) = Ok (text, 0) /\ numbered A rows /\ xml_file text (tulip_xml E S rows).
Proof.
  intros E S A Hg HA Hc. destruct (tulip_written E S A Hg HA) as (text & H1 & H2). exists text, (rows_aut A).
  split; auto. split; auto. apply rows_numbered. auto.
Qed.
Lemma tulip_determines : forall E S A E' S' A' text, (forall d, In d (E ++ S ++ E' ++ S') -> xml_name (fst d) /\ domain_ok d) ->
  states_fit (List.length (E ++ S)) A -> closed_aut A -> states_fit (List.length (E' ++ S')) A' -> closed_aut A' ->
  tulip_aut_dump A (vlist E) (vlist S) = Ok (text, 0) -> tulip_aut_dump A' (vlist E') (vlist S') = Ok (text, 0) ->
  E = E' /\ S = S' /\ exists rows rows', numbered A rows /\ numbered A' rows' /\ Forall2 alike rows rows'.
Proof.
  intros E S A E' S' A' text Hd HA Hc HA' Hc' H H'.
  assert (G : good_names (E ++ S)) by (intros d Hi; apply Hd; rewrite !in_app_iff in *; tauto).
  assert (G' : good_names (E' ++ S')) by (intros d Hi; apply Hd; rewrite !in_app_iff in *; tauto).
  destruct (tulip_written E S A G HA) as (t & H1 & H2). destruct (tulip_written E' S' A' G' HA') as (t' & H1' & H2').
  assert (t = text) by congruence. assert (t' = text) by congruence. subst.
  destruct (tulip_inj E S E' S' (rows_aut A) (rows_aut A')) as (X1 & X2 & X3).
  - intros d Hi. apply Hd. auto.
  - apply rows_states. auto.
  - apply rows_states. auto.
  - eapply xml_unique; eauto.
  - split; auto. split; auto. exists (rows_aut A), (rows_aut A'). split; [apply rows_numbered; auto|]. split; [apply rows_numbered; auto|auto].
Qed.
Lemma all_of_map_app : forall (l l' : list dot_statement),
  all_of (map statement_text (l ++ l')) = (all_of (map statement_text l) ++ all_of (map statement_text l'))%string.
Proof. intros. rewrite map_app, all_of_app. reflexivity. Qed.
Lemma row_statements_head : forall s E S R r, exists t, row_statements s E S R r = DotNode (dot_id s E S r) :: t.
Proof. intros. unfold row_statements. eauto. Qed.
Lemma rows_statements_split : forall s E S R rows a r b, rows = a ++ r :: b -> exists t,
  flat_map (row_statements s E S R) rows = flat_map (row_statements s E S R) a ++ DotNode (dot_id s E S r) :: t.
Proof.
  intros s E S R rows a r b ->. rewrite flat_map_app. cbn [flat_map]. destruct (row_statements_head s E S R r) as (t & ->). cbn [List.app]. eauto.
Qed.
Lemma dot_cut_shape : forall f E S A, closed_aut A -> states_fit (List.length (E ++ S)) A ->
  forall rows, numbered A rows -> NoDup (map aid A) -> (exists r, In r rows /\ ~ dot_short (style_of f) E S r) ->
  exists text r missing, dot_aut_dump f A (vlist E) (vlist S) = Ok (text, -1) /\
    In r rows /\ ~ dot_short (style_of f) E S r /\
    (text ++ all_of (map statement_text (DotNode (dot_id (style_of f) E S r) :: missing)) ++ "}" ++ line_end)%string =
    dot_file (dot_statements (style_of f) E S rows).
Proof.
  intros f E S A Hc HA rows Hn Hd Hs. assert (X : rows = rows_aut A).
  { apply (numbered_unique A); auto. apply rows_numbered. auto. }
  subst rows. destruct (dot_cut f E S A Hc HA Hs) as (a & r & b & H1 & _ & H3 & H4).
  assert (X : exists missing, dot_statements (style_of f) E S (rows_aut A) =
    flat_map (row_statements (style_of f) E S (rows_aut A)) a ++ DotNode (dot_id (style_of f) E S r) :: missing).
  { rewrite statements_eq. apply (rows_statements_split _ _ _ _ _ a r b). exact H1. }
  destruct X as (missing & X). eexists _, r, missing. split; [exact H4|]. split; [rewrite H1; apply in_or_app; cbn; auto|]. split; [exact H3|].
  rewrite X. unfold dot_file, dot_header. rewrite all_of_map_app. rewrite !string_app_assoc. reflexivity.
Qed.
