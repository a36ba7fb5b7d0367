(** Proofs about variable lists, tree values, copying, scoping checks. *)
From Coq Require Import List ZArith Lia Bool Arith String.
From Verif Require Import Base Strs Ptree Form Solve FSpec PtreeProofs SolveProofs Nonbool RSpec ExpProofs NonboolProofs ListSpec FormCheck.
Import ListNotations.
Open Scope string_scope.
Open Scope list_scope.
Open Scope Z_scope.

(** ** Lists of items *)
Lemma ilist_size : forall l, tree_size (ilist l) = List.length l.
Proof. induction l; cbn; auto. rewrite IHl. lia. Qed.
Lemma append_ok : forall l t n v, append_list_item (ilist l) t n v = ilist (l ++ [new_item t n v]).
Proof.
  induction l as [|i l IH]; intros; cbn [append_list_item ilist app].
  - destruct t; reflexivity.
  - rewrite IH. reflexivity.
Qed.
Lemma nth_item_ok : forall l k, nth_item (ilist l) k = ilist (skipn k l).
Proof. induction l; destruct k; cbn; auto. Qed.
Lemma last_item_ok : forall l i, last_item (ilist (l ++ [i])) = ilist [i].
Proof.
  induction l as [|j l IH]; intros i; auto. cbn [app ilist last_item].
  destruct (ilist (l ++ [i])) eqn:E; [|rewrite <- E; apply IH].
  exfalso. assert (H : tree_size (ilist (l ++ [i])) = O) by (rewrite E; auto).
  rewrite ilist_size, app_length in H. cbn in H. lia.
Qed.
Lemma get_ok : forall l k, (k < List.length l)%nat -> get_list_item (ilist l) (Z.of_nat k) = ilist (skipn k l).
Proof.
  intros [|i l] k H; [cbn in H; lia|]. unfold get_list_item. cbn [ilist].
  rewrite (proj2 (Z.ltb_ge _ _)) by lia. rewrite (proj2 (Z.eqb_neq _ _)) by lia.
  rewrite Nat2Z.id. apply (nth_item_ok (i :: l)).
Qed.
Lemma get_last : forall l i, get_list_item (ilist (l ++ [i])) (-1) = ilist [i].
Proof.
  intros l i. unfold get_list_item. rewrite last_item_ok.
  destruct (ilist (l ++ [i])) eqn:E; [|reflexivity].
  exfalso. assert (H : tree_size (ilist (l ++ [i])) = O) by (rewrite E; auto).
  rewrite ilist_size, app_length in H. cbn in H. lia.
Qed.
Lemma get_none : forall l z, z < -1 \/ Z.of_nat (List.length l) <= z \/ l = [] -> get_list_item (ilist l) z = NULL.
Proof.
  intros l z H. destruct l as [|i l]; auto. destruct H as [H|[H|H]]; [| |discriminate].
  - unfold get_list_item. cbn [ilist]. rewrite (proj2 (Z.ltb_lt _ _)) by lia. reflexivity.
  - unfold get_list_item. cbn [ilist]. rewrite (proj2 (Z.ltb_ge _ _)) by (cbn in H; lia).
    rewrite (proj2 (Z.eqb_neq _ _)) by (cbn in H; lia).
    change (nth_item (ilist (i :: l)) (Z.to_nat z) = NULL). rewrite nth_item_ok, skipn_all2; auto. lia.
Qed.
Lemma matches_ok : forall t n v i, item_matches t n v (it_type i) (it_name i) (it_value i) = true <-> same_item t n v i.
Proof.
  intros t n v [t' n' v']. unfold item_matches, same_item. cbn [it_type it_name it_value].
  rewrite andb_true_iff, ty_eqb_eq. split; intros [-> H]; (split; [auto|]).
  - destruct t; cbn in *; auto; try (apply Z.eqb_eq in H; exact H);
      destruct n, n'; try discriminate; apply String.eqb_eq in H; subst; split; auto; discriminate.
  - destruct t; cbn in *; auto; try (apply Z.eqb_eq; exact H);
      destruct H as [H ->]; destruct n; try congruence; apply String.eqb_refl.
Qed.
Lemma find_from_ok : forall l t n v z, 
  (exists k i, find_list_from (ilist l) t n v z = z + Z.of_nat k /\ nth_error l k = Some i /\ same_item t n v i /\
     forall k' i', (k' < k)%nat -> nth_error l k' = Some i' -> ~ same_item t n v i') \/
  (find_list_from (ilist l) t n v z = -1 /\ forall i, In i l -> ~ same_item t n v i).
Proof.
  induction l as [|i l IH]; intros t n v z; [right; split; auto|]. cbn [ilist find_list_from].
  pose proof (matches_ok t n v i) as Hm. destruct (item_matches t n v (it_type i) (it_name i) (it_value i)).
  - left. exists O, i. split; [lia|]. split; auto. split; [apply Hm; auto|]. intros; lia.
  - assert (Hn : ~ same_item t n v i) by (intros H; apply Hm in H; discriminate).
    destruct (IH t n v (z + 1)) as [(k & j & H1 & H2 & H3 & H4)|[H1 H2]].
    + left. exists (S k), j. split; [lia|]. split; auto. split; auto.
      intros [|k'] i' Hk E; [cbn in E; congruence|]. apply (H4 k'); auto. lia.
    + right. split; auto. intros j [<-|Hj]; auto.
Qed.
Lemma find_ok : forall l t n v, 
  (exists k i, find_list_item (ilist l) t n v = Z.of_nat k /\ nth_error l k = Some i /\ same_item t n v i /\
     forall k' i', (k' < k)%nat -> nth_error l k' = Some i' -> ~ same_item t n v i') \/
  (find_list_item (ilist l) t n v = -1 /\ forall i, In i l -> ~ same_item t n v i).
Proof. intros. apply (find_from_ok l t n v 0). Qed.
Lemma remove_after_ok : forall l k, (S k < List.length l)%nat ->
  remove_after (ilist l) k = Some (ilist (skipn k (remove_nth (S k) l)), ilist (remove_nth (S k) l)).
Proof.
  induction l as [|i l IH]; intros k H; [cbn in H; lia|]. destruct k as [|k].
  - destruct l as [|j l]; [cbn in H; lia|]. reflexivity.
  - cbn [ilist remove_after]. rewrite IH by (cbn in H; lia). reflexivity.
Qed.
Lemma remove_ok : forall l, l <> [] ->
  remove_list_item (ilist l) 0 = Ok (ilist (tl l), None) /\
  forall k, (0 < k < List.length l)%nat ->
    remove_list_item (ilist l) (Z.of_nat k) =
      Ok (ilist (skipn (k - 1) (remove_nth k l)), Some (ilist (remove_nth k l))).
Proof.
  intros l H. destruct l as [|i l]; [congruence|]. split.
  - unfold remove_list_item. cbn [ilist]. rewrite (proj2 (Z.leb_gt _ _)) by (cbn [tree_size]; lia). reflexivity.
  - intros k Hk. unfold remove_list_item. rewrite ilist_size. cbn [ilist].
    rewrite (proj2 (Z.ltb_ge _ _)), (proj2 (Z.leb_gt _ _)) by lia.
    rewrite (proj2 (Z.eqb_neq (Z.of_nat k) 0)) by lia. rewrite (proj2 (Z.eqb_neq (Z.of_nat k) (-1))) by lia.
    cbn [orb andb]. rewrite andb_false_r.
    replace (Z.to_nat (Z.of_nat k - 1)) with (k - 1)%nat by lia.
    change (pnd (it_type i) (it_name i) (it_value i) (ilist l) NULL) with (ilist (i :: l)).
    rewrite remove_after_ok by lia. replace (S (k - 1)) with k by lia. reflexivity.
Qed.
Lemma remove_last : forall l, (1 < List.length l)%nat ->
  remove_list_item (ilist l) (-1) = remove_list_item (ilist l) (Z.of_nat (List.length l - 1)).
Proof.
  intros [|i [|j l]] H; try (cbn in H; lia).
  unfold remove_list_item. rewrite !ilist_size. cbn [ilist]. set (n := List.length (i :: j :: l)) in *.
  rewrite (proj2 (Z.ltb_ge (-1) (-1))), (proj2 (Z.leb_gt (Z.of_nat n) (-1))) by lia.
  rewrite (proj2 (Z.ltb_ge (Z.of_nat (n - 1)) (-1))), (proj2 (Z.leb_gt (Z.of_nat n) (Z.of_nat (n - 1)))) by lia.
  rewrite (proj2 (Z.eqb_neq (Z.of_nat (n - 1)) 0)) by lia.
  rewrite (proj2 (Z.eqb_neq (Z.of_nat (n - 1)) (-1))) by lia.
  rewrite (proj2 (Z.eqb_neq (Z.of_nat n) 1)) by lia. cbn [orb andb Z.eqb].
  change (-1 =? -1) with true. cbn iota.
  replace (Z.of_nat (n - 1)) with (Z.of_nat n - 1) by lia. reflexivity.
Qed.
Lemma remove_last_single : forall i, remove_list_item (ilist [i]) (-1) = Ok (NULL, None).
Proof. intros. reflexivity. Qed.
Lemma remove_invalid : forall l z, z < -1 \/ Z.of_nat (List.length l) <= z ->
  remove_list_item (ilist l) z = Ok (NULL, Some (ilist l)).
Proof.
  intros [|i l] z H; auto. unfold remove_list_item. rewrite ilist_size. cbn [ilist].
  replace ((z <? -1) || (Z.of_nat (List.length (i :: l)) <=? z)) with true; auto.
  symmetry. apply orb_true_iff. rewrite Z.ltb_lt, Z.leb_le. tauto.
Qed.

(** ** Extreme values *)
Section Ext.
  Variable sel : Z -> Z -> bool.
  Variable le : Z -> Z -> Prop.
  Hypothesis le_refl : forall a, le a a.
  Hypothesis le_trans : forall a b c, le a b -> le b c -> le a c.
  Hypothesis sel_t : forall a b, sel a b = true -> le a b.
  Hypothesis sel_f : forall a b, sel a b = false -> le b a.
  Lemma combine_ok : forall l1 l2 m1 m2, ~ In noval l1 -> ~ In noval l2 ->
    best_of le l1 m1 -> best_of le l2 m2 -> best_of le (l1 ++ l2) (combine sel m1 m2).
  Proof.
    intros l1 l2 m1 m2 N1 N2 H1 H2. unfold combine.
    destruct H1 as [[-> ->]|[I1 L1]].
    - cbn [app]. rewrite (Z.eqb_refl noval). cbn [negb]. rewrite andb_false_r.
      destruct (Z.eqb_spec m2 noval) as [->|E]; cbn [negb]; auto.
    - destruct (Z.eqb_spec m1 noval) as [->|E1]; [tauto|]. cbn [negb]. rewrite andb_true_r.
      destruct H2 as [[-> ->]|[I2 L2]].
      + rewrite Z.eqb_refl. cbn [negb]. rewrite app_nil_r. right. split; auto.
      + destruct (Z.eqb_spec m2 noval) as [->|E2]; [tauto|]. cbn [negb]. right.
        destruct (sel m2 m1) eqn:Es; (split; [apply in_or_app; auto|]); intros x Hx; apply in_app_or in Hx;
          destruct Hx as [Hx|Hx]; auto.
        * apply (le_trans _ m1); auto.
        * apply (le_trans _ m2); auto.
  Qed.
  Lemma ext_ok : forall t, ~ In noval (consts t) -> best_of le (consts t) (ext_tree_value sel t).
  Proof.
    induction t as [|ty n v l IHl r IHr]; intros H; [left; auto|].
    cbn [consts ext_tree_value] in *. rewrite !in_app_iff in H.
    rewrite app_assoc. apply combine_ok; [rewrite in_app_iff; tauto|tauto| |apply IHr; tauto].
    apply combine_ok; [tauto|tauto| |apply IHl; tauto].
    destruct ty; cbn; try (left; auto; fail). right. split; [left; auto|]. intros x [<-|[]]. auto.
  Qed.
  Lemma rext_ok : forall name f, ~ In noval (eq_consts name f) -> exists m,
    rext_tree_value sel name (tree_of f) = Ok m /\ best_of le (eq_consts name f) m.
  Proof.
    intros name f. 
    assert (Hb : forall l1 l2 m1 m2, ~ In noval (l1 ++ l2) -> best_of le l1 m1 -> best_of le l2 m2 ->
      best_of le (l1 ++ l2) (combine sel (combine sel noval m1) m2)).
    { intros l1 l2 m1 m2 H H1 H2. rewrite in_app_iff in H. apply combine_ok; try tauto.
      apply (combine_ok [] l1); try tauto. left; auto. }
    induction f; intros H; try (exists noval; split; [reflexivity|left; auto]; fail);
      try (cbn [eq_consts] in H; destruct IHf1 as (m1 & E1 & B1); [rewrite in_app_iff in H; tauto|];
           destruct IHf2 as (m2 & E2 & B2); [rewrite in_app_iff in H; tauto|];
           eexists; split; [cbn [tree_of binop rext_tree_value]; rewrite E1, E2; reflexivity|]; apply Hb; auto; fail).
    - cbn [eq_consts tree_of] in *. exists (if String.prefix name x then match o with CEq => k | _ => noval end else noval).
      destruct o; try (split; [destruct primed; cbn; destruct (String.prefix name x); reflexivity|]; destruct (String.prefix name x); left; auto; fail).
      split.
      + cbn. destruct primed; cbn; destruct (String.prefix name x); cbn; reflexivity.
      + destruct (String.prefix name x); [right; split; [left; auto|intros z [<-|[]]; auto]|left; auto].
    - cbn [eq_consts] in H. destruct (IHf H) as (m & E & B).
      exists (combine sel (combine sel noval noval) m). split; [cbn [tree_of binop rext_tree_value]; rewrite E; reflexivity|].
      apply (Hb [] (eq_consts name f)); auto. left; auto.
  Qed.
End Ext.

(** ** Copying *)
Lemma copy_ok : forall t, canonical t -> copy_ptree t = t.
Proof.
  induction t as [|ty n v l IHl r IHr]; cbn [canonical copy_ptree]; auto. intros (H & Hl & Hr).
  rewrite IHl, IHr by auto. destruct ty; cbn; try destruct H as [-> ->]; try subst n; reflexivity.
Qed.
Lemma tree_of_canonical : forall f, canonical (tree_of f).
Proof. induction f; cbn; auto; try (destruct primed; cbn; destruct o; cbn; auto; fail); repeat split; auto. Qed.
Lemma vlist_canonical : forall vs, canonical (vlist vs).
Proof. induction vs as [|[x d] vs IH]; cbn; auto. Qed.
Lemma init_canonical : forall t n v l r, canonical l -> canonical r ->
  canonical (set_right (set_left (init_ptree t n v) l) r).
Proof. intros [] n v l r Hl Hr; cbn; auto. Qed.

(** ** check_vars *)
Lemma scan_ok : forall x vs, scan_name x (vlist vs) = Ok (if in_dec string_dec x (names vs) then true else false).
Proof.
  induction vs as [|[y d] vs IH]; auto. cbn [vlist scan_name strcmp0 bind names map fst].
  destruct (String.eqb_spec y x) as [->|E].
  - destruct (in_dec string_dec x (x :: map fst vs)) as [|n]; auto. exfalso. apply n. left; auto.
  - rewrite IH. destruct (in_dec string_dec x (names vs)) as [i|n];
      destruct (in_dec string_dec x (y :: map fst vs)) as [i'|n']; auto.
    + exfalso. apply n'. right. exact i.
    + exfalso. destruct i' as [->|i']; auto.
Qed.
Lemma leaf_check : forall (p : bool) x vs ws, exists b,
  check_vars (leaf_var p x) (vlist vs) (vlist ws) = Ok b /\
  b = (if in_dec string_dec x (names (if p then ws else vs)) then None
       else Some (if p then (x ++ "'")%string else x)).
Proof.
  intros p x vs ws. eexists. split; [|reflexivity]. destruct p; cbn [leaf_var check_vars isvar ty_eqb];
    change (ty_eqb PT_NEXT_VARIABLE PT_VARIABLE) with false; change (ty_eqb PT_VARIABLE PT_VARIABLE) with true;
    cbn iota; rewrite scan_ok; cbn [bind]; destruct (in_dec string_dec x _); reflexivity.
Qed.
Lemma check_ok : forall f vs ws, exists b, check_vars (tree_of f) (vlist vs) (vlist ws) = Ok b /\
  match b with
  | None => incl (fvars f) (names vs) /\ incl (fnexts f) (names ws)
  | Some w => offends f vs ws w
  end.
Proof.
  intros f vs ws.
  assert (Hbin : forall t l r, isvar t = false -> 
    forall bl br, check_vars l (vlist vs) (vlist ws) = Ok bl -> check_vars r (vlist vs) (vlist ws) = Ok br ->
    check_vars (binop t l r) (vlist vs) (vlist ws) = Ok (match bl with Some x => Some x | None => br end)).
  { intros t l r Ht bl br El Er. unfold binop. cbn [check_vars]. rewrite Ht, El, Er. cbn [bind]. destruct bl; auto. }
  assert (Hcomb : forall f1 f2 bl br, 
    (match bl with None => incl (fvars f1) (names vs) /\ incl (fnexts f1) (names ws) | Some w => offends f1 vs ws w end) ->
    (match br with None => incl (fvars f2) (names vs) /\ incl (fnexts f2) (names ws) | Some w => offends f2 vs ws w end) ->
    match (match bl with Some x => Some x | None => br end) with
    | None => incl (fvars f1 ++ fvars f2) (names vs) /\ incl (fnexts f1 ++ fnexts f2) (names ws)
    | Some w => offends (FAnd f1 f2) vs ws w
    end).
  { intros f1 f2 [w|] br H1 H2.
    - destruct H1 as [[H1 H3]|(x & -> & H1 & H3)]; [left|right; exists x]; cbn [fvars fnexts]; rewrite ?in_app_iff; auto.
    - destruct br as [w|].
      + destruct H2 as [[H2 H3]|(x & -> & H2 & H3)]; [left|right; exists x]; cbn [fvars fnexts]; rewrite ?in_app_iff; auto.
      + destruct H1, H2. split; apply incl_app; auto. }
  induction f.
  - exists None. split; [reflexivity|]. split; intros z [].
  - exists None. split; [reflexivity|]. split; intros z [].
  - destruct (leaf_check false x vs ws) as (b & E & ->). exists (if in_dec string_dec x (names vs) then None else Some x).
    split; [exact E|]. destruct (in_dec string_dec x (names vs)) as [i|n].
    + split; [intros z [<-|[]]; auto|intros z []].
    + left. split; [left; auto|auto].
  - destruct (leaf_check true x vs ws) as (b & E & ->).
    exists (if in_dec string_dec x (names ws) then None else Some (x ++ "'")%string).
    split; [exact E|]. destruct (in_dec string_dec x (names ws)) as [i|n].
    + split; [intros z []|intros z [<-|[]]; auto].
    + right. exists x. split; auto. split; [left; auto|auto].
  - destruct (leaf_check primed x vs ws) as (b & E & ->). cbn [tree_of].
    eexists. split; [apply Hbin; [destruct o; reflexivity|exact E|reflexivity]|].
    destruct primed; cbn [fvars fnexts].
    + destruct (in_dec string_dec x (names ws)) as [i|n].
      * split; [intros z []|intros z [<-|[]]; auto].
      * right. exists x. split; auto. split; [left; auto|auto].
    + destruct (in_dec string_dec x (names vs)) as [i|n].
      * split; [intros z [<-|[]]; auto|intros z []].
      * left. split; [left; auto|auto].
  - destruct IHf as (b & E & H). exists b. split; [|exact H]. cbn [tree_of]. unfold binop. cbn [check_vars isvar bind].
    exact E.
  - destruct IHf1 as (b1 & E1 & H1), IHf2 as (b2 & E2 & H2). eexists. split; [apply Hbin; [reflexivity|exact E1|exact E2]|].
    apply Hcomb; auto.
  - destruct IHf1 as (b1 & E1 & H1), IHf2 as (b2 & E2 & H2). eexists. split; [apply Hbin; [reflexivity|exact E1|exact E2]|].
    apply (Hcomb f1 f2); auto.
  - destruct IHf1 as (b1 & E1 & H1), IHf2 as (b2 & E2 & H2). eexists. split; [apply Hbin; [reflexivity|exact E1|exact E2]|].
    apply (Hcomb f1 f2); auto.
  - destruct IHf1 as (b1 & E1 & H1), IHf2 as (b2 & E2 & H2). eexists. split; [apply Hbin; [reflexivity|exact E1|exact E2]|].
    apply (Hcomb f1 f2); auto.
Qed.

(** ** The form check *)
Lemma offends_not : forall f vs ws w, offends f vs ws w -> ~ scoped_in vs ws f.
Proof. intros f vs ws w [[H1 H2]|(x & _ & H1 & H2)] [H3 H4]; auto. Qed.
Lemma scoped_same : forall vs vs' ws ws' f, (forall x, In x (names vs) <-> In x (names vs')) ->
  (forall x, In x (names ws) <-> In x (names ws')) -> scoped_in vs ws f <-> scoped_in vs' ws' f.
Proof.
  intros vs vs' ws ws' f H1 H2. split; intros [H3 H4]; split; intros x Hx;
    try (apply H1; apply H3; auto; fail); apply H2; apply H4; auto.
Qed.
Lemma bad_init_ok : forall o vs, exists b, bad_init (opt_tree o) (vlist vs) = Ok b /\
  (b = false <-> opt_all (scoped_in vs []) o).
Proof.
  intros [f|] vs; unfold bad_init; cbn [opt_tree].
  - destruct (check_ok f vs []) as (b & E & H). cbn [vlist] in E. rewrite E. cbn [bind].
    destruct b as [w|]; [exists true|exists false]; (split; [reflexivity|]); cbn [opt_all].
    + split; [discriminate|]. intros Hs. destruct (offends_not _ _ _ _ H Hs).
    + split; auto.
  - exists false. split; [reflexivity|]. split; auto. intros _. exact I.
Qed.
Lemma any_bad_ok : forall l vs ws, exists b, any_bad (map tree_of l) (vlist vs) (vlist ws) = Ok b /\
  (b = false <-> forall f, In f l -> scoped_in vs ws f).
Proof.
  induction l as [|f l IH]; intros vs ws; [exists false; split; [reflexivity|]; split; auto; intros _ f []|].
  cbn [map any_bad]. destruct (check_ok f vs ws) as (b & E & H). rewrite E. cbn [bind]. destruct b as [w|].
  - exists true. split; auto. split; [discriminate|]. intros Hs.
    destruct (offends_not _ _ _ _ H (Hs f (or_introl eq_refl))).
  - destruct (IH vs ws) as (b & E2 & H2). exists b. split; auto. rewrite H2. split.
    + intros Hs g [<-|Hg]; auto.
    + intros Hs g Hg. apply Hs. right; auto.
Qed.
Lemma guard_ok : forall (bad : out bool) b s k P, bad = Ok b -> (b = false <-> P) ->
  (guard bad s k = k /\ P) \/ (guard bad s k = Ok (-1, s) /\ ~ P).
Proof.
  intros bad b s k P -> H. unfold guard. cbn [bind]. destruct b.
  - right. split; auto. intros HP. apply H in HP. discriminate.
  - left. split; auto. apply H. auto.
Qed.
Lemma form_check_ok : forall flags R,
  (form_ok flags R /\ check_gr1c_form (raw_of R) flags = Ok (0, vlist (rs_svars R))) \/
  (~ form_ok flags R /\ exists s, check_gr1c_form (raw_of R) flags = Ok (-1, s) /\
     (s = vlist (rs_svars R) \/ s = vlist (rs_svars R ++ rs_evars R))).
Proof.
  intros flags R. unfold check_gr1c_form.
  cbn [raw_of r_evars r_svars r_einit r_sinit r_etrans r_strans r_egoals r_sgoals].
  rewrite !tree_size_vlist.
  destruct ((List.length (rs_evars R) =? 0)%nat && (List.length (rs_svars R) =? 0)%nat) eqn:E0.
  { right. apply andb_true_iff in E0. destruct E0 as [E1 E2]. apply Nat.eqb_eq, length_zero_iff_nil in E1.
    apply Nat.eqb_eq, length_zero_iff_nil in E2. split; [|eauto].
    intros [H _]. apply H. unfold rs_vars. rewrite E1, E2. reflexivity. }
  assert (Hne : rs_vars R <> []).
  { intros H. unfold rs_vars in H. apply app_eq_nil in H. destruct H as [H1 H2]. rewrite H1, H2 in E0. discriminate E0. }
  assert (Hb : match vlist (rs_svars R) with NULL => vlist (rs_evars R) | _ => link (vlist (rs_svars R)) (vlist (rs_evars R)) end
    = vlist (rs_svars R ++ rs_evars R)).
  { rewrite link_vlist. destruct (rs_svars R) as [|[x d] l]; reflexivity. }
  rewrite Hb. set (seen := match vlist (rs_svars R) with NULL => NULL | _ => vlist (rs_svars R ++ rs_evars R) end).
  assert (Hseen : seen = vlist (rs_svars R) \/ seen = vlist (rs_svars R ++ rs_evars R)).
  { unfold seen. destruct (vlist (rs_svars R)) eqn:E; auto. }
  assert (Hin : forall x, In x (names (rs_svars R ++ rs_evars R)) <-> In x (names (rs_vars R))).
  { intros x. unfold rs_vars, names. rewrite !map_app, !in_app_iff. tauto. }
  assert (Hio : forall o, opt_all (scoped_in (rs_svars R ++ rs_evars R) []) o <-> opt_all (scoped_in (rs_vars R) []) o).
  { intros [f|]; cbn [opt_all]; [apply scoped_same; auto; tauto|tauto]. }
  assert (Hil : forall ws ws' l, (forall x, In x (names ws) <-> In x (names ws')) ->
    ((forall f, In f l -> scoped_in (rs_svars R ++ rs_evars R) ws f) <->
    (forall f, In f l -> scoped_in (rs_vars R) ws' f))).
  { intros ws ws' l Hw. split; intros H f Hf; apply (scoped_same (rs_svars R ++ rs_evars R) (rs_vars R) ws ws'); auto. }
  set (both := rs_svars R ++ rs_evars R) in *.
  set (rest := guard (bad_init (opt_tree (rs_einit R)) (vlist both)) seen _).
  set (body := opt_all (scoped_in (rs_vars R) []) (rs_einit R) /\ opt_all (scoped_in (rs_vars R) []) (rs_sinit R) /\
    (forall f, In f (rs_etrans R) -> scoped_in (rs_vars R) (rs_evars R) f) /\
    (forall f, In f (rs_strans R) -> scoped_in (rs_vars R) (rs_vars R) f) /\
    (forall f, In f (rs_egoals R) -> scoped_in (rs_vars R) [] f) /\
    (forall f, In f (rs_sgoals R) -> scoped_in (rs_vars R) [] f)).
  assert (HR : (rest = Ok (0, vlist (rs_svars R)) /\ body) \/ (rest = Ok (-1, seen) /\ ~ body)).
  { unfold rest, body.
    destruct (bad_init_ok (rs_einit R) both) as (b1 & E1 & P1). rewrite Hio in P1.
    destruct (bad_init_ok (rs_sinit R) both) as (b2 & E2 & P2). rewrite Hio in P2.
    destruct (any_bad_ok (rs_etrans R) both (rs_evars R)) as (b3 & E3 & P3).
    rewrite (Hil _ (rs_evars R)) in P3 by tauto.
    destruct (any_bad_ok (rs_strans R) both both) as (b4 & E4 & P4).
    rewrite (Hil _ (rs_vars R)) in P4 by auto.
    destruct (any_bad_ok (rs_egoals R) both []) as (b5 & E5 & P5).
    rewrite (Hil _ []) in P5 by tauto.
    destruct (any_bad_ok (rs_sgoals R) both []) as (b6 & E6 & P6).
    rewrite (Hil _ []) in P6 by tauto. cbn [vlist] in E5, E6.
    match goal with |- (guard ?b ?s ?k = _ /\ _) \/ _ => destruct (guard_ok b _ s k _ E1 P1) as [[-> Q1]|[-> Q1]] end; [|right; tauto].
    match goal with |- (guard ?b ?s ?k = _ /\ _) \/ _ => destruct (guard_ok b _ s k _ E2 P2) as [[-> Q2]|[-> Q2]] end; [|right; tauto].
    match goal with |- (guard ?b ?s ?k = _ /\ _) \/ _ => destruct (guard_ok b _ s k _ E3 P3) as [[-> Q3]|[-> Q3]] end; [|right; tauto].
    match goal with |- (guard ?b ?s ?k = _ /\ _) \/ _ => destruct (guard_ok b _ s k _ E4 P4) as [[-> Q4]|[-> Q4]] end; [|right; tauto].
    match goal with |- (guard ?b ?s ?k = _ /\ _) \/ _ => destruct (guard_ok b _ s k _ E5 P5) as [[-> Q5]|[-> Q5]] end; [|right; tauto].
    match goal with |- (guard ?b ?s ?k = _ /\ _) \/ _ => destruct (guard_ok b _ s k _ E6 P6) as [[-> Q6]|[-> Q6]] end; [|right; tauto].
    left. tauto. }
  unfold form_ok. fold body.
  destruct flags.
  - destruct HR as [[-> HR]|[-> HR]]; [left|right]; (split; [|eauto]); [|tauto].
    split; auto. split; [discriminate|]. split; [discriminate|auto].
  - destruct (bad_init_ok (rs_einit R) (rs_evars R)) as (b1 & E1 & P1).
    destruct (bad_init_ok (rs_sinit R) (rs_svars R)) as (b2 & E2 & P2).
    match goal with |- context [guard (bad_init _ (vlist (rs_evars R))) ?s ?k] => destruct (guard_ok _ _ s k _ E1 P1) as [[-> Q1]|[-> Q1]] end.
    2:{ right. split; [intros (_ & H & _); apply Q1; apply H; auto|eauto]. }
    match goal with |- context [guard (bad_init _ (vlist (rs_svars R))) ?s ?k] => destruct (guard_ok _ _ s k _ E2 P2) as [[-> Q2]|[-> Q2]] end.
    2:{ right. split; [intros (_ & H & _); apply Q2; apply H; auto|eauto]. }
    destruct HR as [[-> HR]|[-> HR]]; [left|right]; (split; [|eauto]); [|tauto].
    split; auto. split; [auto|]. split; [discriminate|auto].
  - destruct HR as [[-> HR]|[-> HR]]; [left|right]; (split; [|eauto]); [|tauto].
    split; auto. split; [discriminate|]. split; [discriminate|auto].
  - rewrite !is_null_opt.
    assert (Hc : (match rs_einit R with None => true | _ => false end || match rs_sinit R with None => true | _ => false end = true) <->
      (rs_einit R = None \/ rs_sinit R = None)).
    { destruct (rs_einit R), (rs_sinit R); cbn; split; auto; try discriminate; intros [H|H]; discriminate H. }
    destruct (match rs_einit R with None => true | _ => false end), (match rs_sinit R with None => true | _ => false end);
      cbn [negb andb orb] in *;
      try (destruct HR as [[-> HR]|[-> HR]]; [left|right]; (split; [|eauto]); [|tauto];
           split; auto; split; [discriminate|]; split; [intros _; apply Hc; auto|auto]; fail).
    right. split; [|eauto]. intros (_ & _ & H & _). specialize (H eq_refl). apply Hc in H. discriminate H.
Qed.
Lemma conj_scoped : forall l vs ws, (forall f, In f l -> scoped_in vs ws f) ->
  scoped_in vs ws (RSpec.conj l).
Proof.
  induction l as [|f l IH]; intros vs ws H.
  - split; intros x [].
  - destruct (IH vs ws) as [H1 H2]; [intros; apply H; right; auto|].
    destruct (H f (or_introl eq_refl)) as [H3 H4]. unfold RSpec.conj in *. cbn [fold_right].
    split; cbn [fvars fnexts]; intros x Hx; apply in_app_iff in Hx; destruct Hx; auto.
Qed.
Lemma scoped_state : forall R f, scoped_in (rs_vars R) [] f -> state_form (fspec_of R) f.
Proof.
  intros R f [H1 H2]. split; [exact H1|]. destruct (fnexts f) as [|x l]; auto. destruct (H2 x (or_introl eq_refl)).
Qed.
Lemma form_ok_scoped : forall flags R, form_ok flags R -> well_scoped (fspec_of R).
Proof.
  intros flags R (_ & _ & _ & H1 & H2 & H3 & H4 & H5 & H6). unfold well_scoped.
  split; [|split; [|split; [|split; [|split]]]].
  - cbn [fspec_of fs_einit]. destruct (rs_einit R); cbn in *; auto. apply scoped_state; auto.
  - cbn [fspec_of fs_sinit]. destruct (rs_sinit R); cbn in *; auto. apply scoped_state; auto.
  - apply (conj_scoped _ _ _ H3).
  - apply (conj_scoped _ _ _ H4).
  - intros f Hf. apply scoped_state, H5, Hf.
  - intros f Hf. apply scoped_state, H6, Hf.
Qed.

Lemma prefix_refl : forall x, String.prefix x x = true.
Proof. induction x as [|a x IH]; auto. cbn. destruct (Ascii.ascii_dec a a); congruence. Qed.
Lemma own_ok : forall name f, (forall y, In y (fvars f) \/ In y (fnexts f) -> String.prefix name y = true -> y = name) ->
  eq_consts name f = own_consts name f.
Proof.
  intros name. induction f; intros H; cbn [eq_consts own_consts fvars fnexts] in *; auto;
    try (rewrite IHf1, IHf2; auto; intros; apply H; auto; rewrite !in_app_iff; tauto).
  destruct o; auto. destruct (String.eqb_spec x name) as [->|E]; [rewrite prefix_refl; auto|].
  destruct (String.prefix name x) eqn:Ep; auto. exfalso. apply E, H; auto.
  destruct primed; cbn; auto.
Qed.

(** ** Both orders *)
Lemma min_ok : forall t, ~ In noval (consts t) -> best_of Z.le (consts t) (min_tree_value t).
Proof. apply ext_ok; intros; lia. Qed.
Lemma max_ok : forall t, ~ In noval (consts t) -> best_of Z.ge (consts t) (max_tree_value t).
Proof. apply ext_ok; intros; lia. Qed.
Lemma rmin_ok : forall name f, ~ In noval (eq_consts name f) -> exists m,
  rmin_tree_value name (tree_of f) = Ok m /\ best_of Z.le (eq_consts name f) m.
Proof. apply rext_ok; intros; lia. Qed.
Lemma rmax_ok : forall name f, ~ In noval (eq_consts name f) -> exists m,
  rmax_tree_value name (tree_of f) = Ok m /\ best_of Z.ge (eq_consts name f) m.
Proof. apply rext_ok; intros; lia. Qed.
