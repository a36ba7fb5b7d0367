(** Proofs about expand_to_bool, var_to_bool, unreach_expanded_bool. *)
From Coq Require Import List ZArith Lia Bool Arith String.
From Verif Require Import Base Bdd Strs Ptree Form PtreeProofs.
Import ListNotations.
Open Scope string_scope.
Open Scope list_scope.
Open Scope Z_scope.

(** ** Sequences *)
Lemma zseq_from_In : forall k lo i, In i (zseq_from lo k) <-> lo <= i < lo + Z.of_nat k.
Proof.
  induction k; intros lo i.
  - simpl. lia.
  - cbn [zseq_from In]. rewrite IHk. lia.
Qed.
Lemma zseq_In : forall lo hi i, In i (zseq lo hi) <-> lo <= i <= hi.
Proof. intros. unfold zseq. rewrite zseq_from_In. lia. Qed.
Lemma zseq_nil : forall lo hi, hi < lo -> zseq lo hi = [].
Proof. intros. unfold zseq. replace (Z.to_nat (hi - lo + 1)) with O by lia. reflexivity. Qed.
Lemma zseq_cons : forall lo hi, lo <= hi -> zseq lo hi = lo :: zseq (lo + 1) hi.
Proof.
  intros. unfold zseq. replace (Z.to_nat (hi - lo + 1)) with (S (Z.to_nat (hi - (lo + 1) + 1))) by lia.
  reflexivity.
Qed.
Lemma zseq_from_length : forall k lo, List.length (zseq_from lo k) = k.
Proof. induction k; simpl; auto. Qed.
Lemma zseq_from_app : forall j k lo, zseq_from lo (j + k) = zseq_from lo j ++ zseq_from (lo + Z.of_nat j) k.
Proof.
  induction j; intros k lo.
  - simpl. rewrite Z.add_0_r. reflexivity.
  - cbn [plus zseq_from]. rewrite IHj. cbn [app]. do 3 f_equal. lia.
Qed.
Lemma zseq_from_nth : forall k lo i, (i < k)%nat -> nth i (zseq_from lo k) 0 = lo + Z.of_nat i.
Proof.
  induction k; intros lo i Hi; [lia|]. destruct i; cbn [zseq_from nth]; [lia|].
  rewrite IHk by lia. lia.
Qed.
Lemma zseq_from_NoDup : forall k lo, NoDup (zseq_from lo k).
Proof.
  induction k; intros lo; [constructor|]. cbn [zseq_from]. constructor; auto.
  rewrite zseq_from_In. lia.
Qed.
Lemma zseq_NoDup : forall lo hi, NoDup (zseq lo hi).
Proof. intros. apply zseq_from_NoDup. Qed.

(** ** Bits *)
(** number of bits used for the domain 0..d *)
Definition nbits (d : Z) : Z := if 0 <? d then ceil_log2 (d + 1) else 1.
Lemma nbits_pos : forall d, 0 <= d -> 1 <= nbits d.
Proof.
  intros d H. unfold nbits. destruct (0 <? d) eqn:E; [|lia]. apply Z.ltb_lt in E.
  unfold ceil_log2. assert (0 < Z.log2_up (d + 1)) by (apply Z.log2_up_pos; lia). lia.
Qed.
Lemma nbits_bound : forall d, 0 <= d -> d < 2 ^ nbits d.
Proof.
  intros d H. unfold nbits. destruct (0 <? d) eqn:E.
  - apply Z.ltb_lt in E. unfold ceil_log2.
    pose proof (proj2 (Z.log2_up_spec (d + 1) ltac:(lia))). lia.
  - apply Z.ltb_ge in E. simpl. lia.
Qed.
Lemma testbit_ext : forall n a b, 0 <= n -> 0 <= a < 2 ^ n -> 0 <= b < 2 ^ n ->
  (forall i, 0 <= i < n -> Z.testbit a i = Z.testbit b i) -> a = b.
Proof.
  intros n a b Hn Ha Hb H. apply Z.bits_inj'. intros i Hi.
  destruct (Z.lt_ge_cases i n).
  - apply H. lia.
  - destruct (Z.eq_dec a 0) as [->|Ha0], (Z.eq_dec b 0) as [->|Hb0]; rewrite ?Z.bits_0; auto.
    + symmetry. apply Z.bits_above_log2; [lia|]. apply Z.log2_lt_pow2; [lia|].
      apply Z.lt_le_trans with (2 ^ n); [lia|]. apply Z.pow_le_mono_r; lia.
    + apply Z.bits_above_log2; [lia|]. apply Z.log2_lt_pow2; [lia|].
      apply Z.lt_le_trans with (2 ^ n); [lia|]. apply Z.pow_le_mono_r; lia.
    + rewrite !Z.bits_above_log2; auto; try lia; apply Z.log2_lt_pow2; try lia;
        (apply Z.lt_le_trans with (2 ^ n); [lia|]; apply Z.pow_le_mono_r; lia).
Qed.

(** ** Variable lists *)
Lemma append_vlist : forall vs x v,
  append_list_item (vlist vs) PT_VARIABLE (Some x) v = vlist (vs ++ [(x, v)]).
Proof. induction vs as [|[y w] vs IH]; intros; simpl; auto. rewrite IH. reflexivity. Qed.
Lemma append_fold : forall (h : Z -> string) l vs,
  fold_left (fun hd i => append_list_item hd PT_VARIABLE (Some (h i)) 0) l (vlist vs) =
  vlist (vs ++ map (fun i => (h i, 0)) l).
Proof.
  induction l as [|i l IH]; intros vs; simpl.
  - rewrite app_nil_r. reflexivity.
  - rewrite append_vlist, IH, <- app_assoc. reflexivity.
Qed.
(** the bits of a variable *)
Definition bit_names (x : string) (d : Z) : list string := map (varname x) (zseq 0 (nbits d - 1)).
Lemma var_to_bool_eq : forall x d, 0 <= d ->
  var_to_bool x d = vlist (map (fun y => (y, 0)) (bit_names x d)).
Proof.
  intros x d Hd. unfold var_to_bool. rewrite (proj2 (Z.ltb_ge d 0)) by lia.
  change (init_ptree PT_VARIABLE (Some (varname x 0)) 0) with (vlist [(varname x 0, 0)]).
  rewrite (append_fold (varname x)). f_equal. unfold bit_names. rewrite map_map.
  pose proof (nbits_pos d Hd). rewrite (zseq_cons 0 (nbits d - 1)) by lia.
  cbn [map app]. f_equal. replace (0 + 1) with 1 by lia. f_equal.
  unfold nbits. destruct (0 <? d) eqn:E; auto.
  apply Z.ltb_ge in E. assert (d = 0) by lia. subst. reflexivity.
Qed.
Lemma nth_item_vlist : forall vs i, nth_item (vlist vs) i = vlist (skipn i vs).
Proof.
  induction vs as [|[y w] vs IH]; intros [|i]; simpl; auto.
Qed.
Lemma get_item_vlist : forall vs i, 0 <= i -> get_list_item (vlist vs) i = vlist (skipn (Z.to_nat i) vs).
Proof.
  intros vs i Hi. unfold get_list_item.
  destruct vs as [|[y w] vs]; [destruct (Z.to_nat i); reflexivity|].
  simpl vlist. rewrite (proj2 (Z.ltb_ge i (-1))) by lia.
  rewrite (proj2 (Z.eqb_neq i (-1))) by lia.
  rewrite <- nth_item_vlist. reflexivity.
Qed.
Lemma skipn_nth : forall A (l : list A) (i : nat) a, (i < List.length l)%nat ->
  skipn i l = nth i l a :: skipn (S i) l.
Proof. induction l; intros i a' H; simpl in *; [lia|]. destruct i; auto. apply IHl. lia. Qed.

Lemma map_out_ok : forall A B (f : A -> out B) (g : A -> B) l,
  (forall x, In x l -> f x = Ok (g x)) -> map_out f l = Ok (map g l).
Proof.
  induction l as [|x l IH]; intros H; simpl; auto.
  rewrite (H x) by (left; auto). cbn [bind]. rewrite IH by (intros; apply H; right; auto).
  reflexivity.
Qed.

Section Expand.
  Variable x : string.
  Variable d : Z.
  Hypothesis Hd : 0 <= d.

  Definition V (p : bool) (y : string) : form := if p then FNext y else FVar y.
  Definition lit (p : bool) (k i : Z) : form :=
    if Z.testbit k i then V p (varname x i) else FNot (V p (varname x i)).
  Definition exp_eq (p : bool) (k : Z) : form :=
    if (2 ^ nbits d - 1 <? k) || (k <? 0) then FFalse
    else chain FAnd (lit p k 0) (map (lit p k) (zseq 1 (nbits d - 1))).
  (** the values to which a comparison restricts x *)
  Definition cmp_vals (o : cmpop) (k : Z) : list Z :=
    match o with
    | CEq => [k]
    | CNe => filter (fun i => negb (i =? k)) (zseq 0 d)
    | CLt => zseq 0 (k - 1)
    | CGt => zseq (k + 1) d
    | CLe => zseq 0 k
    | CGe => zseq k d
    end.
  Definition or_list (l : list form) : form :=
    match l with [] => FFalse | f :: r => chain FOr f r end.
  Definition exp_cmp (p : bool) (o : cmpop) (k : Z) : form :=
    match o with
    | CEq => exp_eq p k
    | CNe => if (k <? 0) || (d <? k) then FTrue else or_list (map (exp_eq p) (cmp_vals CNe k))
    | _ => or_list (map (exp_eq p) (cmp_vals o k))
    end.
  Fixpoint expand1 (f : form) : form :=
    match f with
    | FCmp p y o k => if String.eqb y x then exp_cmp p o k else f
    | FNot f => FNot (expand1 f)
    | FAnd f g => FAnd (expand1 f) (expand1 g)
    | FOr f g => FOr (expand1 f) (expand1 g)
    | FImp f g => FImp (expand1 f) (expand1 g)
    | FIff f g => FIff (expand1 f) (expand1 g)
    | _ => f
    end.
  (** [x != 0] with the one-element domain crashes *)
  Fixpoint bad_ne (f : form) : bool :=
    match f with
    | FCmp _ y CNe k => String.eqb y x && (k =? 0) && (d =? 0)
    | FNot f => bad_ne f
    | FAnd f g | FOr f g | FImp f g | FIff f g => bad_ne f || bad_ne g
    | _ => false
    end.

  Lemma bit_literal_ok : forall p k i, 0 <= i < nbits d ->
    bit_literal (var_to_bool x d) p k i = Ok (tree_of (lit p k i)).
  Proof.
    intros p k i Hi. rewrite var_to_bool_eq by auto. unfold bit_literal.
    rewrite get_item_vlist by lia.
    rewrite (skipn_nth _ _ _ ("", 0))
      by (unfold bit_names; rewrite !map_length; unfold zseq; rewrite zseq_from_length; lia).
    unfold bit_names at 1. rewrite map_map.
    rewrite (nth_indep _ _ (varname x 0, 0))
      by (rewrite map_length; unfold zseq; rewrite zseq_from_length; lia).
    rewrite (map_nth (fun i => (varname x i, 0)) _ 0). unfold zseq.
    rewrite zseq_from_nth by lia. rewrite Z2Nat.id by lia. rewrite Z.add_0_l.
    cbn [vlist]. unfold lit. destruct (Z.testbit k i), p; reflexivity.
  Qed.

  (** an equation on x *)
  Lemma etb_eq : forall fuel p k,
    expand_to_bool (S fuel) (tree_of (FCmp p x CEq k)) x d = Ok (tree_of (exp_eq p k)).
  Proof.
    intros fuel p k. cbn [tree_of cmp_ty]. unfold binop, leaf_var, leaf_const.
    cbn [expand_to_bool iscmp]. cbn [bind].
    assert (Ht : ty_eqb (if p then PT_NEXT_VARIABLE else PT_VARIABLE) PT_CONSTANT = false)
      by (destruct p; reflexivity).
    rewrite Ht. cbn [strcmp0 bind]. rewrite String.eqb_refl.
    change (ty_eqb PT_EQUALS PT_EQUALS) with true. cbn iota. cbn [bind].
    fold (nbits d).
    destruct (var_to_bool x d) as [|t n v l r] eqn:E.
    { exfalso. rewrite var_to_bool_eq in E by auto. pose proof (nbits_pos d Hd).
      unfold bit_names in E. rewrite (zseq_cons 0) in E by lia. discriminate E. }
    unfold exp_eq. destruct ((2 ^ nbits d - 1 <? k) || (k <? 0)); auto.
    rewrite (map_out_ok _ _ _ (fun i => tree_of (lit p k i))).
    - cbn [bind]. pose proof (nbits_pos d Hd). rewrite (zseq_cons 0) by lia.
      change (map (fun i => tree_of (lit p k i)) (0 :: zseq (0 + 1) (nbits d - 1)))
        with (tree_of (lit p k 0) :: map (fun i => tree_of (lit p k i)) (zseq 1 (nbits d - 1))).
      rewrite <- (map_map (lit p k) tree_of).
      change (tree_of (lit p k 0) :: map tree_of (map (lit p k) (zseq 1 (nbits d - 1))))
        with (map tree_of (lit p k 0 :: map (lit p k) (zseq 1 (nbits d - 1)))).
      rewrite merge_and. reflexivity.
    - intros i Hi. apply zseq_In in Hi. rewrite <- E.
      replace (negb (ty_eqb (if p then PT_NEXT_VARIABLE else PT_VARIABLE) PT_VARIABLE)) with p
        by (destruct p; reflexivity).
      apply bit_literal_ok. lia.
  Qed.

  Fixpoint height (f : form) : nat :=
    match f with
    | FNot f => S (height f)
    | FAnd f g | FOr f g | FImp f g | FIff f g => S (Nat.max (height f) (height g))
    | FCmp _ _ _ _ => 2%nat
    | _ => 1%nat
    end.
  Definition eq_on (p : bool) (k : Z) : form := FCmp p x CEq k.

  Lemma etb_null : forall fuel, expand_to_bool (S fuel) NULL x d = Ok NULL.
  Proof. reflexivity. Qed.
  Lemma etb_leaf : forall fuel t n v, iscmp t = false -> ty_eqb t PT_EQUALS = false ->
    expand_to_bool (S (S fuel)) (pnd t n v NULL NULL) x d = Ok (pnd t n v NULL NULL).
  Proof. intros fuel t n v H1 H2. simpl. rewrite H1. cbn [bind]. rewrite H2. reflexivity. Qed.
  Lemma etb_bin : forall fuel t l r l' r', iscmp t = false -> ty_eqb t PT_EQUALS = false ->
    expand_to_bool fuel l x d = Ok l' -> expand_to_bool fuel r x d = Ok r' ->
    expand_to_bool (S fuel) (binop t l r) x d = Ok (binop t l' r').
  Proof.
    intros fuel t l r l' r' H1 H2 Hl Hr. unfold binop. cbn [expand_to_bool]. rewrite H1.
    cbn [bind]. rewrite H2. cbn [bind]. rewrite Hl. cbn [bind]. rewrite Hr. reflexivity.
  Qed.

  (** a disjunction of equations *)
  Lemma etb_or : forall p l k0 fuel, (List.length l + 1 <= fuel)%nat ->
    expand_to_bool fuel (tree_of (chain FOr (eq_on p k0) (map (eq_on p) l))) x d =
    Ok (tree_of (chain FOr (exp_eq p k0) (map (exp_eq p) l))).
  Proof.
    intros p l. induction l as [|k l IH] using rev_ind; intros k0 fuel Hf.
    - destruct fuel; [simpl in Hf; lia|]. apply etb_eq.
    - rewrite app_length in Hf. cbn in Hf. destruct fuel; [lia|].
      unfold chain. rewrite !map_app, !fold_left_app.
      change (fold_left FOr (map (eq_on p) l) (eq_on p k0))
        with (chain FOr (eq_on p k0) (map (eq_on p) l)).
      change (fold_left FOr (map (exp_eq p) l) (exp_eq p k0))
        with (chain FOr (exp_eq p k0) (map (exp_eq p) l)).
      cbn [map fold_left tree_of]. apply etb_bin; auto.
      + apply IH. lia.
      + destruct fuel; [lia|]. apply etb_eq.
  Qed.

  Lemma eq_node_tree : forall (p : bool) k, eq_node (if p then PT_NEXT_VARIABLE else PT_VARIABLE) x k
    = tree_of (eq_on p k).
  Proof. intros [] k; reflexivity. Qed.
  Lemma merge_eqs : forall (p : bool) k0 l,
    merge_ptrees (map (eq_node (if p then PT_NEXT_VARIABLE else PT_VARIABLE) x) (k0 :: l)) PT_OR
    = tree_of (chain FOr (eq_on p k0) (map (eq_on p) l)).
  Proof.
    intros. rewrite <- merge_or. f_equal. cbn [map]. rewrite map_map. f_equal.
    - apply eq_node_tree.
    - apply map_ext. intros. apply eq_node_tree.
  Qed.

  Lemma chain_cases : forall op p l k0, 
    (forall f g, exists t, iscmp t = false /\ ty_eqb t PT_EQUALS = false /\
       tree_of (op f g) = binop t (tree_of f) (tree_of g)) ->
    chain op (eq_on p k0) (map (eq_on p) l) = eq_on p k0 \/
    exists f g, chain op (eq_on p k0) (map (eq_on p) l) = op f g.
  Proof.
    intros op p l k0 Hop. destruct l as [|k l] using rev_ind; [left; reflexivity|].
    right. unfold chain. rewrite map_app, fold_left_app. simpl. eauto.
  Qed.

  (** a comparison: rewritten to a disjunction of equations first *)
  Lemma etb_via : forall fuel t l r T, iscmp t = true ->
    expand_nonbool_varnum (binop t l r) x d = Ok T ->
    (forall t' n v l' r', T = pnd t' n v l' r' -> iscmp t' = false) -> T <> NULL ->
    expand_to_bool (S fuel) (binop t l r) x d = expand_to_bool (S fuel) T x d.
  Proof.
    intros fuel t l r T Ht HT Hc Hn. destruct T as [|t' n' v' l' r']; [congruence|].
    specialize (Hc t' n' v' l' r' eq_refl).
    cbn [expand_to_bool]. unfold binop in *. cbn [expand_to_bool]. rewrite Ht, HT, Hc.
    cbn [bind]. reflexivity.
  Qed.
  Lemma varnum_ok : forall (p : bool) o k, o <> CEq ->
    expand_nonbool_varnum (tree_of (FCmp p x o k)) x d =
    Ok (match o with
        | CNe => if (k <? 0) || (d <? k) then init_ptree PT_CONSTANT None 1
                 else merge_ptrees (map (eq_node (if p then PT_NEXT_VARIABLE else PT_VARIABLE) x)
                                      (cmp_vals o k)) PT_OR
        | _ => match cmp_vals o k with
               | [] => init_ptree PT_CONSTANT None 0
               | l => merge_ptrees (map (eq_node (if p then PT_NEXT_VARIABLE else PT_VARIABLE) x) l) PT_OR
               end
        end).
  Proof.
    intros p o k Ho. cbn [tree_of]. unfold expand_nonbool_varnum, binop, leaf_var, leaf_const.
    assert (Hc : iscmp (cmp_ty o) = true) by (destruct o; auto; congruence).
    rewrite Hc. cbn [negb].
    assert (Hv : isvar (if p then PT_NEXT_VARIABLE else PT_VARIABLE) = true) by (destruct p; reflexivity).
    rewrite Hv. change (ty_eqb PT_CONSTANT PT_CONSTANT) with true. cbn [andb strcmp0 bind].
    rewrite String.eqb_refl. cbn [bind negb].
    assert (Ht : ty_eqb (if p then PT_NEXT_VARIABLE else PT_VARIABLE) PT_CONSTANT = false)
      by (destruct p; reflexivity).
    rewrite Ht. f_equal. destruct o; cbn [cmp_ty cmp_vals]; try congruence; auto.
    - destruct (k <=? 0) eqn:E.
      + apply Z.leb_le in E. rewrite zseq_nil by lia. reflexivity.
      + apply Z.leb_gt in E. rewrite (zseq_cons 0) by lia. reflexivity.
    - destruct (d <=? k) eqn:E.
      + apply Z.leb_le in E. rewrite zseq_nil by lia. reflexivity.
      + apply Z.leb_gt in E. rewrite (zseq_cons (k + 1)) by lia. reflexivity.
    - destruct (k <? 0) eqn:E.
      + apply Z.ltb_lt in E. rewrite zseq_nil by lia. reflexivity.
      + apply Z.ltb_ge in E. rewrite (zseq_cons 0) by lia. reflexivity.
    - destruct (d <? k) eqn:E.
      + apply Z.ltb_lt in E. rewrite zseq_nil by lia. reflexivity.
      + apply Z.ltb_ge in E. rewrite (zseq_cons k) by lia. reflexivity.
  Qed.

  Lemma ne_vals_nonempty : forall k, 0 <= k <= d -> ~ (k = 0 /\ d = 0) -> cmp_vals CNe k <> [].
  Proof.
    intros k Hk Hn Hc.
    assert (Hin : exists i, In i (cmp_vals CNe k)).
    { unfold cmp_vals. destruct (Z.eq_dec k 0) as [->|].
      - exists 1. apply filter_In. split; [apply zseq_In; lia|reflexivity].
      - exists 0. apply filter_In. split; [apply zseq_In; lia|].
        apply negb_true_iff, Z.eqb_neq. lia. }
    destruct Hin as [i Hi]. rewrite Hc in Hi. destruct Hi.
  Qed.

  Definition fuel_cmp (o : cmpop) (k : Z) : nat := (3 + List.length (cmp_vals o k))%nat.
  Lemma merge_eqs_shape : forall (p : bool) k0 l T,
    T = merge_ptrees (map (eq_node (if p then PT_NEXT_VARIABLE else PT_VARIABLE) x) (k0 :: l)) PT_OR ->
    (forall t' n v l' r', T = pnd t' n v l' r' -> iscmp t' = false) /\ T <> NULL.
  Proof.
    intros p k0 l T ->. rewrite merge_eqs.
    destruct (chain_cases FOr p l k0) as [Hc | (f & g & Hc)]; [intros; exists PT_OR; auto| |];
      rewrite Hc; (split; [intros t' n v l' r' Heq; injection Heq; intros; subst; reflexivity|discriminate]).
  Qed.
  Lemma etb_ord : forall p o k fuel, o <> CEq -> o <> CNe -> (fuel_cmp o k <= fuel)%nat ->
    expand_to_bool fuel (tree_of (FCmp p x o k)) x d =
    Ok (tree_of (or_list (map (exp_eq p) (cmp_vals o k)))).
  Proof.
    intros p o k fuel Ho1 Ho2 Hf. unfold fuel_cmp in Hf. destruct fuel as [|[|[|fuel]]]; try lia.
    assert (Hv : expand_nonbool_varnum (tree_of (FCmp p x o k)) x d =
       Ok (match cmp_vals o k with
           | [] => init_ptree PT_CONSTANT None 0
           | l => merge_ptrees (map (eq_node (if p then PT_NEXT_VARIABLE else PT_VARIABLE) x) l) PT_OR
           end)).
    { rewrite varnum_ok by auto. destruct o; congruence. }
    assert (Hc : iscmp (cmp_ty o) = true) by (destruct o; auto; congruence).
    cbn [tree_of] in *. erewrite etb_via; [|exact Hc|exact Hv| |]; destruct (cmp_vals o k) as [|k0 l] eqn:Ev.
    - apply etb_leaf; reflexivity.
    - rewrite merge_eqs. cbn [map or_list]. apply etb_or. cbn [List.length] in Hf. lia.
    - intros t' n v l' r' Heq. injection Heq; intros; subst. reflexivity.
    - apply (merge_eqs_shape p k0 l). reflexivity.
    - discriminate.
    - apply (merge_eqs_shape p k0 l). reflexivity.
  Qed.
  Lemma etb_ne : forall p k fuel, ~ (k = 0 /\ d = 0) -> (fuel_cmp CNe k <= fuel)%nat ->
    expand_to_bool fuel (tree_of (FCmp p x CNe k)) x d = Ok (tree_of (exp_cmp p CNe k)).
  Proof.
    intros p k fuel Hk Hf. unfold fuel_cmp in Hf. destruct fuel as [|[|[|fuel]]]; try lia.
    pose proof (varnum_ok p CNe k ltac:(discriminate)) as Hv.
    unfold exp_cmp. destruct ((k <? 0) || (d <? k)) eqn:E.
    - cbn [tree_of] in *. erewrite etb_via; [|reflexivity|exact Hv| |].
      + apply etb_leaf; reflexivity.
      + intros t' n v l' r' Heq. injection Heq; intros; subst. reflexivity.
      + discriminate.
    - apply orb_false_iff in E. rewrite !Z.ltb_ge in E.
      assert (Hne : cmp_vals CNe k <> []) by (apply ne_vals_nonempty; [lia|auto]).
      destruct (cmp_vals CNe k) as [|k0 l] eqn:Ev; [congruence|].
      cbn [tree_of] in *. erewrite etb_via; [|reflexivity|exact Hv| |].
      + rewrite merge_eqs. cbn [map or_list]. apply etb_or. cbn [List.length] in Hf. lia.
      + apply (merge_eqs_shape p k0 l). reflexivity.
      + apply (merge_eqs_shape p k0 l). reflexivity.
  Qed.
  Lemma etb_cmp : forall p o k fuel, bad_ne (FCmp p x o k) = false -> (fuel_cmp o k <= fuel)%nat ->
    expand_to_bool fuel (tree_of (FCmp p x o k)) x d = Ok (tree_of (exp_cmp p o k)).
  Proof.
    intros p o k fuel Hb Hf. destruct o.
    - destruct fuel; [unfold fuel_cmp in Hf; lia|]. apply etb_eq.
    - apply etb_ne; auto. intros [Hk0 Hd0]. subst k. cbn [bad_ne] in Hb.
      rewrite String.eqb_refl, Hd0 in Hb. discriminate Hb.
    - apply etb_ord; auto; discriminate.
    - apply etb_ord; auto; discriminate.
    - apply etb_ord; auto; discriminate.
    - apply etb_ord; auto; discriminate.
  Qed.

  (** comparisons of other variables are left alone *)
  Lemma etb_other : forall p y o k fuel, String.eqb y x = false ->
    expand_to_bool (S (S (S fuel))) (tree_of (FCmp p y o k)) x d = Ok (tree_of (FCmp p y o k)).
  Proof.
    intros p y o k fuel Hy. cbn [tree_of]. unfold binop, leaf_var, leaf_const.
    cbn [expand_to_bool].
    assert (Hv : isvar (if p then PT_NEXT_VARIABLE else PT_VARIABLE) = true) by (destruct p; reflexivity).
    assert (Ht : ty_eqb (if p then PT_NEXT_VARIABLE else PT_VARIABLE) PT_CONSTANT = false)
      by (destruct p; reflexivity).
    assert (Hi : iscmp (if p then PT_NEXT_VARIABLE else PT_VARIABLE) = false) by (destruct p; reflexivity).
    assert (He : ty_eqb (if p then PT_NEXT_VARIABLE else PT_VARIABLE) PT_EQUALS = false)
      by (destruct p; reflexivity).
    destruct o; cbn [cmp_ty iscmp expand_nonbool_varnum negb];
      rewrite ?Hv, ?Ht, ?Hi, ?He; cbn [bind andb strcmp0]; rewrite ?Hy; cbn [bind negb];
      change (ty_eqb PT_CONSTANT PT_CONSTANT) with true; cbn [bind andb isvar negb iscmp];
      change (ty_eqb PT_CONSTANT PT_EQUALS) with false; cbn [bind];
      try change (ty_eqb PT_EQUALS PT_EQUALS) with true; cbn [bind];
      rewrite ?Ht; cbn [bind strcmp0]; rewrite ?Hy; cbn [bind];
      try change (ty_eqb PT_NOTEQ PT_EQUALS) with false; 
      try change (ty_eqb PT_LT PT_EQUALS) with false; 
      try change (ty_eqb PT_GT PT_EQUALS) with false; 
      try change (ty_eqb PT_LE PT_EQUALS) with false; 
      try change (ty_eqb PT_GE PT_EQUALS) with false; cbn [bind];
      rewrite ?Hi; cbn [bind]; rewrite ?He; reflexivity.
  Qed.

  Fixpoint fuel_for (f : form) : nat :=
    match f with
    | FCmp _ _ o k => fuel_cmp o k
    | FNot f => S (fuel_for f)
    | FAnd f g | FOr f g | FImp f g | FIff f g => S (Nat.max (fuel_for f) (fuel_for g))
    | _ => 2%nat
    end.
  Lemma fuel_for_pos : forall f, (1 <= fuel_for f)%nat.
  Proof. induction f; simpl; unfold fuel_cmp; lia. Qed.

  Lemma etb_ok : forall f fuel, bad_ne f = false -> (fuel_for f <= fuel)%nat ->
    expand_to_bool fuel (tree_of f) x d = Ok (tree_of (expand1 f)).
  Proof.
    induction f; intros fuel Hb Hf; cbn [fuel_for] in Hf.
    - destruct fuel as [|[|fuel]]; try lia. apply etb_leaf; reflexivity.
    - destruct fuel as [|[|fuel]]; try lia. apply etb_leaf; reflexivity.
    - destruct fuel as [|[|fuel]]; try lia. apply etb_leaf; reflexivity.
    - destruct fuel as [|[|fuel]]; try lia. apply etb_leaf; reflexivity.
    - cbn [expand1]. destruct (String.eqb x0 x) eqn:E.
      + apply String.eqb_eq in E. subst x0. apply etb_cmp; auto.
      + unfold fuel_cmp in Hf. destruct fuel as [|[|[|fuel]]]; try lia. apply etb_other; auto.
    - destruct fuel as [|fuel]; [lia|]. cbn [tree_of expand1]. apply etb_bin; auto.
      + destruct fuel; [pose proof (fuel_for_pos f); lia|]. reflexivity.
      + apply IHf; auto. lia.
    - cbn [bad_ne] in Hb. apply orb_false_iff in Hb. destruct Hb.
      destruct fuel as [|fuel]; [lia|]. apply etb_bin; auto; [apply IHf1|apply IHf2]; auto; lia.
    - cbn [bad_ne] in Hb. apply orb_false_iff in Hb. destruct Hb.
      destruct fuel as [|fuel]; [lia|]. apply etb_bin; auto; [apply IHf1|apply IHf2]; auto; lia.
    - cbn [bad_ne] in Hb. apply orb_false_iff in Hb. destruct Hb.
      destruct fuel as [|fuel]; [lia|]. apply etb_bin; auto; [apply IHf1|apply IHf2]; auto; lia.
    - cbn [bad_ne] in Hb. apply orb_false_iff in Hb. destruct Hb.
      destruct fuel as [|fuel]; [lia|]. apply etb_bin; auto; [apply IHf1|apply IHf2]; auto; lia.
  Qed.

  (** ** Meaning *)
  (** in the valuation [v] the bits of x encode n *)
  Definition bits_are (v : string -> Z) (n : Z) : Prop :=
    forall i, 0 <= i < nbits d -> v (varname x i) = (if Z.testbit n i then 1 else 0).
  Lemma V_sem : forall cur nxt p y,
    sem cur nxt (V p y) = ((if p then nxt y else cur y) =? 1).
  Proof. intros cur nxt [] y; reflexivity. Qed.
  Section Value.
    Variables cur nxt : string -> Z.
    Variable p : bool.
    Variable n : Z.
    Hypothesis Hc : bits_are (if p then nxt else cur) n.
    Lemma lit_sem : forall k i, 0 <= i < nbits d ->
      sem cur nxt (lit p k i) = Bool.eqb (Z.testbit k i) (Z.testbit n i).
    Proof.
      intros k i Hi. unfold lit.
      assert (He : (if p then nxt (varname x i) else cur (varname x i)) =
                   if Z.testbit n i then 1 else 0).
      { destruct p; apply Hc; auto. }
      destruct (Z.testbit k i); cbn [sem]; rewrite V_sem, He; destruct (Z.testbit n i); reflexivity.
    Qed.
    Lemma exp_eq_sem : forall k, 0 <= n < 2 ^ nbits d -> sem cur nxt (exp_eq p k) = (n =? k).
    Proof.
      intros k Hr. unfold exp_eq.
      destruct ((2 ^ nbits d - 1 <? k) || (k <? 0)) eqn:E.
      - symmetry. cbn [sem]. apply Z.eqb_neq. apply orb_true_iff in E. rewrite !Z.ltb_lt in E. lia.
      - apply orb_false_iff in E. rewrite !Z.ltb_ge in E.
        rewrite chain_and_sem. pose proof (nbits_pos d Hd).
        change (lit p k 0 :: map (lit p k) (zseq 1 (nbits d - 1)))
          with (map (lit p k) (0 :: zseq (0 + 1) (nbits d - 1))).
        rewrite <- zseq_cons by lia.
        apply eq_true_iff_eq. rewrite forallb_forall, Z.eqb_eq. split.
        + intros H'. apply (testbit_ext (nbits d)); try lia.
          intros i Hi. specialize (H' (lit p k i)).
          rewrite (lit_sem k i) in H' by auto.
          assert (Hin : In (lit p k i) (map (lit p k) (zseq 0 (nbits d - 1))))
            by (apply in_map; apply zseq_In; lia).
          apply H' in Hin. apply Bool.eqb_prop in Hin. auto.
        + intros Hv f Hf. apply in_map_iff in Hf. destruct Hf as (i & <- & Hi).
          apply zseq_In in Hi. rewrite lit_sem by (auto; lia). rewrite Hv.
          apply Bool.eqb_reflx.
    Qed.
    Lemma or_list_sem : forall l, sem cur nxt (or_list l) = existsb (sem cur nxt) l.
    Proof. intros [|f l]; [reflexivity|]. cbn [or_list]. apply chain_or_sem. Qed.
    Lemma or_eqs_sem : forall l, 0 <= n < 2 ^ nbits d ->
      (sem cur nxt (or_list (map (exp_eq p) l)) = true <-> In n l).
    Proof.
      intros l Hr. rewrite or_list_sem, existsb_exists. split.
      - intros (f & Hf & Hs). apply in_map_iff in Hf. destruct Hf as (k & <- & Hk).
        rewrite exp_eq_sem in Hs by auto. apply Z.eqb_eq in Hs. rewrite Hs. auto.
      - intros Hin. exists (exp_eq p n). split.
        + apply in_map. auto.
        + rewrite exp_eq_sem by auto. apply Z.eqb_refl.
    Qed.
    Lemma exp_cmp_sem : forall o k, (o = CEq /\ 0 <= n < 2 ^ nbits d \/ 0 <= n <= d) ->
      sem cur nxt (exp_cmp p o k) = cmp_sem o n k.
    Proof.
      intros o k Hr.
      assert (Hr2 : 0 <= n < 2 ^ nbits d).
      { pose proof (nbits_bound d Hd). destruct Hr as [[_ ?]|]; lia. }
      destruct o; [apply exp_eq_sem; auto| | | | |]; destruct Hr as [[Hr _]|Hr]; try discriminate;
        cbn [exp_cmp cmp_sem].
      - destruct ((k <? 0) || (d <? k)) eqn:E.
        + cbn [sem]. symmetry. apply negb_true_iff, Z.eqb_neq.
          apply orb_true_iff in E. rewrite !Z.ltb_lt in E. lia.
        + apply eq_true_iff_eq. rewrite or_eqs_sem by auto. cbn [cmp_vals].
          rewrite filter_In, zseq_In. split; [intros [_ ?]; auto|]. intros. split; auto.
      - apply eq_true_iff_eq. rewrite or_eqs_sem by auto. cbn [cmp_vals].
        rewrite zseq_In, Z.ltb_lt. lia.
      - apply eq_true_iff_eq. rewrite or_eqs_sem by auto. cbn [cmp_vals].
        rewrite zseq_In, Z.ltb_lt. lia.
      - apply eq_true_iff_eq. rewrite or_eqs_sem by auto. cbn [cmp_vals].
        rewrite zseq_In, Z.leb_le. lia.
      - apply eq_true_iff_eq. rewrite or_eqs_sem by auto. cbn [cmp_vals].
        rewrite zseq_In, Z.leb_le. lia.
    Qed.
  End Value.

  (** all comparisons of x are equations *)
  Fixpoint eq_only (f : form) : bool :=
    match f with
    | FCmp _ y CEq _ => true
    | FCmp _ y _ _ => negb (String.eqb y x)
    | FNot f => eq_only f
    | FAnd f g | FOr f g | FImp f g | FIff f g => eq_only f && eq_only g
    | _ => true
    end.
  (** the value of x is in the domain, or (when only equations are asked) at
      least representable *)
  Definition usable (f : form) (v : string -> Z) : Prop :=
    bits_are v (v x) /\ (eq_only f = true /\ 0 <= v x < 2 ^ nbits d \/ 0 <= v x <= d).
  Lemma usable_r : forall f g v,
    bits_are v (v x) /\ (eq_only f && eq_only g = true /\ 0 <= v x < 2 ^ nbits d \/ 0 <= v x <= d) ->
    usable g v.
  Proof. intros f g v [He [[Hq Hr]|Hr]]; split; auto. left. apply andb_true_iff in Hq. tauto. Qed.
  Lemma usable_l : forall f g v,
    bits_are v (v x) /\ (eq_only f && eq_only g = true /\ 0 <= v x < 2 ^ nbits d \/ 0 <= v x <= d) ->
    usable f v.
  Proof. intros f g v [He [[Hq Hr]|Hr]]; split; auto. left. apply andb_true_iff in Hq. tauto. Qed.

  Lemma expand1_sem : forall cur nxt f,
    (In x (cmps false f) -> usable f cur) -> (In x (cmps true f) -> usable f nxt) ->
    sem cur nxt (expand1 f) = sem cur nxt f.
  Proof.
    intros cur nxt. unfold usable.
    induction f; intros H1 H2; cbn [expand1 sem]; auto.
    - destruct (String.eqb x0 x) eqn:E; auto. apply String.eqb_eq in E. subst x0.
      cbn [cmps] in H1, H2.
      assert (Hu : usable (FCmp primed x o k) (if primed then nxt else cur)).
      { destruct primed; cbn [Bool.eqb In] in H1, H2; [apply H2|apply H1]; left; reflexivity. }
      clear H1 H2. destruct Hu as [He Hr].
      rewrite (exp_cmp_sem cur nxt primed ((if primed then nxt else cur) x)); auto.
      + destruct primed; reflexivity.
      + destruct Hr as [[Hq Hr]|Hr]; [|right; exact Hr].
        cbn [eq_only] in Hq. destruct o; try (left; split; [reflexivity|exact Hr]);
          rewrite String.eqb_refl in Hq; discriminate Hq.
    - f_equal. apply IHf; auto.
    - cbn [cmps eq_only] in *. rewrite IHf1, IHf2; auto; intros;
        try (apply (usable_l f1 f2); auto with datatypes); apply (usable_r f1 f2); auto with datatypes.
    - cbn [cmps eq_only] in *. rewrite IHf1, IHf2; auto; intros;
        try (apply (usable_l f1 f2); auto with datatypes); apply (usable_r f1 f2); auto with datatypes.
    - cbn [cmps eq_only] in *. rewrite IHf1, IHf2; auto; intros;
        try (apply (usable_l f1 f2); auto with datatypes); apply (usable_r f1 f2); auto with datatypes.
    - cbn [cmps eq_only] in *. rewrite IHf1, IHf2; auto; intros;
        try (apply (usable_l f1 f2); auto with datatypes); apply (usable_r f1 f2); auto with datatypes.
  Qed.

  (** ** Variables of the result *)
  (** [pure p f]: no comparison, and the variables are bits of x, primed iff p *)
  Definition pure (p : bool) (f : form) : Prop :=
    boolean f = true /\ bares (negb p) f = [] /\ incl (bares p f) (bit_names x d).
  Lemma pure_bin : forall p op, (op = FAnd \/ op = FOr) -> forall f g,
    pure p f -> pure p g -> pure p (op f g).
  Proof.
    intros p op [-> | ->] f g (A1 & A2 & A3) (B1 & B2 & B3); repeat split; simpl;
      rewrite ?A1, ?B1, ?A2, ?B2; auto; apply incl_app; auto.
  Qed.
  Lemma pure_chain : forall p op, (op = FAnd \/ op = FOr) -> forall l f,
    pure p f -> Forall (pure p) l -> pure p (chain op f l).
  Proof.
    intros p op Hop l. induction l as [|g l IH]; intros f Hf Hl; [exact Hf|].
    inversion Hl; subst. apply (IH (op f g)); auto. apply pure_bin; auto.
  Qed.
  Lemma bit_name_In : forall i, 0 <= i < nbits d -> In (varname x i) (bit_names x d).
  Proof. intros. unfold bit_names. apply in_map, zseq_In. lia. Qed.
  Lemma pure_lit : forall p k i, 0 <= i < nbits d -> pure p (lit p k i).
  Proof.
    intros p k i Hi. pose proof (bit_name_In i Hi). unfold lit.
    destruct (Z.testbit k i), p; repeat split; simpl; auto;
      intros z [<-|[]]; auto.
  Qed.
  Lemma pure_eq : forall p k, pure p (exp_eq p k).
  Proof.
    intros p k. unfold exp_eq. pose proof (nbits_pos d Hd).
    destruct ((2 ^ nbits d - 1 <? k) || (k <? 0)).
    - repeat split; simpl; auto. intros z [].
    - apply pure_chain; auto; [apply pure_lit; lia|].
      apply Forall_forall. intros f Hf. apply in_map_iff in Hf. destruct Hf as (i & <- & Hi).
      apply zseq_In in Hi. apply pure_lit. lia.
  Qed.
  Lemma pure_or : forall p l, pure p (or_list (map (exp_eq p) l)).
  Proof.
    intros p [|k l]; cbn [map or_list].
    - repeat split; simpl; auto. intros z [].
    - apply pure_chain; auto; [apply pure_eq|].
      apply Forall_forall. intros f Hf. apply in_map_iff in Hf. destruct Hf as (i & <- & Hi).
      apply pure_eq.
  Qed.
  Lemma pure_cmp : forall p o k, pure p (exp_cmp p o k).
  Proof.
    intros p o k. destruct o; cbn [exp_cmp]; try apply pure_or; [apply pure_eq|].
    destruct ((k <? 0) || (d <? k)); [|apply pure_or].
    repeat split; simpl; auto. intros z [].
  Qed.
  Lemma boolean_cmps : forall f, boolean f = true <-> cmps false f = [] /\ cmps true f = [].
  Proof.
    induction f; simpl; try tauto.
    - destruct primed; simpl; intuition congruence.
    - rewrite andb_true_iff, IHf1, IHf2. split.
      + intros [[-> ->] [-> ->]]. auto.
      + intros [H1 H2]. apply app_eq_nil in H1. apply app_eq_nil in H2. tauto.
    - rewrite andb_true_iff, IHf1, IHf2. split.
      + intros [[-> ->] [-> ->]]. auto.
      + intros [H1 H2]. apply app_eq_nil in H1. apply app_eq_nil in H2. tauto.
    - rewrite andb_true_iff, IHf1, IHf2. split.
      + intros [[-> ->] [-> ->]]. auto.
      + intros [H1 H2]. apply app_eq_nil in H1. apply app_eq_nil in H2. tauto.
    - rewrite andb_true_iff, IHf1, IHf2. split.
      + intros [[-> ->] [-> ->]]. auto.
      + intros [H1 H2]. apply app_eq_nil in H1. apply app_eq_nil in H2. tauto.
  Qed.
  Lemma boolean_cmp_nil : forall p f, boolean f = true -> cmps p f = [].
  Proof. intros [] f H; apply boolean_cmps in H; tauto. Qed.
  (** no comparison of x is left, no other comparison is lost or added *)
  Lemma expand1_cmps : forall p f, cmps p (expand1 f) = filter (fun y => negb (String.eqb y x)) (cmps p f).
  Proof.
    intros p. induction f; cbn [expand1 cmps filter]; auto.
    - destruct (String.eqb x0 x) eqn:E.
      + rewrite boolean_cmp_nil by apply pure_cmp.
        destruct (Bool.eqb p primed); auto. simpl. rewrite E. reflexivity.
      + cbn [cmps]. destruct (Bool.eqb p primed); auto. simpl. rewrite E. reflexivity.
    - rewrite filter_app, IHf1, IHf2. reflexivity.
    - rewrite filter_app, IHf1, IHf2. reflexivity.
    - rewrite filter_app, IHf1, IHf2. reflexivity.
    - rewrite filter_app, IHf1, IHf2. reflexivity.
  Qed.
  (** variables without a number: those of f, and bits of x where x was compared *)
  Lemma expand1_bares : forall p f y, In y (bares p (expand1 f)) ->
    In y (bares p f) \/ In x (cmps p f) /\ In y (bit_names x d).
  Proof.
    intros p. induction f; intros y Hy; cbn [expand1 bares cmps] in *; auto.
    - destruct (String.eqb x0 x) eqn:E; auto. apply String.eqb_eq in E. subst x0.
      destruct (pure_cmp primed o k) as (_ & H2 & H3).
      destruct (Bool.eqb p primed) eqn:Ep.
      + apply Bool.eqb_prop in Ep. subst p. right. split; [left; auto|]. apply H3; auto.
      + assert (p = negb primed) by (destruct p, primed; auto; discriminate Ep). subst p.
        rewrite H2 in Hy. destruct Hy.
    - apply in_app_or in Hy. rewrite !in_app_iff.
      destruct Hy as [Hy|Hy]; [apply IHf1 in Hy|apply IHf2 in Hy]; tauto.
    - apply in_app_or in Hy. rewrite !in_app_iff.
      destruct Hy as [Hy|Hy]; [apply IHf1 in Hy|apply IHf2 in Hy]; tauto.
    - apply in_app_or in Hy. rewrite !in_app_iff.
      destruct Hy as [Hy|Hy]; [apply IHf1 in Hy|apply IHf2 in Hy]; tauto.
    - apply in_app_or in Hy. rewrite !in_app_iff.
      destruct Hy as [Hy|Hy]; [apply IHf1 in Hy|apply IHf2 in Hy]; tauto.
  Qed.
End Expand.

Lemma fvars_split : forall f y, In y (fvars f) <-> In y (bares false f) \/ In y (cmps false f).
Proof.
  induction f; intros y; simpl; try tauto.
  - destruct primed; simpl; tauto.
  - apply IHf.
  - rewrite !in_app_iff, IHf1, IHf2. tauto.
  - rewrite !in_app_iff, IHf1, IHf2. tauto.
  - rewrite !in_app_iff, IHf1, IHf2. tauto.
  - rewrite !in_app_iff, IHf1, IHf2. tauto.
Qed.
Lemma fnexts_split : forall f y, In y (fnexts f) <-> In y (bares true f) \/ In y (cmps true f).
Proof.
  induction f; intros y; simpl; try tauto.
  - destruct primed; simpl; tauto.
  - apply IHf.
  - rewrite !in_app_iff, IHf1, IHf2. tauto.
  - rewrite !in_app_iff, IHf1, IHf2. tauto.
  - rewrite !in_app_iff, IHf1, IHf2. tauto.
  - rewrite !in_app_iff, IHf1, IHf2. tauto.
Qed.

Lemma bad_ne_eq : forall x d f, bad_ne x d f = has_ne0 x f && (d =? 0).
Proof.
  induction f; simpl; auto; try (destruct o; auto); rewrite ?IHf1, ?IHf2;
    destruct (d =? 0); rewrite ?andb_true_r, ?andb_false_r; auto.
Qed.

(** ** unreach_expanded_bool *)
Definition unreach (x : string) (p : bool) (lo hi : Z) : form :=
  fold_left (fun f i => FAnd (FNot (FCmp p x CEq i)) f) (zseq (lo + 1) hi) (FNot (FCmp p x CEq lo)).
Lemma unreach_tree : forall x (p : bool) lo hi, lo <= hi ->
  unreach_expanded_bool x lo hi (if p then PT_NEXT_VARIABLE else PT_VARIABLE) =
  tree_of (unreach x p lo hi).
Proof.
  intros x p lo hi H. unfold unreach_expanded_bool, unreach.
  rewrite (proj2 (Z.ltb_ge hi lo)) by lia.
  replace (isvar (if p then PT_NEXT_VARIABLE else PT_VARIABLE)) with true by (destruct p; auto).
  cbn [negb].
  assert (Hn : forall i, neq_node (if p then PT_NEXT_VARIABLE else PT_VARIABLE) x i =
                         tree_of (FNot (FCmp p x CEq i))) by (intros; destruct p; reflexivity).
  rewrite Hn. generalize (FNot (FCmp p x CEq lo)) as f.
  induction (zseq (lo + 1) hi) as [|i l IH]; intros f; auto.
  cbn [fold_left]. rewrite <- IH. f_equal. rewrite Hn. reflexivity.
Qed.
Lemma unreach_sem : forall cur nxt x (p : bool) lo hi, lo <= hi ->
  sem cur nxt (unreach x p lo hi) =
  negb ((lo <=? (if p then nxt x else cur x)) && ((if p then nxt x else cur x) <=? hi)).
Proof.
  intros cur nxt x p lo hi H. unfold unreach. set (v := if p then nxt x else cur x).
  assert (Hf : forall l f, sem cur nxt (fold_left (fun f i => FAnd (FNot (FCmp p x CEq i)) f) l f) =
            sem cur nxt f && forallb (fun i => negb (v =? i)) l).
  { induction l as [|i l IH]; intros f; cbn [fold_left forallb].
    - rewrite andb_true_r. reflexivity.
    - rewrite IH. cbn [sem cmp_sem]. fold v. destruct (sem cur nxt f), (negb (v =? i)); auto. }
  rewrite Hf. cbn [sem cmp_sem]. fold v.
  apply eq_true_iff_eq. rewrite andb_true_iff, forallb_forall, !negb_true_iff, Z.eqb_neq.
  rewrite andb_false_iff, !Z.leb_gt. split.
  - intros [H1 H2]. destruct (Z.lt_ge_cases v lo); [auto|]. right.
    destruct (Z.lt_ge_cases hi v); [auto|]. exfalso.
    assert (Hin : In v (zseq (lo + 1) hi)) by (apply zseq_In; lia).
    apply H2 in Hin. rewrite Z.eqb_refl in Hin. discriminate Hin.
  - intros Hor. split; [lia|]. intros i Hi. apply zseq_In in Hi.
    apply negb_true_iff, Z.eqb_neq. lia.
Qed.
Lemma unreach_scope : forall x p lo hi,
  bares false (unreach x p lo hi) = [] /\ bares true (unreach x p lo hi) = [] /\
  cmps (negb p) (unreach x p lo hi) = [] /\ incl (cmps p (unreach x p lo hi)) [x] /\
  eq_only x (unreach x p lo hi) = true /\ (forall y d, bad_ne y d (unreach x p lo hi) = false).
Proof.
  intros x p lo hi. unfold unreach.
  assert (Hf : forall l f, 
    bares false f = [] /\ bares true f = [] /\ cmps (negb p) f = [] /\ incl (cmps p f) [x] /\
    eq_only x f = true /\ (forall y d, bad_ne y d f = false) ->
    let g := fold_left (fun f i => FAnd (FNot (FCmp p x CEq i)) f) l f in
    bares false g = [] /\ bares true g = [] /\ cmps (negb p) g = [] /\ incl (cmps p g) [x] /\
    eq_only x g = true /\ (forall y d, bad_ne y d g = false)).
  { induction l as [|i l IH]; intros f (H1 & H2 & H3 & H4 & H5 & H6); [repeat split; auto|].
    apply IH. repeat split; simpl; auto.
    - destruct p; simpl; auto.
    - apply incl_app; auto. destruct p; simpl; apply incl_refl. }
  apply Hf. repeat split; simpl; auto; destruct p; simpl; auto; apply incl_refl.
Qed.
