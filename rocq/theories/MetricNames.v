(** Proofs about get_offsets (Metric.v): the fields found for the names of
    variables hold the values of these variables. *)
From Coq Require Import List ZArith Bool Arith String Ascii Lia.
From Verif Require Import Base Game Bdd Support Strs Ptree Form Solve FSpec SolveProofs Nonbool RSpec
  NonboolProofs EncProofs NbStateProofs NbProps Metric MetricSpec MetricProofs.
Import ListNotations.
Open Scope list_scope.
Open Scope Z_scope.

(** ** strtok *)
Definition no_space (x : string) : Prop := ~ In " "%char (list_ascii_of_string x).
Lemma app_snoc : forall a c b, ((a ++ String c EmptyString) ++ b = a ++ String c b)%string.
Proof. induction a as [|d a IH]; intros c b; cbn; auto. rewrite IH. reflexivity. Qed.
Lemma app_empty : forall a, (a ++ EmptyString = a)%string.
Proof. induction a as [|d a IH]; cbn; auto. rewrite IH. reflexivity. Qed.
Lemma strtok_word : forall x cur r, no_space x ->
  strtok_from cur (x ++ r)%string = strtok_from (cur ++ x)%string r.
Proof.
  induction x as [|c x IH]; intros cur r H.
  - rewrite app_empty. reflexivity.
  - cbn [String.append strtok_from]. destruct (Ascii.eqb_spec c " "%char) as [->|Hc].
    + exfalso. apply H. left. reflexivity.
    + rewrite IH; [|intros Hin; apply H; right; auto]. rewrite app_snoc. reflexivity.
Qed.
Lemma strtok_spaced : forall xs s, spaced xs s -> Forall is_word xs -> strtok_all s = xs.
Proof.
  intros xs s H. unfold strtok_all. induction H as [|xs s H IH|x|x xs s H IH]; intros Hw.
  - reflexivity.
  - cbn [strtok_from]. apply IH; auto.
  - inversion Hw as [|? ? [Hne Hns] _]; subst. rewrite <- (app_empty x) at 1. rewrite strtok_word by auto.
    cbn. destruct x; [congruence|reflexivity].
  - inversion Hw as [|? ? [Hne Hns] Hw']; subst. rewrite strtok_word by auto. cbn [String.append strtok_from].
    destruct x as [|c x]; [congruence|]. cbn. f_equal. apply IH; auto.
Qed.

(** ** The run of one name *)
Section Names.
  Variables es ss : list vdecl.
  Let vs := es ++ ss.
  Hypothesis HN : NoDup (names vs).
  Hypothesis HB : bits_distinct vs.
  Hypothesis HD : int_domains vs.

  Lemma own_hits : forall x d, In (x, d) vs -> hits x (dbits 0 (x, d)).
  Proof.
    intros x d Hin v Hv. apply dbits_In in Hv. rewrite (dnames_bits vs) in Hv by auto.
    unfold var_bits in Hv. cbn [fst snd] in Hv. destruct (d <? 0).
    - destruct Hv as [<-|[]]. rewrite <- (app_empty x) at 2. apply prefix_refl_app.
    - apply in_map_iff in Hv. destruct Hv as (i & <- & _). apply prefix_refl_app.
  Qed.
  Lemma own_misses : forall x us, own_prefix vs x -> (forall v, In v us -> In v vs) -> ~ In x (names us) ->
    misses x (bit_decls 0 us).
  Proof.
    intros x us Ho Hin Hn v Hv. unfold bit_decls in Hv. apply in_flat_map in Hv.
    destruct Hv as ([y e] & Hy & Hv). fold (dbits 0 (y, e)) in Hv. apply dbits_In in Hv.
    rewrite (dnames_bits vs) in Hv by auto. apply (Ho y e); auto.
    intros ->. apply Hn. exact (names_In _ _ _ Hy).
  Qed.
  Lemma nodup_split : forall a x d b, vs = a ++ (x, d) :: b -> ~ In x (names a) /\ ~ In x (names b).
  Proof.
    intros a x d b E. rewrite E in HN. unfold names in HN. rewrite map_app in HN. cbn [map fst] in HN.
    apply NoDup_remove_2 in HN. split; intros H; apply HN; apply in_or_app; auto.
  Qed.
  Lemma find_own : forall a x d b, vs = a ++ (x, d) :: b -> own_prefix vs x ->
    find_run (vlist (bit_decls 0 es)) (vlist (bit_decls 0 ss)) x =
    Ok (Some (total_bits a, (blen d - 1)%nat)).
  Proof.
    intros a x d b E Ho.
    assert (Hin : In (x, d) vs) by (rewrite E; apply in_or_app; right; left; auto).
    pose proof (own_hits x d Hin) as Hh.
    destruct (dbits_shape x d) as (y & e & r & Ed & Lr).
    destruct (nodup_split a x d b E) as [Na Nb].
    assert (Ia : forall v, In v a -> In v vs) by (intros v Hv; rewrite E; apply in_or_app; auto).
    assert (Ib : forall v, In v b -> In v vs) by (intros v Hv; rewrite E; apply in_or_app; right; right; auto).
    assert (Hsplit : (exists b', es = a ++ (x, d) :: b' /\ b = b' ++ ss) \/
                     (exists a', a = es ++ a' /\ ss = a' ++ (x, d) :: b)).
    { clear - E. unfold vs in E. revert a E. induction es as [|v l IH]; intros a E.
      - right. exists a. auto.
      - destruct a as [|w a]; cbn in E; injection E as Ev E.
        + left. exists l. subst. auto.
        + destruct (IH a E) as [(b' & H1 & H2)|(a' & H1 & H2)].
          * left. exists b'. subst. auto.
          * right. exists a'. subst. auto. }
    rewrite Ed in Hh. rewrite <- Lr.
    destruct Hsplit as [(b' & Ee & Eb)|(a' & Ea & Es)].
    - rewrite Ee, bit_decls_app, bit_decls_cons, Ed. rewrite <- (bit_decls_len 0 a).
      apply find_run_env; auto.
      + apply own_misses; auto.
      + apply own_misses; auto.
        * intros v Hv. apply Ib. rewrite Eb. apply in_or_app; auto.
        * intros H. apply Nb. rewrite Eb. unfold names. rewrite map_app. apply in_or_app; auto.
    - rewrite Es, bit_decls_app, bit_decls_cons, Ed.
      replace (total_bits a) with (List.length (bit_decls 0 es) + List.length (bit_decls 0 a'))%nat
        by (rewrite !bit_decls_len, Ea, total_app; lia).
      apply find_run_sys; auto.
      + apply own_misses; auto.
        * intros v Hv. apply Ia. rewrite Ea. apply in_or_app; auto.
        * intros H. apply Na. rewrite Ea. unfold names. rewrite map_app. apply in_or_app; auto.
      + apply own_misses; auto.
        * intros v Hv. apply Ia. rewrite Ea. apply in_or_app; auto.
        * intros H. apply Na. rewrite Ea. unfold names. rewrite map_app. apply in_or_app; auto.
      + apply own_misses; auto.
  Qed.

  Lemma blen_small : forall x d, In (x, d) vs -> 1 <= Z.of_nat (blen d) <= 31.
  Proof.
    intros x d Hin. pose proof (HD x d Hin). unfold blen. destruct (Z.ltb_spec d 0) as [H0|H0]; [lia|].
    pose proof (nbits_small d ltac:(lia)). lia.
  Qed.
  (** the field found holds the value of the variable *)
  Lemma field_value : forall a x d b s, vs = a ++ (x, d) :: b -> In s (dvecs (doms vs)) ->
    field (enc vs s) (Z.of_nat (total_bits a), Z.of_nat (blen d)) = lookup (names vs) s x.
  Proof.
    intros a x d b s E Hs. apply dvecs_In in Hs.
    assert (Hrep : repr vs s) by (apply in_doms_wide; auto).
    destruct (nodup_split a x d b E) as [Na Nb].
    assert (Hl : List.length s = List.length vs) by (apply repr_len; auto).
    assert (Hs3 : exists s1 v s2, s = s1 ++ v :: s2 /\ List.length s1 = List.length a).
    { rewrite E, app_length in Hl. cbn in Hl.
      pose proof (firstn_skipn (List.length a) s) as Hfs.
      assert (L2 : List.length (skipn (List.length a) s) = S (List.length b)) by (rewrite skipn_length; lia).
      destruct (skipn (List.length a) s) as [|v s2]; [discriminate|].
      exists (firstn (List.length a) s), v, s2. split; auto. rewrite firstn_length. lia. }
    destruct Hs3 as (s1 & v & s2 & Es & L1).
    assert (Hv : In v (dom (wide d))).
    { unfold repr, doms, in_doms in Hrep. rewrite E, Es, !map_app in Hrep. cbn [map snd] in Hrep.
      apply Forall2_app_inv_l in Hrep. destruct Hrep as (l1 & l2 & F1 & F2 & El).
      assert (Ll : List.length s1 = List.length l1).
      { rewrite L1. pose proof (in_doms_len _ _ F1) as F1l. rewrite !map_length in F1l. auto. }
      assert (l2 = v :: s2).
      { apply (f_equal (skipn (List.length s1))) in El. rewrite skipn_app_len in El by auto.
        rewrite skipn_app_len in El by auto. auto. }
      subst l2. inversion F2; subst; auto. }
    assert (Eenc : enc vs s = enc a s1 ++ enc_val d v ++ enc b s2).
    { rewrite E, Es, enc_app by auto. reflexivity. }
    assert (Ltot : List.length (enc a s1) = total_bits a) by (apply enc_len; auto).
    rewrite field_unbits.
    2:{ rewrite Eenc, !app_length, enc_val_len, Ltot. lia. }
    rewrite !Nat2Z.id. unfold slice. rewrite Eenc, skipn_app_len by auto.
    rewrite firstn_app_len by apply enc_val_len.
    assert (El : lookup (names vs) s x = v).
    { rewrite E, Es. unfold names. rewrite map_app. cbn [map fst].
      rewrite lookup_app_r by (rewrite ?map_length; auto). cbn [lookup]. rewrite String.eqb_refl. reflexivity. }
    rewrite El. pose proof (dec_enc_val d v Hv) as D. unfold dec_val in D.
    destruct (Z.ltb_spec d 0) as [H0|H0]; auto. rewrite enc_val_bool in * by auto. cbn [unbits]. lia.
  Qed.

  Lemma token_offsets_ok : forall xs, (forall x, In x xs -> In x (names vs) /\ own_prefix vs x) ->
    exists fs, token_offsets (vlist (bit_decls 0 es)) (vlist (bit_decls 0 ss)) xs = Ok (Some fs) /\
      fields_in (total_bits vs) fs /\
      forall s, In s (dvecs (doms vs)) -> map (field (enc vs s)) fs = map (lookup (names vs) s) xs.
  Proof.
    induction xs as [|x xs IH]; intros Hx.
    - exists []. split; auto. split; auto. intros o w [].
    - destruct (Hx x (or_introl eq_refl)) as [Hin Ho].
      destruct (IH (fun y Hy => Hx y (or_intror Hy))) as (fs & Ef & If & Vf).
      unfold names in Hin. apply in_map_iff in Hin. destruct Hin as ([x' d] & Ex & Hin). cbn [fst] in Ex. subst x'.
      destruct (in_split _ _ Hin) as (a & b & E).
      exists ((Z.of_nat (total_bits a), Z.of_nat (blen d)) :: fs).
      cbn [token_offsets]. rewrite (find_own a x d b E Ho). cbn [bind]. rewrite Ef. cbn [obind bind].
      pose proof (blen_pos d). replace (blen d - 1 + 1)%nat with (blen d) by lia.
      split; auto. split.
      + intros o w [Hw|Hw]; [|apply If; auto]. injection Hw as <- <-.
        pose proof (blen_small x d Hin). split; [lia|]. split; [lia|].
        rewrite E, total_app. cbn [total_bits fold_right snd]. lia.
      + intros s Hs. cbn [map]. rewrite (field_value a x d b s E Hs). f_equal. auto.
  Qed.
  Lemma dist_values : forall fs xs s r, map (field (enc vs s)) fs = map (lookup (names vs) s) xs ->
    map (field (enc vs r)) fs = map (lookup (names vs) r) xs ->
    dist fs (enc vs s) (enc vs r) = value_dist vs xs s r.
  Proof.
    unfold dist, value_dist. induction fs as [|f fs IH]; intros [|x xs] s r H1 H2; try discriminate; auto.
    cbn [map] in *. injection H1 as E1 H1. injection H2 as E2 H2. cbn [zsum fold_right].
    change (fold_right Z.add 0) with zsum. rewrite (IH xs s r H1 H2), E1, E2. reflexivity.
  Qed.
  Lemma offsets_ok : forall xs txt, xs <> [] -> spaced xs txt ->
    (forall x, In x xs -> is_word x /\ In x (names vs) /\ own_prefix vs x) ->
    exists ev sv nb fs, expand_nonbool_variables (vlist es) (vlist ss) = Ok (ev, sv, nb) /\
      get_offsets ev sv txt = Ok (Some fs) /\
      fields_in (tree_size ev + tree_size sv) fs /\
      forall s r, In s (dvecs (doms vs)) -> In r (dvecs (doms vs)) ->
        dist fs (enc vs s) (enc vs r) = value_dist vs xs s r.
  Proof.
    intros xs txt Hne Ht Hx. destruct (token_offsets_ok xs) as (fs & E & I & V).
    { intros x Hin. apply (Hx x Hin). }
    do 3 eexists. exists fs. split; [apply expand_variables_ok|]. split; [|split].
    - unfold get_offsets. rewrite (strtok_spaced xs txt Ht).
      + destruct xs; [congruence|exact E].
      + apply Forall_forall. intros x Hin. apply (Hx x Hin).
    - rewrite !vlist_size, !bit_decls_len, <- total_app. exact I.
    - intros s r Hs Hr. apply dist_values; auto.
  Qed.
End Names.
