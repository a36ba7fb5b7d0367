(** Proofs about bit vectors, state vectors and automata under the expansion and
    compaction of integer variables. *)
From Coq Require Import List ZArith Bool Arith String Lia.
From Verif Require Import Base Strs Ptree Form Solve FSpec Automaton PtreeProofs Nonbool ExpProofs
  RSpec NonboolProofs EncProofs.
Import ListNotations.
Open Scope string_scope.
Open Scope list_scope.
Open Scope Z_scope.

(** ** Bit vectors *)
Lemma bitvec_from_ok : forall l i r, Forall is_bit l -> 0 <= i -> i + Z.of_nat (List.length l) <= 31 ->
  bitvec_from l i r = Ok (r + 2 ^ i * unbits l).
Proof.
  induction l as [|b l IH]; intros i r Hb Hi Hl.
  - cbn [bitvec_from unbits]. f_equal. lia.
  - inversion Hb as [|? ? B Hb']; subst. cbn [List.length] in Hl. cbn [bitvec_from unbits].
    destruct B as [->| ->]; cbn [Z.eqb].
    + rewrite IH by (auto; lia). f_equal. rewrite Z.pow_add_r by lia. lia.
    + destruct (Z.leb_spec 31 i) as [H|H]; [lia|]. rewrite IH by (auto; lia). f_equal.
      rewrite Z.pow_add_r by lia. lia.
Qed.
Lemma bitvec_to_int_ok : forall l, Forall is_bit l -> Z.of_nat (List.length l) <= 31 ->
  bitvec_to_int l = Ok (unbits l).
Proof. intros l H1 H2. unfold bitvec_to_int. rewrite bitvec_from_ok by (auto; lia). f_equal. lia. Qed.
Lemma int_to_bitvec_ok : forall x k, 1 <= k <= 31 ->
  int_to_bitvec x k = Ok (Some (map (bit x) (zseq 0 (k - 1)))).
Proof.
  intros x k Hk. unfold int_to_bitvec. destruct (Z.ltb_spec k 1) as [H|H]; [lia|].
  destruct (Z.ltb_spec 31 k) as [H'|H']; [lia|]. reflexivity.
Qed.
Lemma bits_mod : forall k x, 0 <= k -> map (bit (x mod 2 ^ k)) (zseq 0 (k - 1)) = map (bit x) (zseq 0 (k - 1)).
Proof.
  intros k x Hk. apply map_ext_in. intros i Hi. apply zseq_In in Hi. unfold bit.
  rewrite Z.mod_pow2_bits_low by lia. reflexivity.
Qed.
Lemma unbits_bits_mod : forall k x, 0 <= k -> unbits (map (bit x) (zseq 0 (k - 1))) = x mod 2 ^ k.
Proof.
  intros k x Hk. rewrite <- bits_mod by auto. apply unbits_bits; auto. apply Z.mod_pos_bound.
  apply Z.pow_pos_nonneg; lia.
Qed.
Lemma int_bitvec_int : forall x k, 1 <= k <= 31 -> exists v, int_to_bitvec x k = Ok (Some v) /\
  Forall is_bit v /\ Z.of_nat (List.length v) = k /\ bitvec_to_int v = Ok (x mod 2 ^ k).
Proof.
  intros x k Hk. rewrite int_to_bitvec_ok by auto. eexists. split; [reflexivity|].
  assert (L : Z.of_nat (List.length (map (bit x) (zseq 0 (k - 1)))) = k)
    by (rewrite map_length, zseq_len; lia).
  split; [apply bits_of_range|]. split; auto.
  rewrite bitvec_to_int_ok by (apply bits_of_range || lia). f_equal. apply unbits_bits_mod. lia.
Qed.
Lemma bitvec_int_bitvec : forall v, Forall is_bit v -> (1 <= List.length v <= 31)%nat ->
  exists x, bitvec_to_int v = Ok x /\ 0 <= x < 2 ^ Z.of_nat (List.length v) /\
            int_to_bitvec x (Z.of_nat (List.length v)) = Ok (Some v).
Proof.
  intros v Hv Hl. exists (unbits v). rewrite bitvec_to_int_ok by (auto; lia). split; auto.
  split; [apply unbits_range; auto|]. rewrite int_to_bitvec_ok by lia. do 2 f_equal.
  apply bits_unbits. auto.
Qed.

(** ** Runs of names *)
Definition hits (x : string) (l : list vdecl) : Prop := forall v, In v l -> String.prefix x (fst v) = true.
Definition misses (x : string) (l : list vdecl) : Prop := forall v, In v l -> String.prefix x (fst v) = false.
Lemma vlist_cons : forall y e (l : list vdecl), vlist ((y, e) :: l) = pnd PT_VARIABLE (Some y) e (vlist l) NULL.
Proof. reflexivity. Qed.
Lemma find_prefix_skip : forall x (a l : list vdecl) k, misses x a ->
  find_prefix (vlist (a ++ l)) x k = find_prefix (vlist l) x (k + List.length a)%nat.
Proof.
  intros x. induction a as [|[y e] a IH]; intros l k H.
  - cbn [app List.length]. rewrite Nat.add_0_r. reflexivity.
  - cbn [app]. rewrite vlist_cons. cbn [find_prefix starts_with].
    pose proof (H (y, e) (or_introl eq_refl)) as Hy. cbn [fst] in Hy. rewrite Hy. cbn [bind].
    rewrite IH by (intros v Hv; apply H; right; auto). f_equal. cbn [List.length]. lia.
Qed.
Lemma find_prefix_hit : forall x y e (l : list vdecl) k, String.prefix x y = true ->
  find_prefix (vlist ((y, e) :: l)) x k = Ok (k, Some (vlist ((y, e) :: l))).
Proof. intros x y e l k H. rewrite vlist_cons. cbn [find_prefix starts_with]. rewrite H. reflexivity. Qed.
Lemma run_prefix_ok : forall x (r q : list vdecl), hits x r -> misses x q ->
  exists q', run_prefix (vlist (r ++ q)) x = Ok (List.length r, q').
Proof.
  intros x. induction r as [|[y e] r IH]; intros q Hr Hq.
  - cbn [app]. destruct q as [|[y e] q]; [eexists; reflexivity|]. rewrite vlist_cons.
    cbn [run_prefix starts_with].
    pose proof (Hq (y, e) (or_introl eq_refl)) as Hy. cbn [fst] in Hy. rewrite Hy. eexists. reflexivity.
  - cbn [app]. rewrite vlist_cons. cbn [run_prefix starts_with].
    pose proof (Hr (y, e) (or_introl eq_refl)) as Hy. cbn [fst] in Hy. rewrite Hy. cbn [bind].
    destruct (IH q (fun v Hv => Hr v (or_intror Hv)) Hq) as [q' E]. rewrite E. cbn [bind fst snd].
    eexists. reflexivity.
Qed.
Lemma find_run_env : forall x (p r q S : list vdecl) y e, misses x p -> hits x ((y, e) :: r) -> misses x q ->
  find_run (vlist (p ++ ((y, e) :: r) ++ q)) (vlist S) x = Ok (Some (List.length p, List.length r)).
Proof.
  intros x p r q S y e Hp Hr Hq. unfold find_run. rewrite find_prefix_skip by auto. cbn [app].
  pose proof (Hr (y, e) (or_introl eq_refl)) as Hy. cbn [fst] in Hy.
  rewrite find_prefix_hit by auto. cbn [bind]. rewrite vlist_cons. cbn [bind].
  change (@app (string * Z)) with (@app vdecl).
  destruct (run_prefix_ok x r q (fun v Hv => Hr v (or_intror Hv)) Hq) as [q' E]. rewrite E.
  cbn [bind fst]. reflexivity.
Qed.
Lemma find_run_sys : forall x (a p r q : list vdecl) y e, misses x a -> misses x p ->
  hits x ((y, e) :: r) -> misses x q ->
  find_run (vlist a) (vlist (p ++ ((y, e) :: r) ++ q)) x =
  Ok (Some ((List.length a + List.length p)%nat, List.length r)).
Proof.
  intros x a p r q y e Ha Hp Hr Hq. unfold find_run.
  rewrite <- (app_nil_r a), find_prefix_skip by auto. cbn [vlist find_prefix bind]. rewrite app_nil_r.
  rewrite find_prefix_skip by auto. cbn [app].
  pose proof (Hr (y, e) (or_introl eq_refl)) as Hy. cbn [fst] in Hy.
  rewrite find_prefix_hit by auto. cbn [bind]. rewrite vlist_cons. cbn [bind].
  change (@app (string * Z)) with (@app vdecl).
  destruct (run_prefix_ok x r q (fun v Hv => Hr v (or_intror Hv)) Hq) as [q' E]. rewrite E.
  cbn [bind fst]. reflexivity.
Qed.

(** ** The names of a declaration list *)
(** what the code needs: the bits of an integer variable, and no other name, start
    with its name *)
Definition runs_ok (vs : list vdecl) : Prop :=
  forall x d, In (x, d) vs -> 0 <= d ->
    (forall b, In b (dnames (x, d)) -> String.prefix x b = true) /\
    forall y e, In (y, e) vs -> y <> x ->
      String.prefix x y = false /\ forall b, In b (dnames (y, e)) -> String.prefix x b = false.
Definition dbits (b : Z) (v : vdecl) : list vdecl :=
  if 0 <=? snd v then map (fun y => (y, b)) (bit_names (fst v) (snd v)) else [v].
Lemma bit_decls_eq : forall b vs, bit_decls b vs = flat_map (dbits b) vs.
Proof. reflexivity. Qed.
Lemma bit_decls_cons : forall b v vs, bit_decls b (v :: vs) = dbits b v ++ bit_decls b vs.
Proof. reflexivity. Qed.
Lemma bit_decls_app : forall b us vs, bit_decls b (us ++ vs) = bit_decls b us ++ bit_decls b vs.
Proof. intros. unfold bit_decls. apply flat_map_app. Qed.
Lemma dbits_names : forall b v, map fst (dbits b v) = dnames v.
Proof.
  intros b v. unfold dbits, dnames. destruct (0 <=? snd v); auto. rewrite map_map. apply map_id.
Qed.
Lemma dbits_In : forall b (v w : vdecl), In w (dbits b v) -> In (fst w) (dnames v).
Proof. intros b v w H. rewrite <- (dbits_names b). exact (in_map (@fst string Z) _ _ H). Qed.
Lemma names_In : forall x d (l : list vdecl), In (x, d) l -> In x (names l).
Proof. intros x d l H. exact (in_map (@fst string Z) _ _ H). Qed.
Lemma dbits_len : forall b x d, List.length (dbits b (x, d)) = blen d.
Proof.
  intros b x d. pose proof (f_equal (@List.length string) (dbits_names b (x, d))) as H.
  rewrite map_length, dnames_len in H. exact H.
Qed.
Lemma bit_decls_len : forall b vs, List.length (bit_decls b vs) = total_bits vs.
Proof.
  intros b. induction vs as [|[x d] vs IH]; auto. rewrite bit_decls_cons, app_length, dbits_len, IH.
  reflexivity.
Qed.
Lemma misses_app : forall x a b, misses x a -> misses x b -> misses x (a ++ b).
Proof. intros x a b Ha Hb v Hv. apply in_app_or in Hv. destruct Hv; auto. Qed.
Lemma misses_bits : forall vs x d us, runs_ok vs -> In (x, d) vs -> 0 <= d ->
  (forall v, In v us -> In v vs) -> ~ In x (names us) -> misses x (bit_decls 0 us).
Proof.
  intros vs x d us Hr Hx Hd Hin Hn v Hv. unfold bit_decls in Hv. apply in_flat_map in Hv.
  destruct Hv as ([y e] & Hy & Hv). fold (dbits 0 (y, e)) in Hv. apply dbits_In in Hv.
  destruct (Hr x d Hx Hd) as [_ H].
  apply (H y e (Hin _ Hy)); auto. intros ->. apply Hn. exact (names_In _ _ _ Hy).
Qed.
Lemma misses_done : forall vs x d us, runs_ok vs -> In (x, d) vs -> 0 <= d ->
  (forall v, In v us -> In v vs) -> ~ In x (names us) -> misses x us.
Proof.
  intros vs x d us Hr Hx Hd Hin Hn [y e] Hy. destruct (Hr x d Hx Hd) as [_ H].
  refine (proj1 (H y e (Hin _ Hy) _)). intros ->. apply Hn. exact (names_In _ _ _ Hy).
Qed.
Lemma hits_bits : forall vs x d b, runs_ok vs -> In (x, d) vs -> 0 <= d -> hits x (dbits b (x, d)).
Proof.
  intros vs x d b Hr Hx Hd v Hv. apply dbits_In in Hv.
  apply (Hr x d Hx Hd). auto.
Qed.
Lemma blen_pos : forall d, (1 <= blen d)%nat.
Proof.
  intros d. unfold blen. destruct (Z.ltb_spec d 0) as [H|H]; auto. pose proof (nbits_pos d H). lia.
Qed.
Lemma dbits_shape : forall x d, exists y e r, dbits 0 (x, d) = (y, e) :: r /\ List.length r = (blen d - 1)%nat.
Proof.
  intros x d. pose proof (dbits_len 0 x d) as L. pose proof (blen_pos d).
  destruct (dbits 0 (x, d)) as [|[y e] r]; cbn [List.length] in L; [lia|].
  exists y, e, r. split; auto. rewrite <- L. cbn. rewrite Nat.sub_0_r. reflexivity.
Qed.
(** position of the run of x while the variables [a] before it are in the list
    in any form *)
Lemma run_env : forall vs x d (p q S : list vdecl), runs_ok vs -> In (x, d) vs -> 0 <= d ->
  misses x p -> misses x q ->
  find_run (vlist (p ++ dbits 0 (x, d) ++ q)) (vlist S) x = Ok (Some (List.length p, (blen d - 1)%nat)).
Proof.
  intros vs x d p q S Hr Hx Hd Hp Hq. pose proof (hits_bits vs x d 0 Hr Hx Hd) as Hh.
  destruct (dbits_shape x d) as (y & e & r & E & L). rewrite E in *. rewrite <- L.
  apply find_run_env; auto.
Qed.
Lemma run_sys : forall vs x d (a p q : list vdecl), runs_ok vs -> In (x, d) vs -> 0 <= d ->
  misses x a -> misses x p -> misses x q ->
  find_run (vlist a) (vlist (p ++ dbits 0 (x, d) ++ q)) x =
  Ok (Some ((List.length a + List.length p)%nat, (blen d - 1)%nat)).
Proof.
  intros vs x d a p q Hr Hx Hd Ha Hp Hq. pose proof (hits_bits vs x d 0 Hr Hx Hd) as Hh.
  destruct (dbits_shape x d) as (y & e & r & E & L). rewrite E in *. rewrite <- L.
  apply find_run_sys; auto.
Qed.

(** ** Offsets *)
Definition ints (vs : list vdecl) : list vdecl := filter (fun v => 0 <=? snd v) vs.
Fixpoint offs (k : nat) (vs : list vdecl) : list (Z * Z) :=
  match vs with
  | [] => []
  | (_, d) :: vs' => (if 0 <=? d then [(Z.of_nat k, Z.of_nat (blen d))] else []) ++ offs (k + blen d) vs'
  end.
Lemma total_app : forall us vs, total_bits (us ++ vs) = (total_bits us + total_bits vs)%nat.
Proof. intros us vs. unfold total_bits. induction us as [|v us IH]; cbn [app fold_right]; auto. rewrite IH. lia. Qed.
Lemma get_offsets_ok : forall es ss, runs_ok (es ++ ss) -> NoDup (names (es ++ ss)) ->
  get_offsets_list (vlist (bit_decls 0 es)) (vlist (bit_decls 0 ss)) (vlist (ints (es ++ ss))) =
  Ok (Some (offs 0 (es ++ ss))).
Proof.
  intros es ss Hr Hn.
  assert (M : forall c a, es ++ ss = a ++ c ->
    get_offsets_list (vlist (bit_decls 0 es)) (vlist (bit_decls 0 ss)) (vlist (ints c)) =
    Ok (Some (offs (total_bits a) c))).
  { induction c as [|[x d] c IH]; intros a E; [reflexivity|].
    specialize (IH (a ++ [(x, d)])). rewrite <- app_assoc in IH. specialize (IH E).
    rewrite total_app in IH. cbn [total_bits fold_right snd] in IH. rewrite Nat.add_0_r in IH.
    unfold ints in *. cbn [filter snd offs]. destruct (Z.leb_spec 0 d) as [Hd|Hd]; [|exact IH].
    rewrite vlist_cons. cbn [get_offsets_list].
    assert (Hx : In (x, d) (es ++ ss)) by (rewrite E; apply in_or_app; right; left; auto).
    assert (F : find_run (vlist (bit_decls 0 es)) (vlist (bit_decls 0 ss)) x =
                Ok (Some (total_bits a, (blen d - 1)%nat))).
    { rewrite E in Hn. unfold names in Hn. rewrite map_app in Hn. cbn [map fst] in Hn.
      pose proof (NoDup_remove_2 _ _ _ Hn) as Hni. rewrite <- map_app in Hni. fold (names (a ++ c)) in Hni.
      assert (MB : forall us, (forall v, In v us -> In v (a ++ c)) -> misses x (bit_decls 0 us)).
      { intros us Hus. apply misses_bits with (vs := es ++ ss) (d := d); auto.
        - intros v Hv. rewrite E. apply Hus in Hv. apply in_app_or in Hv.
          apply in_or_app. destruct Hv; auto. right. right. auto.
        - intros Hin. apply Hni. apply in_map_iff in Hin. destruct Hin as (v & <- & Hv).
          apply in_map. auto. }
      destruct (Nat.le_gt_cases (List.length es) (List.length a)) as [L|L].
      - assert (Ea : exists a', a = es ++ a' /\ ss = a' ++ (x, d) :: c).
        { exists (skipn (List.length es) a). assert (E1 : firstn (List.length es) a = es).
          { pose proof (f_equal (firstn (List.length es)) E) as Q. rewrite firstn_app_len in Q by auto.
            rewrite firstn_app in Q. replace (List.length es - List.length a)%nat with O in Q by lia.
            cbn [firstn] in Q. rewrite app_nil_r in Q. auto. }
          split.
          + rewrite <- E1 at 1. symmetry. apply firstn_skipn.
          + pose proof (f_equal (skipn (List.length es)) E) as Q. rewrite skipn_app_len in Q by auto.
            rewrite skipn_app in Q. replace (List.length es - List.length a)%nat with O in Q by lia.
            exact Q. }
        destruct Ea as (a' & Ea & Es). rewrite Es, bit_decls_app, bit_decls_cons.
        rewrite (run_sys (es ++ ss) x d) by
          (auto; apply MB; intros v Hv; apply in_or_app; subst a; auto using in_or_app).
        rewrite Ea, total_app, !bit_decls_len. reflexivity.
      - assert (Ea : exists c', es = a ++ (x, d) :: c' /\ c = c' ++ ss).
        { exists (skipn (S (List.length a)) es).
          assert (E1 : firstn (S (List.length a)) es = a ++ [(x, d)]).
          { pose proof (f_equal (firstn (S (List.length a))) E) as Q. rewrite firstn_app in Q.
            replace (S (List.length a) - List.length es)%nat with O in Q by lia.
            rewrite firstn_O, app_nil_r in Q. rewrite Q. rewrite firstn_app.
            replace (S (List.length a) - List.length a)%nat with 1%nat by lia.
            rewrite firstn_all2 by lia. reflexivity. }
          assert (E2 : es = a ++ (x, d) :: skipn (S (List.length a)) es).
          { pose proof (firstn_skipn (S (List.length a)) es) as Q. rewrite E1, <- app_assoc in Q.
            symmetry. exact Q. }
          split; auto. remember (skipn (S (List.length a)) es) as c' eqn:Ec'. clear Ec' E1.
          rewrite E2, <- app_assoc in E. apply app_inv_head in E.
          cbn [app] in E. injection E as E. auto. }
        destruct Ea as (c' & Ea & Ec). rewrite Ea, bit_decls_app, bit_decls_cons.
        rewrite (run_env (es ++ ss) x d) by
          (auto; apply MB; intros v Hv; apply in_or_app; subst c; auto using in_or_app).
        rewrite !bit_decls_len. reflexivity. }
    rewrite F. cbn [bind]. rewrite IH. unfold obind. cbn [bind app].
    pose proof (blen_pos d). replace (blen d - 1 + 1)%nat with (blen d) by lia. reflexivity. }
  apply (M (es ++ ss) []). reflexivity.
Qed.

(** ** Expansion of states *)
Definition small (vs : list vdecl) : Prop := forall x d, In (x, d) vs -> d < 2 ^ 31.
Lemma nbits_small : forall d, 0 <= d < 2 ^ 31 -> 1 <= nbits d <= 31.
Proof.
  intros d Hd. split; [apply nbits_pos; lia|]. rewrite nbits_width by lia. unfold width.
  apply Z.max_lub; [lia|]. apply Z.le_trans with (Z.log2_up (2 ^ 31)); [apply Z.log2_up_le_mono; lia|].
  rewrite Z.log2_up_pow2; lia.
Qed.
Lemma store_at_ok : forall (pre : vec) y r x, store_at (pre ++ y :: r) (Z.of_nat (List.length pre)) x = Ok (pre ++ x :: r).
Proof.
  intros pre y r x. unfold store_at. rewrite app_length. cbn [List.length].
  destruct (Z.leb_spec 0 (Z.of_nat (List.length pre))) as [H|H]; [|lia].
  destruct (Z.ltb_spec (Z.of_nat (List.length pre)) (Z.of_nat (List.length pre + S (List.length r)))) as [H'|H']; [|lia].
  cbn [andb]. rewrite Nat2Z.id. f_equal. rewrite firstn_app_len by auto. f_equal. f_equal.
  replace (pre ++ y :: r) with ((pre ++ [y]) ++ r) by (rewrite <- app_assoc; reflexivity).
  apply skipn_app_len. rewrite app_length. cbn [List.length]. lia.
Qed.
Lemma store_seq_ok : forall l (pre old r : vec), List.length old = List.length l ->
  store_seq (pre ++ old ++ r) (Z.of_nat (List.length pre)) l = Ok (pre ++ l ++ r).
Proof.
  induction l as [|x l IH]; intros pre old r E; destruct old as [|y old]; try discriminate; auto.
  cbn [app store_seq]. rewrite store_at_ok. cbn [bind].
  replace (pre ++ x :: old ++ r) with ((pre ++ [x]) ++ old ++ r) by (rewrite <- app_assoc; reflexivity).
  replace (Z.of_nat (List.length pre) + 1) with (Z.of_nat (List.length (pre ++ [x])))
    by (rewrite app_length; cbn [List.length]; lia).
  rewrite IH by (injection E as E; auto). rewrite <- app_assoc. reflexivity.
Qed.
Lemma offs_ge : forall vs k o w r, offs k vs = (o, w) :: r -> Z.of_nat k <= o.
Proof.
  induction vs as [|[x d] vs IH]; intros k o w r E; [discriminate|]. cbn [offs] in E.
  destruct (0 <=? d).
  - cbn [app] in E. injection E as E _ _. lia.
  - cbn [app] in E. apply IH in E. lia.
Qed.
Lemma repeat_app_split : forall (a b : nat), repeat 0 (a + b) = repeat 0 a ++ repeat 0 b.
Proof. intros a b. apply repeat_app. Qed.
Lemma ens_ok : forall vs s fuel (pre : vec), small vs -> List.length s = List.length vs ->
  (List.length vs <= fuel)%nat ->
  ens_loop fuel (Z.of_nat (List.length pre + total_bits vs)) (offs (List.length pre) vs)
    (Z.of_nat (List.length pre)) s (pre ++ repeat 0 (total_bits vs)) = Ok (pre ++ enc vs s).
Proof.
  induction vs as [|[x d] vs IH]; intros s fuel pre Hs Hl Hf.
  - destruct s; [|discriminate]. cbn [total_bits fold_right offs repeat enc]. rewrite Nat.add_0_r.
    destruct fuel; cbn [ens_loop]; rewrite (proj2 (Z.leb_le _ _)) by lia; reflexivity.
  - destruct s as [|v s]; [discriminate|]. destruct fuel as [|fuel]; [cbn [List.length] in Hf; lia|].
    cbn [total_bits fold_right snd]. fold (total_bits vs). pose proof (blen_pos d) as Hb.
    cbn [ens_loop]. rewrite (proj2 (Z.leb_gt _ _)) by lia.
    assert (HI : forall f : vec, List.length f = blen d ->
       ens_loop fuel (Z.of_nat (List.length pre + (blen d + total_bits vs)))
         (offs (List.length pre + blen d) vs) (Z.of_nat (List.length pre + blen d)) s
         (pre ++ f ++ repeat 0 (total_bits vs)) = Ok (pre ++ f ++ enc vs s)).
    { intros f Lf. specialize (IH s fuel (pre ++ f)). rewrite app_length, Lf, <- !app_assoc in IH.
      rewrite Nat.add_assoc. apply IH.
      - intros y e Hy. apply (Hs y e). right; auto.
      - cbn [List.length] in Hl. lia.
      - cbn [List.length] in Hf. lia. }
    cbn [offs enc]. destruct (Z.leb_spec 0 d) as [Hd|Hd].
    + cbn [app]. rewrite Z.ltb_irrefl. pose proof (Hs x d (or_introl eq_refl)) as Hd2.
      assert (Eb : Z.of_nat (blen d) = nbits d).
      { unfold blen. rewrite (proj2 (Z.ltb_ge d 0)) by auto. pose proof (nbits_small d). lia. }
      rewrite Eb, int_to_bitvec_ok by (apply nbits_small; lia). rewrite <- enc_val_int by auto. cbn [bind].
      rewrite repeat_app_split, store_seq_ok by (rewrite repeat_length, enc_val_len; auto). cbn [bind].
      rewrite <- Eb, <- Nat2Z.inj_add. apply HI. apply enc_val_len.
    + assert (Eb : blen d = 1%nat) by (unfold blen; rewrite (proj2 (Z.ltb_lt d 0)) by auto; auto).
      rewrite enc_val_bool by auto. rewrite Eb in *. cbn [app Nat.add repeat].
      specialize (HI [v] eq_refl). cbn [app] in HI.
      replace (Z.of_nat (List.length pre) + 1) with (Z.of_nat (List.length pre + 1)) by lia.
      rewrite store_at_ok. cbn [bind].
      destruct (offs (List.length pre + 1) vs) as [|[o w] r] eqn:Eo; auto.
      apply offs_ge in Eo. rewrite (proj2 (Z.ltb_lt _ _)) by lia. exact HI.
Qed.
Lemma total_ge : forall vs, (List.length vs <= total_bits vs)%nat.
Proof.
  induction vs as [|[x d] vs IH]; auto. unfold total_bits in *. cbn [fold_right List.length snd].
  pose proof (blen_pos d). lia.
Qed.
Lemma expand_state_ok : forall vs s, vs <> [] -> small vs -> List.length s = List.length vs ->
  expand_nonbool_state s (offs 0 vs) (Z.of_nat (total_bits vs)) = Ok (Some (enc vs s)).
Proof.
  intros vs s Hne Hs Hl. unfold expand_nonbool_state. pose proof (total_ge vs).
  assert (0 < List.length vs)%nat by (destruct vs; [congruence|cbn [List.length]; lia]).
  rewrite (proj2 (Z.leb_gt _ _)) by lia. rewrite Nat2Z.id.
  pose proof (ens_ok vs s (S (List.length s)) [] Hs Hl) as E. cbn [List.length app Nat.add] in E.
  change (Z.of_nat 0) with 0 in E.
  rewrite E by lia. reflexivity.
Qed.
Lemma vlist_size : forall l : list vdecl, tree_size (vlist l) = List.length l.
Proof. induction l as [|[y e] l IH]; auto. rewrite vlist_cons. cbn [tree_size List.length]. rewrite IH. cbn [tree_size]. lia. Qed.
Lemma set_state_id : forall x, set_state (astate x) x = x.
Proof. intros []. reflexivity. Qed.
Lemma set_state_state : forall s x, astate (set_state s x) = s.
Proof. intros s []. reflexivity. Qed.
Lemma set_state_set : forall s t x, set_state s (set_state t x) = set_state s x.
Proof. intros s t []. reflexivity. Qed.
(** an automaton with the states rewritten *)
Definition with_states (g : vec -> vec) (A : aut) : aut := map (fun x => set_state (g (astate x)) x) A.
Lemma expand_states_ok : forall vs A, vs <> [] -> small vs ->
  (forall x, In x A -> List.length (astate x) = List.length vs) ->
  expand_states A (offs 0 vs) (Z.of_nat (total_bits vs)) = Ok (Some (with_states (enc vs) A)).
Proof.
  intros vs A Hne Hs. induction A as [|x A IH]; intros H; [reflexivity|]. cbn [expand_states].
  rewrite expand_state_ok by (auto; apply H; left; auto). unfold obind at 1. cbn [bind].
  rewrite IH by (intros y Hy; apply H; right; auto). reflexivity.
Qed.
Lemma ints_nil : forall (vs : list vdecl) s, ints vs = [] -> List.length s = List.length vs -> enc vs s = s.
Proof.
  induction vs as [|[x d] vs IH]; intros [|v s] H L; try discriminate; auto. unfold ints in H.
  cbn [filter snd] in H. destruct (Z.leb_spec 0 d) as [Hd|Hd]; [discriminate|].
  cbn [enc]. rewrite enc_val_bool by auto. cbn [app]. f_equal. apply IH; auto.
Qed.
Lemma expand_bool_ok : forall es ss A, runs_ok (es ++ ss) -> NoDup (names (es ++ ss)) -> small (es ++ ss) ->
  es ++ ss <> [] -> A <> [] ->
  (forall x, In x A -> List.length (astate x) = List.length (es ++ ss)) ->
  aut_expand_bool A (vlist (bit_decls 0 es)) (vlist (bit_decls 0 ss)) (vlist (ints (es ++ ss))) =
  Ok (with_states (enc (es ++ ss)) A, 0).
Proof.
  intros es ss A Hr Hn Hs Hne HA Hl. unfold aut_expand_bool. destruct A as [|x0 A0] eqn:EA; [congruence|].
  rewrite <- EA in *. clear HA.
  destruct (ints (es ++ ss)) as [|[y e] l] eqn:EI.
  - cbn [vlist]. do 2 f_equal. unfold with_states. symmetry. rewrite <- (map_id A) at 2.
    apply map_ext_in. intros x Hx. rewrite ints_nil by auto. apply set_state_id.
  - rewrite <- EI. destruct (vlist (ints (es ++ ss))) as [|t0 n0 v0 l0 r0] eqn:EV;
      [rewrite EI in EV; discriminate|].
    rewrite <- EV. rewrite get_offsets_ok by auto. cbn [bind].
    rewrite !vlist_size, !bit_decls_len, <- total_app.
    rewrite expand_states_ok by auto. reflexivity.
Qed.

(** ** Compaction *)
Lemma compact_state_ok : forall d v (sd tl : vec), 0 <= d < 2 ^ 31 -> In v (dom (wide d)) ->
  compact_state (List.length (sd ++ enc_val d v ++ tl)) (List.length sd) (blen d - 1) (sd ++ enc_val d v ++ tl)
  = Ok (sd ++ v :: tl).
Proof.
  intros d v sd tl Hd Hv. unfold compact_state. rewrite Nat.ltb_irrefl. pose proof (blen_pos d).
  replace (S (blen d - 1)) with (blen d) by lia. rewrite skipn_app_len by auto.
  rewrite firstn_app_len by apply enc_val_len.
  assert (Eb : Z.of_nat (blen d) = nbits d).
  { unfold blen. rewrite (proj2 (Z.ltb_ge d 0)) by lia. pose proof (nbits_small d). lia. }
  rewrite bitvec_to_int_ok.
  - cbn [bind]. pose proof (dec_enc_val d v Hv) as D. unfold dec_val in D.
    rewrite (proj2 (Z.ltb_ge d 0)) in D by lia. rewrite D. rewrite firstn_app_len by auto. do 3 f_equal.
    rewrite app_assoc. rewrite skipn_app_len by (rewrite app_length, enc_val_len; auto).
    rewrite app_length. rewrite (app_length sd), enc_val_len. rewrite firstn_all2; auto. lia.
  - apply enc_val_bits. auto.
  - rewrite enc_val_len, Eb. apply nbits_small. auto.
Qed.
Lemma drop_run_ok : forall (r q : list vdecl), drop_run (vlist (r ++ q)) (List.length r) = vlist q.
Proof. induction r as [|[y e] r IH]; intros q; [destruct q as [|[]]; reflexivity|]. apply (IH q). Qed.
Lemma compact_list_ok : forall x d (p q : list vdecl),
  compact_list (vlist (p ++ dbits 0 (x, d) ++ q)) (List.length p) (blen d - 1) x d = vlist (p ++ (x, d) :: q).
Proof.
  intros x d p q. destruct (dbits_shape x d) as (y & e & r & E & L). rewrite E, <- L. clear E L.
  induction p as [|[z f] p IH].
  - cbn [app List.length]. rewrite !vlist_cons. cbn [compact_list]. f_equal. apply drop_run_ok.
  - cbn [app List.length]. rewrite !vlist_cons. cbn [compact_list]. f_equal. exact IH.
Qed.
Lemma map_states : forall (g g' : vec -> vec) (h : vec -> out vec) A0,
  (forall x, In x A0 -> h (g (astate x)) = Ok (g' (astate x))) ->
  map_out (fun x => s <- h (astate x) ;; Ok (set_state s x)) (with_states g A0) = Ok (with_states g' A0).
Proof.
  intros g g' h A0 H. induction A0 as [|x A0 IH]; [reflexivity|]. cbn [with_states map map_out].
  rewrite set_state_state, H by (left; auto). cbn [bind]. fold (with_states g A0).
  rewrite IH by (intros y Hy; apply H; right; auto). cbn [bind]. rewrite set_state_set. reflexivity.
Qed.
(** a state with the first n variables compacted *)
Definition mix (n : nat) (vs : list vdecl) (s : vec) : vec := firstn n s ++ enc (skipn n vs) (skipn n s).
Lemma Forall2_cons2 : forall A B (R : A -> B -> Prop) x y l l', Forall2 R (x :: l) (y :: l') -> R x y /\ Forall2 R l l'.
Proof. intros A B R x y l l' H. inversion H; auto. Qed.
Lemma mix_step : forall (a c : list vdecl) x d s, repr (a ++ (x, d) :: c) s ->
  exists sd v tl, List.length sd = List.length a /\ In v (dom (wide d)) /\ 
    List.length tl = total_bits c /\
    mix (List.length a) (a ++ (x, d) :: c) s = sd ++ enc_val d v ++ tl /\
    mix (S (List.length a)) (a ++ (x, d) :: c) s = sd ++ v :: tl.
Proof.
  intros a c x d s Hs. pose proof (repr_len _ _ Hs) as L. rewrite app_length in L. cbn [List.length] in L.
  set (sd := firstn (List.length a) s).
  assert (Ld : List.length sd = List.length a) by (unfold sd; rewrite firstn_length; lia).
  assert (Es : s = sd ++ skipn (List.length a) s) by (unfold sd; rewrite firstn_skipn; auto).
  destruct (skipn (List.length a) s) as [|v tl] eqn:Et.
  { rewrite Es, app_length in L. cbn [List.length] in L. lia. }
  exists sd, v, (enc c tl). split; auto.
  unfold repr, doms in Hs. rewrite !map_app in Hs. rewrite Es in Hs.
  apply in_doms_app in Hs; [|rewrite !map_length; auto]. destruct Hs as [_ Hs]. cbn [map snd] in Hs.
  destruct (Forall2_cons2 _ _ _ _ _ _ _ Hs) as [Hv Hs']. split; auto. split.
  { apply enc_len. apply in_doms_len in Hs'. rewrite Hs'. unfold doms. rewrite !map_length. reflexivity. }
  split.
  - unfold mix. rewrite skipn_app_len by auto. rewrite Et. reflexivity.
  - unfold mix. replace (a ++ (x, d) :: c) with ((a ++ [(x, d)]) ++ c) by (rewrite <- app_assoc; reflexivity).
    rewrite skipn_app_len by (rewrite app_length; cbn [List.length]; lia).
    assert (E1 : firstn (S (List.length a)) s = sd ++ [v]).
    { rewrite Es. replace (sd ++ v :: tl) with ((sd ++ [v]) ++ tl) by (rewrite <- app_assoc; reflexivity).
      apply firstn_app_len. rewrite app_length. cbn [List.length]. lia. }
    assert (E2 : skipn (S (List.length a)) s = tl).
    { rewrite Es. replace (sd ++ v :: tl) with ((sd ++ [v]) ++ tl) by (rewrite <- app_assoc; reflexivity).
      apply skipn_app_len. rewrite app_length. cbn [List.length]. lia. }
    rewrite E1, E2, <- app_assoc. reflexivity.
Qed.
Lemma mix_step_bool : forall (a c : list vdecl) x d s, repr (a ++ (x, d) :: c) s -> d < 0 ->
  mix (List.length a) (a ++ (x, d) :: c) s = mix (S (List.length a)) (a ++ (x, d) :: c) s.
Proof.
  intros a c x d s Hs Hd. destruct (mix_step a c x d s Hs) as (sd & v & tl & _ & _ & _ & E1 & E2).
  rewrite E1, E2, enc_val_bool by auto. reflexivity.
Qed.
Lemma with_states_ext : forall g g' A0, (forall x, In x A0 -> g (astate x) = g' (astate x)) ->
  with_states g A0 = with_states g' A0.
Proof. intros g g' A0 H. unfold with_states. apply map_ext_in. intros x Hx. rewrite H by auto. reflexivity. Qed.

Section Compact.
  Variables (es ss : list vdecl) (A0 : aut).
  Let vs := es ++ ss.
  Hypotheses (Hr : runs_ok vs) (Hn : NoDup (names vs)) (Hs : small vs).
  Hypothesis HA : forall x, In x A0 -> repr vs (astate x).

  Lemma miss_other : forall (a c : list vdecl) x d, vs = a ++ (x, d) :: c -> 0 <= d ->
    misses x a /\ misses x c /\ misses x (bit_decls 0 c) /\
    forall us, (forall v, In v us -> In v (a ++ c)) -> misses x us /\ misses x (bit_decls 0 us).
  Proof.
    intros a c x d E Hd.
    assert (Hx : In (x, d) vs) by (rewrite E; apply in_or_app; right; left; auto).
    assert (Hni : ~ In x (names (a ++ c))).
    { pose proof Hn as Hn'. rewrite E in Hn'. unfold names in *. rewrite map_app in *. cbn [map fst] in Hn'.
      exact (NoDup_remove_2 _ _ _ Hn'). }
    assert (MB : forall us, (forall v, In v us -> In v (a ++ c)) -> misses x us /\ misses x (bit_decls 0 us)).
    { intros us Hus.
      assert (I : forall v, In v us -> In v vs).
      { intros v Hv. rewrite E. apply Hus in Hv. apply in_app_or in Hv.
        apply in_or_app. destruct Hv; auto. right. right. auto. }
      assert (N : ~ In x (names us)).
      { intros Hin. apply Hni. apply in_map_iff in Hin. destruct Hin as (v & <- & Hv).
        apply in_map. auto. }
      split; [apply misses_done with (vs := vs) (d := d)|apply misses_bits with (vs := vs) (d := d)]; auto. }
    split; [apply MB; auto using in_or_app|]. split; [apply MB; auto using in_or_app|].
    split; [apply MB; auto using in_or_app|]. exact MB.
  Qed.

  Lemma compact_env : forall c a, es = a ++ c ->
    compact_all (with_states (mix (List.length a) vs) A0) (vlist (a ++ bit_decls 0 c)) (vlist (bit_decls 0 ss))
      (vlist (ints c ++ ints ss)) =
    compact_all (with_states (mix (List.length es) vs) A0) (vlist es) (vlist (bit_decls 0 ss)) (vlist (ints ss)).
  Proof.
    induction c as [|[x d] c IH]; intros a E.
    - cbn [bit_decls flat_map ints filter app]. rewrite app_nil_r in *. subst a. reflexivity.
    - assert (EV : vs = a ++ (x, d) :: (c ++ ss)) by (unfold vs; rewrite E, <- app_assoc; reflexivity).
      specialize (IH (a ++ [(x, d)])). rewrite <- app_assoc in IH. specialize (IH E).
      rewrite app_length in IH. cbn [List.length] in IH. rewrite Nat.add_1_r in IH.
      rewrite <- app_assoc in IH. cbn [app] in IH. rewrite <- IH. clear IH.
      rewrite bit_decls_cons. destruct (Z.leb_spec 0 d) as [Hd|Hd].
      + unfold ints at 1. cbn [filter snd]. rewrite (proj2 (Z.leb_le 0 d)) by auto. cbn [app]. rewrite vlist_cons.
        cbn [compact_all]. unfold aut_compact_nonbool.
        destruct (miss_other _ _ _ _ EV Hd) as (Ma & _ & _ & MB).
        assert (Hx : In (x, d) vs) by (rewrite EV; apply in_or_app; right; left; auto).
        rewrite (run_env vs x d) by (auto; apply MB; intros v Hv; apply in_or_app; right; apply in_or_app; auto).
        cbn [bind]. rewrite (map_states _ (mix (S (List.length a)) vs)).
        * cbn [bind]. rewrite vlist_size. rewrite (proj2 (Nat.ltb_lt _ _)).
          -- rewrite compact_list_ok. reflexivity.
          -- rewrite !app_length, dbits_len. pose proof (blen_pos d). lia.
        * intros y Hy. pose proof (HA _ Hy) as Hrep. rewrite EV in Hrep.
          destruct (mix_step _ _ _ _ _ Hrep) as (sd & v & tl & L1 & Hv & L2 & E1 & E2).
          rewrite EV, E1, E2. rewrite !vlist_size.
          replace (_ + _)%nat with (List.length (sd ++ enc_val d v ++ tl)).
          -- rewrite <- L1. apply compact_state_ok; auto. split; auto. apply (Hs x d). auto.
          -- rewrite !app_length, enc_val_len, L1, L2, total_app, dbits_len, !bit_decls_len. lia.
      + unfold ints at 1. cbn [filter snd]. rewrite (proj2 (Z.leb_gt 0 d)) by auto. fold (ints c).
        unfold dbits. cbn [snd]. rewrite (proj2 (Z.leb_gt 0 d)) by auto. cbn [app].
        f_equal. apply with_states_ext. intros y Hy. rewrite EV. apply mix_step_bool; auto.
        rewrite <- EV. auto.
  Qed.
  Lemma compact_sys : forall c a, ss = a ++ c ->
    compact_all (with_states (mix (List.length es + List.length a) vs) A0) (vlist es)
      (vlist (a ++ bit_decls 0 c)) (vlist (ints c)) =
    Ok (with_states (mix (List.length vs) vs) A0, vlist es, vlist ss).
  Proof.
    induction c as [|[x d] c IH]; intros a E.
    - cbn [bit_decls flat_map ints filter vlist compact_all]. rewrite app_nil_r in *. subst a.
      unfold vs. rewrite app_length. reflexivity.
    - assert (EV : vs = (es ++ a) ++ (x, d) :: c) by (unfold vs; rewrite E, <- app_assoc; reflexivity).
      specialize (IH (a ++ [(x, d)])). rewrite <- app_assoc in IH. specialize (IH E).
      rewrite app_length in IH. cbn [List.length] in IH. rewrite Nat.add_1_r, Nat.add_succ_r in IH.
      rewrite <- app_assoc in IH. cbn [app] in IH. rewrite <- IH. clear IH.
      rewrite bit_decls_cons. destruct (Z.leb_spec 0 d) as [Hd|Hd].
      + unfold ints at 1. cbn [filter snd]. rewrite (proj2 (Z.leb_le 0 d)) by auto. rewrite vlist_cons.
        cbn [compact_all]. unfold aut_compact_nonbool.
        destruct (miss_other _ _ _ _ EV Hd) as (Ma & _ & _ & MB).
        assert (Hx : In (x, d) vs) by (rewrite EV; apply in_or_app; right; left; auto).
        rewrite (run_sys vs x d) by (auto; apply MB; intros v Hv; rewrite <- app_assoc; apply in_or_app;
          auto; right; apply in_or_app; auto).
        cbn [bind]. rewrite (map_states _ (mix (S (List.length es + List.length a)) vs)).
        * cbn [bind]. rewrite vlist_size. rewrite (proj2 (Nat.ltb_ge _ _)) by lia.
          rewrite Nat.add_comm, Nat.add_sub. rewrite compact_list_ok. reflexivity.
        * intros y Hy. pose proof (HA _ Hy) as Hrep. rewrite EV in Hrep.
          destruct (mix_step _ _ _ _ _ Hrep) as (sd & v & tl & L1 & Hv & L2 & E1 & E2).
          rewrite app_length in E1, E2, L1.
          rewrite EV, E1, E2. rewrite !vlist_size.
          replace (_ + _)%nat with (List.length (sd ++ enc_val d v ++ tl)) at 1.
          -- rewrite <- L1. apply compact_state_ok; auto. split; auto. apply (Hs x d). auto.
          -- rewrite !app_length, enc_val_len, L1, L2, dbits_len, !bit_decls_len. lia.
      + unfold ints at 1. cbn [filter snd]. rewrite (proj2 (Z.leb_gt 0 d)) by auto. fold (ints c).
        unfold dbits. cbn [snd]. rewrite (proj2 (Z.leb_gt 0 d)) by auto. cbn [app].
        f_equal. apply with_states_ext. intros y Hy. rewrite EV.
        rewrite <- app_length. apply mix_step_bool; auto.
        rewrite <- EV. auto.
  Qed.
  (** compaction of an expanded strategy *)
  Lemma compact_ok :
    compact_all (with_states (enc vs) A0) (vlist (bit_decls 0 es)) (vlist (bit_decls 0 ss))
      (vlist (ints vs)) = Ok (A0, vlist es, vlist ss).
  Proof.
    assert (EI : ints vs = ints es ++ ints ss) by (unfold vs, ints; apply filter_app). rewrite EI.
    pose proof (compact_env es [] eq_refl) as E. cbn [app List.length] in E.
    pose proof (compact_sys ss [] eq_refl) as E'. cbn [app List.length] in E'. rewrite Nat.add_0_r in E'.
    rewrite E' in E. clear E'.
    replace (with_states (mix 0 vs) A0) with (with_states (enc vs) A0) in E by reflexivity.
    rewrite E. do 3 f_equal. unfold with_states. rewrite <- (map_id A0) at 2. apply map_ext_in.
    intros x Hx. unfold mix. rewrite skipn_all. cbn [enc]. rewrite app_nil_r.
    rewrite <- (repr_len _ _ (HA x Hx)), firstn_all. apply set_state_id.
  Qed.
End Compact.
