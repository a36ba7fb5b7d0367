(** Integer states and their Boolean encodings. *)
From Coq Require Import List ZArith Lia Bool Arith String.
From Verif Require Import Base Strs Bdd Support Ops Ptree Form Solve FSpec Nonbool RSpec Automaton Synth
  PtreeProofs ExpProofs SolveProofs NonboolProofs.
Import ListNotations.
Open Scope string_scope.
Open Scope list_scope.
Open Scope Z_scope.

(** ** The values in variable lists do not matter to the solver *)
Lemma find_names : forall vs vs' n i, names vs = names vs' ->
  find_list_from (vlist vs) PT_VARIABLE n 0 i = find_list_from (vlist vs') PT_VARIABLE n 0 i.
Proof.
  induction vs as [|[x d] vs IH]; intros [|[x' d'] vs'] n i H; try discriminate; auto.
  simpl in H. injection H as -> H. cbn [vlist find_list_from].
  rewrite (IH vs' n (i + 1) H). reflexivity.
Qed.
Lemma size_names : forall vs vs', names vs = names vs' -> tree_size (vlist vs) = tree_size (vlist vs').
Proof.
  intros vs vs' H. rewrite (tree_size_vlist vs), (tree_size_vlist vs').
  apply (f_equal (@List.length string)) in H. unfold names in H. rewrite !map_length in H. exact H.
Qed.
Lemma ptree_BDD_names : forall m vs vs', names vs = names vs' ->
  forall t, ptree_BDD m t (vlist vs) = ptree_BDD m t (vlist vs').
Proof.
  intros m vs vs' H. induction t as [|t n v l IHl r IHr]; auto.
  cbn [ptree_BDD]. unfold find_list_item. rewrite (find_names vs vs' n 0 H), (size_names vs vs' H).
  rewrite IHl, IHr. reflexivity.
Qed.
Definition same_but_domains (F F' : fspec) : Prop :=
  names (fs_evars F) = names (fs_evars F') /\ names (fs_svars F) = names (fs_svars F') /\
  fs_einit F = fs_einit F' /\ fs_sinit F = fs_sinit F' /\
  fs_etrans F = fs_etrans F' /\ fs_strans F = fs_strans F' /\
  fs_egoals F = fs_egoals F' /\ fs_sgoals F = fs_sgoals F'.
Lemma map_out_ext : forall A B (f g : A -> out B) l, (forall a, f a = g a) -> map_out f l = map_out g l.
Proof. induction l; simpl; intros H; auto. rewrite H. rewrite IHl; auto. Qed.
Section Same.
  Variables F F' : fspec.
  Hypothesis H : same_but_domains F F'.
  Lemma same_num_env : num_env (spec_of F) = num_env (spec_of F').
  Proof. apply size_names. apply H. Qed.
  Lemma same_num_sys : num_sys (spec_of F) = num_sys (spec_of F').
  Proof. apply size_names. apply H. Qed.
  Lemma same_to_BDD : forall t, to_BDD (spec_of F) t = to_BDD (spec_of F') t.
  Proof.
    intros t. unfold to_BDD, nvars, all_vars. rewrite same_num_env, same_num_sys.
    cbn [spec_of evar_list svar_list]. rewrite !link_vlist. apply ptree_BDD_names.
    unfold names. rewrite !map_app. exact (f_equal2 (@app _) (proj1 H) (proj1 (proj2 H))).
  Qed.
  Lemma same_init_BDD : forall t, init_BDD (spec_of F) t = init_BDD (spec_of F') t.
  Proof.
    intros t. unfold init_BDD, nvars. rewrite same_num_env, same_num_sys.
    destruct t; auto. apply same_to_BDD.
  Qed.
  Lemma same_spec_BDDs : spec_BDDs (spec_of F) = spec_BDDs (spec_of F').
  Proof.
    unfold spec_BDDs, env_goals'. cbn [spec_of env_trans sys_trans env_goals sys_goals].
    destruct H as (_ & _ & _ & _ & H3 & H4 & H5 & H6). rewrite H3, H4, H5, H6, !same_to_BDD.
    assert (Hm : forall l, map_out (to_BDD (spec_of F)) l = map_out (to_BDD (spec_of F')) l)
      by (intros; apply map_out_ext, same_to_BDD).
    rewrite !Hm. reflexivity.
  Qed.
  Lemma same_check : forall fuel flags,
    check_realizable (spec_of F) fuel flags = check_realizable (spec_of F') fuel flags.
  Proof.
    intros. unfold check_realizable, compute_winning_set, check_realizable_internal.
    rewrite same_spec_BDDs, same_num_env, same_num_sys, !same_init_BDD.
    unfold realizable_BDD, nvars. rewrite same_num_env, same_num_sys.
    cbn [spec_of env_init sys_init]. destruct H as (_ & _ & H1 & H2 & _). rewrite H1, H2. reflexivity.
  Qed.
  Lemma same_synthesize : forall orc alloc fuel flags,
    synthesize (spec_of F) orc alloc fuel flags = synthesize (spec_of F') orc alloc fuel flags.
  Proof.
    intros. unfold synthesize. rewrite same_spec_BDDs, same_num_env, same_num_sys, !same_init_BDD.
    cbn [spec_of env_init sys_init]. destruct H as (_ & _ & H1 & H2 & _). rewrite H1, H2. reflexivity.
  Qed.
End Same.
Lemma bit_decls_names : forall b b' vs, names (bit_decls b vs) = names (bit_decls b' vs).
Proof.
  induction vs as [|[x d] vs IH]; auto. unfold bit_decls, names in *. cbn [flat_map fst snd].
  rewrite !map_app, IH. f_equal. destruct (0 <=? d); auto. rewrite !map_map. reflexivity.
Qed.
Lemma solver_spec_same : forall b b' flags R, same_but_domains (solver_spec b flags R) (solver_spec b' flags R).
Proof. intros. repeat split; apply bit_decls_names. Qed.

(** ** Two valuations at once: one for variables alone, one for comparisons *)
Fixpoint sem2 (cb nb ci ni : string -> Z) (f : form) : bool :=
  match f with
  | FTrue => true
  | FFalse => false
  | FVar x => cb x =? 1
  | FNext x => nb x =? 1
  | FCmp p x o k => cmp_sem o (if p then ni x else ci x) k
  | FNot f => negb (sem2 cb nb ci ni f)
  | FAnd f g => sem2 cb nb ci ni f && sem2 cb nb ci ni g
  | FOr f g => sem2 cb nb ci ni f || sem2 cb nb ci ni g
  | FImp f g => implb (sem2 cb nb ci ni f) (sem2 cb nb ci ni g)
  | FIff f g => Bool.eqb (sem2 cb nb ci ni f) (sem2 cb nb ci ni g)
  end.
Lemma sem2_boolean : forall cb nb ci ni f, boolean f = true -> sem2 cb nb ci ni f = sem cb nb f.
Proof.
  induction f; cbn [boolean sem2 sem]; intros H; auto; try discriminate;
    try (apply andb_true_iff in H; destruct H); rewrite ?IHf1, ?IHf2, ?IHf by auto; reflexivity.
Qed.
Lemma sem2_agree : forall cb nb ci ni f,
  (forall y, In y (bares false f) -> cb y = ci y) -> (forall y, In y (bares true f) -> nb y = ni y) ->
  sem2 cb nb ci ni f = sem ci ni f.
Proof.
  induction f; cbn [bares sem2 sem]; intros H1 H2; auto;
    try (rewrite IHf1, IHf2 by (intros; auto with datatypes); reflexivity).
  - rewrite H1 by (left; auto). reflexivity.
  - rewrite H2 by (left; auto). reflexivity.
  - rewrite IHf by auto. reflexivity.
Qed.
Section Two.
  Variables cb nb ci ni : string -> Z.
  (** the bits of x encode its value, which is in the domain, or at least
      representable when [f] asks only equations *)
  Definition fits (x : string) (d : Z) (f : form) (vb vi : string -> Z) : Prop :=
    bits_are x d vb (vi x) /\ (eq_only x f = true /\ 0 <= vi x < 2 ^ nbits d \/ 0 <= vi x <= d).
  Lemma fits_l : forall x d f g h vb vi, eq_only x h = eq_only x f && eq_only x g ->
    fits x d h vb vi -> fits x d f vb vi.
  Proof. intros x d f g h vb vi E [H1 [[H2 H3]|H2]]; split; auto. left. rewrite E in H2. apply andb_true_iff in H2. tauto. Qed.
  Lemma fits_r : forall x d f g h vb vi, eq_only x h = eq_only x f && eq_only x g ->
    fits x d h vb vi -> fits x d g vb vi.
  Proof. intros x d f g h vb vi E [H1 [[H2 H3]|H2]]; split; auto. left. rewrite E in H2. apply andb_true_iff in H2. tauto. Qed.
  Lemma expand1_sem2 : forall x d, 0 <= d -> forall f,
    (In x (cmps false f) -> fits x d f cb ci) -> (In x (cmps true f) -> fits x d f nb ni) ->
    sem2 cb nb ci ni (expand1 x d f) = sem2 cb nb ci ni f.
  Proof.
    intros x d Hd. induction f; intros H1 H2; cbn [expand1 sem2]; auto;
      try (rewrite IHf1;
           [rewrite IHf2; [reflexivity|
             intros Hin; refine (fits_r x d f1 f2 (FAnd f1 f2) _ _ eq_refl _); apply H1; cbn [cmps]; auto with datatypes|
             intros Hin; refine (fits_r x d f1 f2 (FAnd f1 f2) _ _ eq_refl _); apply H2; cbn [cmps]; auto with datatypes]
           |intros Hin; refine (fits_l x d f1 f2 (FAnd f1 f2) _ _ eq_refl _); apply H1; cbn [cmps]; auto with datatypes
           |intros Hin; refine (fits_l x d f1 f2 (FAnd f1 f2) _ _ eq_refl _); apply H2; cbn [cmps]; auto with datatypes]).
    - destruct (String.eqb x0 x) eqn:E; auto. apply String.eqb_eq in E. subst x0.
      rewrite sem2_boolean by (apply pure_cmp; auto).
      assert (Hu : fits x d (FCmp primed x o k) (if primed then nb else cb) (if primed then ni else ci)).
      { destruct primed; cbn [cmps Bool.eqb In] in H1, H2; [apply H2|apply H1]; left; reflexivity. }
      destruct Hu as [He Hr].
      rewrite (exp_cmp_sem x d Hd cb nb primed ((if primed then ni else ci) x)); auto.
      + destruct primed; reflexivity.
      + destruct Hr as [[Hq Hr]|Hr]; [|right; exact Hr].
        cbn [eq_only] in Hq. destruct o; try (left; split; [reflexivity|exact Hr]);
          rewrite String.eqb_refl in Hq; discriminate Hq.
    - rewrite IHf by auto. reflexivity.
  Qed.
  Lemma eq_only_boolean : forall x f, boolean f = true -> eq_only x f = true.
  Proof.
    induction f; simpl; intros H; auto; try discriminate;
      apply andb_true_iff in H; destruct H; rewrite IHf1, IHf2; auto.
  Qed.
  Lemma eq_only_expand1 : forall y e, 0 <= e -> forall x f, eq_only x f = true -> eq_only x (expand1 y e f) = true.
  Proof.
    intros y e He x. induction f; intros H; cbn [expand1] in *; auto;
      try (cbn [eq_only] in *; apply andb_true_iff in H; destruct H; rewrite IHf1, IHf2; auto; fail).
    - destruct (String.eqb x0 y); auto. apply eq_only_boolean, pure_cmp; auto.
  Qed.
  Lemma expandS_cons : forall x d vs f,
    expandS ((x, d) :: vs) f = expandS vs (if 0 <=? d then expand1 x d f else f).
  Proof. reflexivity. Qed.
  Lemma expandS_sem2 : forall vs f,
    (forall x d, In (x, d) vs -> 0 <= d -> (In x (cmps false f) -> fits x d f cb ci) /\
                                          (In x (cmps true f) -> fits x d f nb ni)) ->
    sem2 cb nb ci ni (expandS vs f) = sem2 cb nb ci ni f.
  Proof.
    induction vs as [|[x d] vs IH]; intros f H; auto. rewrite expandS_cons.
    destruct (0 <=? d) eqn:E; [|apply IH; intros; apply H; auto; right; auto].
    apply Z.leb_le in E. destruct (H x d (or_introl eq_refl) E) as [H1 H2].
    rewrite IH.
    - apply expand1_sem2; auto.
    - intros y e Hin He. rewrite !expand1_cmps by auto.
      destruct (H y e (or_intror Hin) He) as [H3 H4].
      split; intros Hy; apply filter_In in Hy; destruct Hy as [Hy _];
        [specialize (H3 Hy); rename H3 into Hq|specialize (H4 Hy); rename H4 into Hq];
        destruct Hq as [Hq1 Hq2]; split; auto; (destruct Hq2 as [[Ha Hb]|Ha]; [left|right]; auto);
        split; auto; apply eq_only_expand1; auto.
  Qed.
End Two.
Lemma expandS_cmps : forall p vs f y, In y (cmps p (expandS vs f)) ->
  In y (cmps p f) /\ forall d, In (y, d) vs -> d < 0.
Proof.
  intros p. induction vs as [|[x d] vs IH]; intros f y H.
  - split; auto. intros d [].
  - rewrite expandS_cons in H. apply IH in H. destruct H as [H1 H2].
    destruct (0 <=? d) eqn:E.
    + apply Z.leb_le in E. rewrite expand1_cmps in H1 by auto. apply filter_In in H1. destruct H1 as [H1 H3].
      split; auto. intros d' [Eq|Hin]; [|auto]. injection Eq as -> <-.
      rewrite String.eqb_refl in H3. discriminate H3.
    + apply Z.leb_gt in E. split; auto. intros d' [Eq|Hin]; [|auto]. injection Eq as _ <-. auto.
Qed.
Lemma expandS_bares : forall p vs f y, In y (bares p (expandS vs f)) ->
  In y (bares p f) \/ exists x d, In (x, d) vs /\ 0 <= d /\ In x (cmps p f) /\ In y (bit_names x d).
Proof.
  intros p. induction vs as [|[x d] vs IH]; intros f y H; auto.
  rewrite expandS_cons in H. apply IH in H. destruct (0 <=? d) eqn:E.
  - apply Z.leb_le in E. destruct H as [H|(x' & d' & H1 & H2 & H3 & H4)].
    + apply expand1_bares in H; auto. destruct H as [H|[H1 H2]]; auto.
      right. exists x, d. split; [left; auto|]. auto.
    + rewrite expand1_cmps in H3 by auto. apply filter_In in H3. destruct H3 as [H3 _].
      right. exists x', d'. split; [right; auto|]. auto.
  - destruct H as [H|(x' & d' & H1 & H2 & H3 & H4)]; auto.
    right. exists x', d'. split; [right; auto|]. auto.
Qed.
Lemma expandS_and : forall vs f g, expandS vs (FAnd f g) = FAnd (expandS vs f) (expandS vs g).
Proof.
  induction vs as [|[x d] vs IH]; intros f g; auto. rewrite !expandS_cons.
  destruct (0 <=? d); [|apply IH]. cbn [expand1]. apply IH.
Qed.
Lemma expandS_true : forall vs, expandS vs FTrue = FTrue.
Proof. induction vs as [|[x d] vs IH]; auto. rewrite expandS_cons. destruct (0 <=? d); auto. Qed.

(** ** Encoding of vectors *)
Definition wide (d : Z) : Z := if d <? 0 then d else 2 ^ nbits d - 1.
Definition in_doms (ds : list Z) (s : vec) : Prop := Forall2 (fun d x => In x (dom d)) ds s.
Lemma dvecs_In : forall ds s, In s (dvecs ds) <-> in_doms ds s.
Proof.
  unfold in_doms. induction ds as [|d ds IH]; intros s; simpl.
  - split; [intros [<-|[]]; constructor|]. inversion 1. auto.
  - rewrite in_flat_map. split.
    + intros (x & Hx & Hs). apply in_map_iff in Hs. destruct Hs as (r & <- & Hr).
      constructor; auto. apply IH; auto.
    + inversion 1; subst. exists y. split; auto. apply in_map. apply IH; auto.
Qed.
Lemma dom_bool : forall d x, d < 0 -> (In x (dom d) <-> x = 0 \/ x = 1).
Proof.
  intros d x H. unfold dom. rewrite (proj2 (Z.ltb_lt d 0)) by auto. simpl.
  split; intros; intuition.
Qed.
Lemma dom_int : forall d x, 0 <= d -> (In x (dom d) <-> 0 <= x <= d).
Proof. intros d x H. unfold dom. rewrite (proj2 (Z.ltb_ge d 0)) by auto. apply zseq_In. Qed.
Lemma wide_int : forall d, 0 <= d -> wide d = 2 ^ nbits d - 1 /\ 0 <= wide d /\ d <= wide d.
Proof.
  intros d H. unfold wide. rewrite (proj2 (Z.ltb_ge d 0)) by auto.
  pose proof (nbits_bound d H). lia.
Qed.
Lemma wide_bool : forall d, d < 0 -> wide d = d.
Proof. intros d H. unfold wide. rewrite (proj2 (Z.ltb_lt d 0)) by auto. reflexivity. Qed.
Lemma in_wide : forall d x, In x (dom d) -> In x (dom (wide d)).
Proof.
  intros d x H. destruct (Z.lt_ge_cases d 0) as [Hd|Hd]; [rewrite wide_bool; auto|].
  pose proof (wide_int d Hd). rewrite dom_int in * by lia. lia.
Qed.
Lemma in_doms_wide : forall ds s, in_doms ds s -> in_doms (map wide ds) s.
Proof. unfold in_doms. induction 1; simpl; constructor; auto. apply in_wide; auto. Qed.
Lemma in_doms_app : forall a b s t, List.length a = List.length s ->
  (in_doms (a ++ b) (s ++ t) <-> in_doms a s /\ in_doms b t).
Proof.
  unfold in_doms. induction a as [|d a IH]; intros b [|x s] t Hl; try discriminate; simpl.
  - split; [intros; split; auto; constructor|tauto].
  - injection Hl as Hl. split.
    + inversion 1; subst. apply IH in H5; auto. destruct H5. split; auto.
    + intros [H1 H2]. inversion H1; subst. constructor; auto. apply IH; auto.
Qed.
Lemma in_doms_len : forall ds s, in_doms ds s -> List.length s = List.length ds.
Proof. unfold in_doms. induction 1; simpl; auto. Qed.

Definition bit (v i : Z) : Z := if Z.testbit v i then 1 else 0.
Lemma enc_val_int : forall d v, 0 <= d -> enc_val d v = map (bit v) (zseq 0 (nbits d - 1)).
Proof.
  intros d v H. unfold enc_val. rewrite (proj2 (Z.ltb_ge d 0)) by auto.
  rewrite <- nbits_width by auto. reflexivity.
Qed.
Lemma enc_val_bool : forall d v, d < 0 -> enc_val d v = [v].
Proof. intros d v H. unfold enc_val. rewrite (proj2 (Z.ltb_lt d 0)) by auto. reflexivity. Qed.
Definition blen (d : Z) : nat := if d <? 0 then 1%nat else Z.to_nat (nbits d).
Lemma zseq_len : forall lo hi, List.length (zseq lo hi) = Z.to_nat (hi - lo + 1).
Proof. intros. unfold zseq. apply zseq_from_length. Qed.
Lemma enc_val_len : forall d v, List.length (enc_val d v) = blen d.
Proof.
  intros d v. unfold blen. destruct (Z.ltb_spec d 0) as [H|H].
  - rewrite enc_val_bool by auto. reflexivity.
  - rewrite enc_val_int, map_length, zseq_len by auto. f_equal. lia.
Qed.
(** the value of bits, least significant first *)
Fixpoint unbits (l : vec) : Z :=
  match l with [] => 0 | b :: r => b + 2 * unbits r end.
Definition is_bit (b : Z) : Prop := b = 0 \/ b = 1.
Lemma unbits_range : forall l, Forall is_bit l -> 0 <= unbits l < 2 ^ Z.of_nat (List.length l).
Proof.
  induction 1 as [|b l Hb Hl IH]; [simpl; lia|]. cbn [unbits List.length].
  rewrite Nat2Z.inj_succ, Z.pow_succ_r by lia. destruct Hb; subst; lia.
Qed.
Lemma unbits_bit : forall l, Forall is_bit l -> forall i, (i < List.length l)%nat ->
  bit (unbits l) (Z.of_nat i) = nth i l 0.
Proof.
  induction 1 as [|b l Hb Hl IH]; intros i Hi; [simpl in Hi; lia|].
  unfold bit in *. cbn [unbits]. destruct i as [|i].
  - simpl nth. change (Z.of_nat 0) with 0.
    destruct Hb; subst.
    + rewrite Z.add_0_l, Z.testbit_even_0. reflexivity.
    + rewrite Z.add_comm, Z.testbit_odd_0. reflexivity.
  - cbn [nth]. simpl in Hi. rewrite <- IH by lia. rewrite Nat2Z.inj_succ.
    destruct Hb; subst.
    + rewrite Z.add_0_l, Z.testbit_even_succ by lia. reflexivity.
    + rewrite Z.add_comm, Z.testbit_odd_succ by lia. reflexivity.
Qed.
Lemma bits_unbits : forall l, Forall is_bit l ->
  map (bit (unbits l)) (zseq 0 (Z.of_nat (List.length l) - 1)) = l.
Proof.
  intros l H. unfold zseq. replace (Z.to_nat (Z.of_nat (List.length l) - 1 - 0 + 1)) with (List.length l) by lia.
  apply (nth_ext _ _ 0 0); [rewrite map_length, zseq_from_length; auto|].
  rewrite map_length, zseq_from_length. intros i Hi.
  rewrite (nth_indep _ 0 (bit (unbits l) 0)) by (rewrite map_length, zseq_from_length; auto).
  rewrite map_nth, zseq_from_nth by auto. apply unbits_bit; auto.
Qed.
Lemma bits_of_range : forall k v, Forall is_bit (map (bit v) (zseq 0 k)).
Proof.
  intros k v. apply Forall_forall. intros b Hb. apply in_map_iff in Hb. destruct Hb as (i & <- & _).
  unfold bit, is_bit. destruct (Z.testbit v i); auto.
Qed.
Lemma unbits_bits : forall k v, 0 <= k -> 0 <= v < 2 ^ k -> unbits (map (bit v) (zseq 0 (k - 1))) = v.
Proof.
  intros k v Hk Hv. set (l := map (bit v) (zseq 0 (k - 1))).
  assert (Hl : List.length l = Z.to_nat k).
  { unfold l. rewrite map_length, zseq_len. f_equal. lia. }
  assert (Hb : Forall is_bit l) by apply bits_of_range.
  pose proof (unbits_range l Hb) as Hr. rewrite Hl, Z2Nat.id in Hr by auto.
  apply (testbit_ext k); auto. intros i Hi.
  pose proof (unbits_bit l Hb (Z.to_nat i)) as Hu. rewrite Z2Nat.id in Hu by lia.
  rewrite Hl in Hu. specialize (Hu ltac:(lia)). unfold l in Hu at 2.
  rewrite (nth_indep _ 0 (bit v 0)) in Hu by (rewrite map_length, zseq_len; lia).
  rewrite map_nth in Hu. unfold zseq in Hu. rewrite zseq_from_nth in Hu by lia.
  rewrite Z.add_0_l, Z2Nat.id in Hu by lia. unfold bit in Hu.
  destruct (Z.testbit (unbits l) i), (Z.testbit v i); auto; discriminate.
Qed.

Definition dec_val (d : Z) (l : vec) : Z := if d <? 0 then hd 0 l else unbits l.
Fixpoint dec (vs : list vdecl) (t : vec) : vec :=
  match vs with
  | [] => []
  | (_, d) :: vs' => dec_val d (firstn (blen d) t) :: dec vs' (skipn (blen d) t)
  end.
Lemma enc_val_bits : forall d v, In v (dom (wide d)) -> Forall is_bit (enc_val d v).
Proof.
  intros d v H. destruct (Z.lt_ge_cases d 0) as [Hd|Hd].
  - rewrite enc_val_bool by auto. rewrite wide_bool, dom_bool in H by auto. constructor; auto.
  - rewrite enc_val_int by auto. apply bits_of_range.
Qed.
Lemma dec_enc_val : forall d v, In v (dom (wide d)) -> dec_val d (enc_val d v) = v.
Proof.
  intros d v H. unfold dec_val. destruct (Z.ltb_spec d 0) as [Hd|Hd].
  - rewrite enc_val_bool by auto. reflexivity.
  - rewrite enc_val_int by auto. pose proof (wide_int d Hd) as (E & H1 & H2). rewrite dom_int in H by auto.
    pose proof (nbits_pos d Hd). apply unbits_bits; lia.
Qed.
Lemma enc_dec_val : forall d l, List.length l = blen d -> Forall is_bit l ->
  enc_val d (dec_val d l) = l /\ In (dec_val d l) (dom (wide d)).
Proof.
  intros d l Hl Hb. unfold dec_val, blen in *. destruct (Z.ltb_spec d 0) as [Hd|Hd].
  - destruct l as [|b [|? ?]]; try discriminate. rewrite enc_val_bool by auto. split; auto.
    rewrite wide_bool, dom_bool by auto. inversion Hb; auto.
  - pose proof (nbits_pos d Hd). pose proof (wide_int d Hd) as (E & H1 & H2).
    rewrite enc_val_int by auto. split.
    + rewrite <- (bits_unbits l Hb) at 2. rewrite Hl, Z2Nat.id by lia. reflexivity.
    + rewrite dom_int by auto. pose proof (unbits_range l Hb) as Hr.
      rewrite Hl, Z2Nat.id in Hr by lia. lia.
Qed.
Definition total_bits (vs : list vdecl) : nat := fold_right (fun v n => (blen (snd v) + n)%nat) O vs.
Definition repr (vs : list vdecl) (s : vec) : Prop := in_doms (map wide (doms vs)) s.
Lemma enc_len : forall vs s, List.length s = List.length vs -> List.length (enc vs s) = total_bits vs.
Proof.
  induction vs as [|[x d] vs IH]; intros [|v s] H; try discriminate; auto.
  cbn [enc total_bits fold_right snd]. rewrite app_length, enc_val_len, IH by auto. reflexivity.
Qed.
Lemma repr_len : forall vs s, repr vs s -> List.length s = List.length vs.
Proof. intros vs s H. apply in_doms_len in H. unfold doms in H. rewrite !map_length in H. auto. Qed.
Lemma enc_bits : forall vs s, repr vs s -> Forall is_bit (enc vs s).
Proof.
  induction vs as [|[x d] vs IH]; intros s H; inversion H; subst; [constructor|].
  cbn [enc]. apply Forall_app. split; [apply enc_val_bits; auto|apply IH; auto].
Qed.
Lemma firstn_app_len : forall A (a b : list A) n, List.length a = n -> firstn n (a ++ b) = a.
Proof. intros A a b n <-. rewrite firstn_app, Nat.sub_diag, firstn_all, firstn_O, app_nil_r. reflexivity. Qed.
Lemma skipn_app_len : forall A (a b : list A) n, List.length a = n -> skipn n (a ++ b) = b.
Proof. intros A a b n <-. rewrite skipn_app, Nat.sub_diag, skipn_all. reflexivity. Qed.
Lemma dec_enc : forall vs s, repr vs s -> dec vs (enc vs s) = s.
Proof.
  induction vs as [|[x d] vs IH]; intros s H; inversion H; subst; auto.
  cbn [enc dec]. rewrite firstn_app_len, skipn_app_len by apply enc_val_len.
  rewrite dec_enc_val by auto. f_equal. apply IH; auto.
Qed.
Lemma enc_dec : forall vs t, List.length t = total_bits vs -> Forall is_bit t ->
  enc vs (dec vs t) = t /\ repr vs (dec vs t).
Proof.
  induction vs as [|[x d] vs IH]; intros t Hl Hb.
  - destruct t; try discriminate. split; auto. constructor.
  - cbn [total_bits fold_right snd] in Hl. cbn [dec enc].
    rewrite <- (firstn_skipn (blen d) t) in Hb. apply Forall_app in Hb. destruct Hb as [B1 B2].
    destruct (enc_dec_val d (firstn (blen d) t)) as [E1 D1]; auto.
    { rewrite firstn_length. fold (total_bits vs) in Hl. lia. }
    destruct (IH (skipn (blen d) t)) as [E2 D2]; auto.
    { rewrite skipn_length. fold (total_bits vs) in Hl. lia. }
    rewrite E1, E2. split; [apply firstn_skipn|]. constructor; auto.
Qed.
Lemma enc_app : forall a b s t, List.length s = List.length a -> enc (a ++ b) (s ++ t) = enc a s ++ enc b t.
Proof.
  induction a as [|[x d] a IH]; intros b [|v s] t H; try discriminate; auto.
  cbn [enc app]. rewrite IH by auto. apply app_assoc.
Qed.

(** ** Valuations *)
Lemma lookup_app_l : forall xs ys s t y, List.length xs = List.length s -> In y xs ->
  lookup (xs ++ ys) (s ++ t) y = lookup xs s y.
Proof.
  induction xs as [|x xs IH]; intros ys [|v s] t y Hl Hin; try discriminate; [destruct Hin|].
  simpl. destruct (String.eqb_spec x y); auto. destruct Hin; [congruence|]. apply IH; auto.
Qed.
Lemma lookup_app_r : forall xs ys s t y, List.length xs = List.length s -> ~ In y xs ->
  lookup (xs ++ ys) (s ++ t) y = lookup ys t y.
Proof.
  induction xs as [|x xs IH]; intros ys [|v s] t y Hl Hin; try discriminate; auto.
  simpl. destruct (String.eqb_spec x y); [exfalso; apply Hin; left; auto|].
  apply IH; auto. intros Hc. apply Hin. right; auto.
Qed.
Lemma lookup_map : forall A (nm : A -> string) (h : A -> Z) l a, NoDup (map nm l) -> In a l ->
  lookup (map nm l) (map h l) (nm a) = h a.
Proof.
  induction l as [|b l IH]; intros a Hn Hin; [destruct Hin|]. simpl in *. inversion Hn; subst.
  destruct Hin as [->|Hin]; [rewrite String.eqb_refl; auto|].
  destruct (String.eqb_spec (nm b) (nm a)) as [E|E]; [|auto].
  exfalso. apply H1. rewrite E. apply in_map; auto.
Qed.
Lemma NoDup_app_disj : forall A (a b : list A), NoDup (a ++ b) -> forall x, In x a -> In x b -> False.
Proof.
  induction a as [|y a IH]; intros b H x Ha Hb; [destruct Ha|]. inversion H; subst.
  destruct Ha as [->|Ha]; [apply H2, in_or_app; auto|]. apply (IH b H3 x); auto.
Qed.
Lemma NoDup_app_l : forall A (a b : list A), NoDup (a ++ b) -> NoDup a.
Proof.
  induction a as [|y a IH]; intros b H; [constructor|]. inversion H; subst. constructor; [|apply (IH b); auto].
  intros Hc. apply H2, in_or_app; auto.
Qed.
Lemma NoDup_app_r : forall A (a b : list A), NoDup (a ++ b) -> NoDup b.
Proof. induction a as [|y a IH]; intros b H; auto. inversion H; subst. auto. Qed.
(** names of the Boolean variables for one declaration *)
Definition dnames (v : vdecl) : list string :=
  if 0 <=? snd v then bit_names (fst v) (snd v) else [fst v].
Definition bnames (vs : list vdecl) : list string := flat_map dnames vs.
Lemma bit_decls_bnames : forall b vs, names (bit_decls b vs) = bnames vs.
Proof.
  intros b. induction vs as [|[x d] vs IH]; auto. unfold bit_decls, names, bnames, dnames in *.
  cbn [flat_map fst snd]. rewrite map_app, IH. f_equal. destruct (0 <=? d); auto.
  rewrite map_map. apply map_id.
Qed.
Lemma dnames_len : forall x d, List.length (dnames (x, d)) = blen d.
Proof.
  intros x d. unfold dnames, blen. cbn [fst snd]. destruct (Z.leb_spec 0 d) as [H|H].
  - rewrite (proj2 (Z.ltb_ge d 0)) by auto. unfold bit_names. rewrite map_length, zseq_len. f_equal. lia.
  - rewrite (proj2 (Z.ltb_lt d 0)) by auto. reflexivity.
Qed.
Lemma bnames_len : forall vs, List.length (bnames vs) = total_bits vs.
Proof.
  induction vs as [|[x d] vs IH]; auto. unfold bnames in *. cbn [flat_map total_bits fold_right].
  rewrite app_length, dnames_len, IH. reflexivity.
Qed.
(** the Boolean valuation [vb] encodes the integer valuation [vi] *)
Definition rel (vs : list vdecl) (vb vi : string -> Z) : Prop :=
  forall x d, In (x, d) vs -> if d <? 0 then vb x = vi x else bits_are x d vb (vi x).
Lemma enc_rel : forall vs s, NoDup (names vs) -> NoDup (bnames vs) -> List.length s = List.length vs ->
  rel vs (lookup (bnames vs) (enc vs s)) (lookup (names vs) s).
Proof.
  induction vs as [|[x d] vs IH]; intros [|v s] Hn Hb Hl; try discriminate; [intros x d []|].
  cbn [names map fst] in Hn. inversion Hn as [|? ? Hx Hn']; subst.
  unfold bnames in *. cbn [flat_map] in Hb. assert (Hb2 := NoDup_app_r _ _ _ Hb).
  assert (Hb1 := NoDup_app_l _ _ _ Hb).
  intros y e [E|Hin].
  - injection E as <- <-. cbn [names map fst flat_map enc lookup]. rewrite String.eqb_refl.
    destruct (Z.ltb_spec d 0) as [Hd|Hd].
    + rewrite lookup_app_l by (rewrite ?dnames_len, ?enc_val_len; auto; unfold dnames; cbn [fst snd];
        rewrite (proj2 (Z.leb_gt 0 d)) by auto; left; auto).
      rewrite enc_val_bool by auto. unfold dnames. cbn [fst snd]. rewrite (proj2 (Z.leb_gt 0 d)) by auto.
      simpl. rewrite String.eqb_refl. reflexivity.
    + intros i Hi.
      assert (Hdn : dnames (x, d) = map (varname x) (zseq 0 (nbits d - 1))).
      { unfold dnames. cbn [fst snd]. rewrite (proj2 (Z.leb_le 0 d)) by auto. reflexivity. }
      rewrite lookup_app_l.
      * rewrite Hdn, enc_val_int by auto. apply (lookup_map _ (varname x) (bit v)).
        -- rewrite <- Hdn. auto.
        -- apply zseq_In. lia.
      * rewrite dnames_len, enc_val_len. reflexivity.
      * rewrite Hdn. apply in_map, zseq_In. lia.
  - assert (Hyx : y <> x). { intros ->. apply Hx. apply (in_map fst) in Hin. auto. }
    cbn [names map fst flat_map enc lookup]. destruct (String.eqb_spec x y); [congruence|].
    assert (Hnot : forall z, In z (dnames (y, e)) -> ~ In z (dnames (x, d))).
    { intros z Hz Hz'. apply (NoDup_app_disj _ _ _ Hb z); auto. apply in_flat_map. exists (y, e). auto. }
    assert (IH' := IH s Hn' Hb2 (eq_add_S _ _ Hl) y e Hin).
    destruct (Z.ltb_spec e 0) as [He|He].
    + rewrite lookup_app_r; auto; [rewrite dnames_len, enc_val_len; auto|].
      apply Hnot. unfold dnames. cbn [fst snd]. rewrite (proj2 (Z.leb_gt 0 e)) by auto. left; auto.
    + intros i Hi. rewrite lookup_app_r; [apply IH'; auto|rewrite dnames_len, enc_val_len; auto|].
      apply Hnot. unfold dnames. cbn [fst snd]. rewrite (proj2 (Z.leb_le 0 e)) by auto.
      apply in_map, zseq_In. lia.
Qed.
