(** Proofs about the model of solve_support.c. *)
From Coq Require Import List ZArith Lia Bool Arith.
From Verif Require Import Base Bdd Support.
Import ListNotations.
Open Scope Z_scope.

Lemma skipn_add : forall A a b (l : list A), skipn (a + b) l = skipn b (skipn a l).
Proof.
  induction a; simpl; intros; auto. destruct l; simpl; auto. rewrite skipn_nil. reflexivity.
Qed.

(** ** Array writes *)
Lemma upd_app : forall a y c x, upd (a ++ y :: c) (length a) x = a ++ x :: c.
Proof. induction a; simpl; intros; auto. rewrite IHa. reflexivity. Qed.
Lemma upd_length : forall a i x, length (upd a i x) = length a.
Proof. induction a; destruct i; simpl; intros; auto. Qed.
Lemma upd_app_l : forall a b i x, (i < length a)%nat -> upd (a ++ b) i x = upd a i x ++ b.
Proof.
  induction a; simpl; intros b i x H; [lia|]. destruct i; simpl; auto.
  rewrite IHa by lia. reflexivity.
Qed.
Lemma upd_app_r : forall a b i x, (length a <= i)%nat ->
  upd (a ++ b) i x = a ++ upd b (i - length a) x.
Proof.
  induction a; simpl; intros b i x H; [rewrite Nat.sub_0_r; auto|].
  destruct i; [lia|]. simpl. rewrite IHa by lia. reflexivity.
Qed.
Lemma upd_bitvec : forall n v i x, bitvec n v -> isbit x -> bitvec n (upd v i x).
Proof.
  intros n v i x [Hl Hf] Hx. split. rewrite upd_length; auto. clear Hl.
  revert i. induction Hf; destruct i; simpl; auto.
Qed.

Lemma fill_spec : forall b a c x k, length b = k ->
  fill (a ++ b ++ c) (length a) k x = a ++ repeat x k ++ c.
Proof.
  induction b; intros a0 c x k Hk; subst k; simpl; auto.
  rewrite upd_app. replace (a0 ++ x :: b ++ c) with ((a0 ++ [x]) ++ b ++ c)
    by (rewrite <- app_assoc; reflexivity).
  replace (S (length a0)) with (length (a0 ++ [x])) by (rewrite app_length; simpl; lia).
  rewrite IHb by auto. rewrite <- app_assoc. reflexivity.
Qed.
Lemma fill_seg : forall l lo k x, (lo + k <= length l)%nat ->
  fill l lo k x = firstn lo l ++ repeat x k ++ skipn (lo + k) l.
Proof.
  intros l lo k x H.
  assert (Hl : l = firstn lo l ++ firstn k (skipn lo l) ++ skipn (lo + k) l).
  { rewrite <- (firstn_skipn lo l) at 1. f_equal.
    rewrite <- (firstn_skipn k (skipn lo l)) at 1. f_equal.
    symmetry. apply skipn_add. }
  pose proof (fill_spec (firstn k (skipn lo l)) (firstn lo l) (skipn (lo + k) l) x k) as F.
  rewrite <- Hl in F. rewrite (firstn_length lo l) in F. rewrite (Nat.min_l lo) in F by lia.
  apply F. rewrite firstn_length, skipn_length. lia.
Qed.
Lemma fill_length : forall k l lo x, length (fill l lo k x) = length l.
Proof. induction k; simpl; intros; auto. rewrite IHk, upd_length. reflexivity. Qed.

Lemma copy_into_spec : forall src a b c, length b = length src ->
  copy_into (a ++ b ++ c) (length a) src = a ++ src ++ c.
Proof.
  induction src; intros a0 b c H; destruct b; simpl in *; try discriminate; auto.
  rewrite upd_app. replace (a0 ++ a :: b ++ c) with ((a0 ++ [a]) ++ b ++ c)
    by (rewrite <- app_assoc; reflexivity).
  replace (S (length a0)) with (length (a0 ++ [a])) by (rewrite app_length; simpl; lia).
  rewrite IHsrc by lia. rewrite <- app_assoc. reflexivity.
Qed.
Lemma copy_into_seg : forall l lo src, (lo + length src <= length l)%nat ->
  copy_into l lo src = firstn lo l ++ src ++ skipn (lo + length src) l.
Proof.
  intros l lo src H.
  assert (Hl : l = firstn lo l ++ firstn (length src) (skipn lo l)
                   ++ skipn (lo + length src) l).
  { rewrite <- (firstn_skipn lo l) at 1. f_equal.
    rewrite <- (firstn_skipn (length src) (skipn lo l)) at 1. f_equal.
    symmetry. apply skipn_add. }
  pose proof (copy_into_spec src (firstn lo l) (firstn (length src) (skipn lo l))
                (skipn (lo + length src) l)) as F.
  rewrite <- Hl in F. rewrite (firstn_length lo l) in F. rewrite (Nat.min_l lo) in F by lia.
  apply F. rewrite firstn_length, skipn_length. lia.
Qed.

Lemma firstn_repeat : forall A (x : A) k n, firstn k (repeat x n) = repeat x (Nat.min k n).
Proof. induction k; destruct n; simpl; auto. rewrite IHk. reflexivity. Qed.
Lemma skipn_repeat : forall A (x : A) k n, skipn k (repeat x n) = repeat x (n - k).
Proof. induction k; destruct n; simpl; auto. Qed.

Lemma fill_all : forall l k x, length l = k -> fill l 0 k x = repeat x k.
Proof.
  intros l k x H. rewrite fill_seg by lia. rewrite firstn_O, Nat.add_0_l, <- H, skipn_all.
  rewrite app_nil_l, app_nil_r. reflexivity.
Qed.

(** ** The quantification cubes *)
Lemma cube_env_eq : forall cube ne ns, length cube = (2 * (ne + ns))%nat ->
  cube_env cube ne ns = repeat 1 ne ++ repeat 2 (ns + (ne + ns)).
Proof.
  intros cube ne ns H. unfold cube_env.
  rewrite fill_seg with (l := cube) by lia.
  rewrite fill_seg by (rewrite !app_length, firstn_length, repeat_length, skipn_length; lia).
  simpl firstn. rewrite app_nil_l.
  replace (ne + (2 * (ne + ns) - ne))%nat with (length cube) by lia.
  rewrite skipn_all, app_nil_r, Nat.add_0_l. f_equal.
  rewrite skipn_app, firstn_length.
  replace (ne - Nat.min ne (length cube))%nat with 0%nat by lia.
  rewrite skipn_all2 by (rewrite firstn_length; lia). simpl. f_equal. lia.
Qed.
Lemma cube_sys_eq : forall cube ne ns, length cube = (2 * (ne + ns))%nat ->
  cube_sys cube ne ns = repeat 2 ne ++ repeat 1 ns ++ repeat 2 (ne + ns).
Proof.
  intros cube ne ns H. unfold cube_sys.
  rewrite fill_all by auto.
  rewrite fill_seg by (rewrite repeat_length; lia).
  rewrite firstn_repeat, skipn_repeat. f_equal; [|f_equal]; f_equal; lia.
Qed.
Lemma cube_prime_env_eq : forall cube ne ns, length cube = (2 * (ne + ns))%nat ->
  cube_prime_env cube ne ns = repeat 2 (ne + ns) ++ repeat 1 ne ++ repeat 2 ns.
Proof.
  intros cube ne ns H. unfold cube_prime_env.
  rewrite fill_all by auto.
  rewrite fill_seg by (rewrite repeat_length; lia).
  rewrite firstn_repeat, skipn_repeat. f_equal; [|f_equal]; f_equal; lia.
Qed.
Lemma cube_prime_sys_eq : forall cube ne ns, length cube = (2 * (ne + ns))%nat ->
  cube_prime_sys cube ne ns = repeat 2 (ne + ns) ++ repeat 2 ne ++ repeat 1 ns.
Proof.
  intros cube ne ns H. unfold cube_prime_sys.
  rewrite fill_seg with (l := cube) by lia. rewrite firstn_O, app_nil_l, Nat.add_0_l.
  set (tl := skipn (2 * ne + ns) cube).
  assert (Ht : length tl = ns) by (unfold tl; rewrite skipn_length; lia).
  rewrite fill_seg by (rewrite app_length, repeat_length; lia).
  rewrite firstn_app, repeat_length, firstn_repeat, Nat.min_id, Nat.sub_diag, firstn_O.
  rewrite skipn_all2 by (rewrite app_length, repeat_length; lia).
  rewrite !app_nil_r, app_assoc, <- repeat_app. f_equal. f_equal. lia.
Qed.

(** all quantification cubes are positive, as CUDD requires *)
Lemma cube_pos : forall a b c, forallb (fun x => negb (x =? 0)) (repeat 2 a ++ repeat 1 b ++ repeat 2 c) = true.
Proof.
  intros. apply forallb_forall. intros x Hx. rewrite !in_app_iff in Hx.
  destruct Hx as [Hx|[Hx|Hx]]; apply repeat_spec in Hx; subst; reflexivity.
Qed.
Lemma cube_prime_env_pos : forall cube ne ns, length cube = (2 * (ne + ns))%nat ->
  forallb (fun x => negb (x =? 0)) (cube_prime_env cube ne ns) = true.
Proof. intros. rewrite cube_prime_env_eq by auto. apply cube_pos. Qed.
Lemma cube_prime_sys_pos : forall cube ne ns, length cube = (2 * (ne + ns))%nat ->
  forallb (fun x => negb (x =? 0)) (cube_prime_sys cube ne ns) = true.
Proof.
  intros. rewrite cube_prime_sys_eq by auto.
  rewrite app_assoc, <- repeat_app. rewrite <- (app_nil_r (repeat 1 ns)).
  apply (cube_pos _ _ 0).
Qed.

(** ** Splitting valuations *)
Lemma split3 : forall ne ns v, bitvec (2 * (ne + ns)) v ->
  exists s e w, v = s ++ e ++ w /\ bitvec (ne + ns) s /\ bitvec ne e /\ bitvec ns w.
Proof.
  intros ne ns v H. replace (2 * (ne + ns))%nat with ((ne + ns) + (ne + ns))%nat in H by lia.
  exists (firstn (ne + ns) v), (firstn ne (skipn (ne + ns) v)),
         (skipn ne (skipn (ne + ns) v)).
  rewrite !firstn_skipn. repeat split; try (apply (bitvec_firstn _ _ _ H)).
  - apply (bitvec_firstn ne ns). apply (bitvec_skipn _ _ _ H).
  - apply (bitvec_firstn ne ns). apply (bitvec_skipn _ _ _ H).
  - apply (bitvec_skipn ne ns). apply (bitvec_skipn _ _ _ H).
  - apply (bitvec_skipn ne ns). apply (bitvec_skipn _ _ _ H).
Qed.
Lemma join3 : forall ne ns s e w, bitvec (ne + ns) s -> bitvec ne e -> bitvec ns w ->
  bitvec (2 * (ne + ns)) (s ++ e ++ w).
Proof.
  intros ne ns s e w Hs He Hw.
  replace (2 * (ne + ns))%nat with ((ne + ns) + (ne + ns))%nat by lia.
  apply bitvec_app; auto. apply bitvec_app; auto.
Qed.
Lemma split2 : forall ne ns v, bitvec (ne + ns) v ->
  exists e w, v = e ++ w /\ bitvec ne e /\ bitvec ns w.
Proof.
  intros ne ns v H. exists (firstn ne v), (skipn ne v). rewrite firstn_skipn.
  repeat split; try apply (bitvec_firstn _ _ _ H); try apply (bitvec_skipn _ _ _ H).
Qed.

Lemma merge_prime_sys : forall cube ne ns s e w s1 e1 w1,
  length cube = (2 * (ne + ns))%nat ->
  length s = (ne + ns)%nat -> length e = ne -> length w = ns ->
  length s1 = (ne + ns)%nat -> length e1 = ne -> length w1 = ns ->
  merge_q (cube_prime_sys cube ne ns) (s ++ e ++ w) (s1 ++ e1 ++ w1) = s ++ e ++ w1.
Proof.
  intros. rewrite cube_prime_sys_eq by auto.
  rewrite !merge_q_app by (rewrite repeat_length; auto).
  rewrite !merge_q_twos, merge_q_ones by auto. reflexivity.
Qed.
Lemma merge_prime_env : forall cube ne ns s e w s1 e1 w1,
  length cube = (2 * (ne + ns))%nat ->
  length s = (ne + ns)%nat -> length e = ne -> length w = ns ->
  length s1 = (ne + ns)%nat -> length e1 = ne -> length w1 = ns ->
  merge_q (cube_prime_env cube ne ns) (s ++ e ++ w) (s1 ++ e1 ++ w1) = s ++ e1 ++ w.
Proof.
  intros. rewrite cube_prime_env_eq by auto.
  rewrite !merge_q_app by (rewrite repeat_length; auto).
  rewrite !merge_q_twos, merge_q_ones by auto. reflexivity.
Qed.

Lemma ev_exist_sys : forall cube ne ns f s e w,
  length cube = (2 * (ne + ns))%nat ->
  bitvec (ne + ns) s -> bitvec ne e -> bitvec ns w ->
  (ev (bExist (2 * (ne + ns)) (cube_prime_sys cube ne ns) f) (s ++ e ++ w) = true <->
   exists w', bitvec ns w' /\ ev f (s ++ e ++ w') = true).
Proof.
  intros cube ne ns f s e w Hc Hs He Hw.
  rewrite ev_Exist by (apply join3; auto). rewrite existsb_exists. split.
  - intros (x & Hx & Hf). apply all_vecs_spec in Hx.
    destruct (split3 ne ns x Hx) as (s1 & e1 & w1 & -> & H1 & H2 & H3).
    rewrite merge_prime_sys in Hf; try apply Hs; try apply He; try apply Hw;
      try apply H1; try apply H2; try apply H3; auto. eauto.
  - intros (w' & Hw' & Hf). exists (s ++ e ++ w'). split.
    + apply all_vecs_spec, join3; auto.
    + rewrite merge_prime_sys; try apply Hs; try apply He; try apply Hw;
      try apply Hw'; auto.
Qed.
Lemma ev_univ_env : forall cube ne ns f s e w,
  length cube = (2 * (ne + ns))%nat ->
  bitvec (ne + ns) s -> bitvec ne e -> bitvec ns w ->
  (ev (bUniv (2 * (ne + ns)) (cube_prime_env cube ne ns) f) (s ++ e ++ w) = true <->
   forall e', bitvec ne e' -> ev f (s ++ e' ++ w) = true).
Proof.
  intros cube ne ns f s e w Hc Hs He Hw.
  rewrite ev_Univ by (apply join3; auto). rewrite forallb_forall. split.
  - intros H e' He'. specialize (H (s ++ e' ++ w)).
    rewrite merge_prime_env in H; try apply Hs; try apply He; try apply Hw;
      try apply He'; auto. apply H, all_vecs_spec, join3; auto.
  - intros H x Hx. apply all_vecs_spec in Hx.
    destruct (split3 ne ns x Hx) as (s1 & e1 & w1 & -> & H1 & H2 & H3).
    rewrite merge_prime_env; try apply Hs; try apply He; try apply Hw;
      try apply H1; try apply H2; try apply H3; auto.
Qed.

Lemma ev_swap2 : forall n f s s', bitvec n s -> bitvec n s' ->
  ev (bSwap (2 * n) n f) (s ++ s') = ev f (s' ++ s).
Proof.
  intros n f s s' Hs Hs'. rewrite ev_Swap.
  - rewrite skipn_app, firstn_app.
    replace (n - length s)%nat with 0%nat by (destruct Hs; lia).
    rewrite skipn_all2 by (destruct Hs; lia). rewrite firstn_all2 by (destruct Hs; lia).
    simpl. rewrite app_nil_r. reflexivity.
  - replace (2 * n)%nat with (n + n)%nat by lia. apply bitvec_app; auto.
Qed.

(** ** C12: the controllable predecessor *)
Lemma existsmodal_gen : forall C et st ne ns cube s e w,
  length cube = (2 * (ne + ns))%nat ->
  bitvec (ne + ns) s -> bitvec ne e -> bitvec ns w ->
  (ev (compute_existsmodal C et st ne ns cube) (s ++ e ++ w) = true <->
   forall e', bitvec ne e' -> ev et (s ++ e' ++ w) = true ->
   exists w', bitvec ns w' /\ ev st (s ++ e' ++ w') = true /\
              ev C ((e' ++ w') ++ s) = true).
Proof.
  intros C et st ne ns cube s e w Hc Hs He Hw. unfold compute_existsmodal.
  rewrite ev_univ_env by auto. split; intros H e' He'; specialize (H e' He').
  - intros Het. rewrite ev_Or, ev_Not in H by (apply join3; auto).
    rewrite Het in H. cbn [negb orb] in H. rewrite ev_exist_sys in H by auto.
    destruct H as (w' & Hw' & H). rewrite ev_And in H by (apply join3; auto).
    apply andb_true_iff in H. destruct H as [H1 H2].
    rewrite (ev_swap2 (ne + ns)) in H2 by (auto; apply bitvec_app; auto). eauto.
  - rewrite ev_Or, ev_Not by (apply join3; auto).
    destruct (ev et (s ++ e' ++ w)); auto. cbn [negb orb]. rewrite ev_exist_sys by auto.
    destruct (H eq_refl) as (w' & Hw' & H1 & H2). exists w'. split; auto.
    rewrite ev_And by (apply join3; auto). rewrite H1.
    rewrite (ev_swap2 (ne + ns)) by (auto; apply bitvec_app; auto). exact H2.
Qed.
Lemma wf_existsmodal : forall C et st ne ns cube,
  wf (2 * (ne + ns)) (compute_existsmodal C et st ne ns cube).
Proof. intros. apply wf_mk. Qed.

(** ** C15: cofactor and characteristic function *)
Lemma cubeBDD_ok : forall c, Forall islit c -> cubeBDD c = Some c.
Proof.
  intros c H. unfold cubeBDD. replace (forallb cube_lit c) with true; auto.
  symmetry. apply forallb_forall. intros x Hx. rewrite Forall_forall in H.
  destruct (H x Hx) as [-> |[-> | ->]]; reflexivity.
Qed.
Lemma cubeBDD_none : forall c, cubeBDD c = None -> Exists (fun x => ~ islit x) c.
Proof.
  intros c H. unfold cubeBDD in H. destruct (forallb cube_lit c) eqn:E; [discriminate|].
  clear H. induction c; simpl in E; [discriminate|].
  apply andb_false_iff in E. destruct E as [E|E]; [left|right; auto].
  unfold cube_lit in E. rewrite !orb_false_iff, !Z.eqb_neq in E. unfold islit. lia.
Qed.
Lemma bit_lit : forall v, Forall isbit v -> Forall islit v.
Proof.
  intros v H. eapply Forall_impl; [|exact H]. intros a [Ha|Ha]; unfold islit; auto.
Qed.
Lemma merge_self_bits : forall c v, Forall isbit c -> length c = length v -> merge_q c v c = c.
Proof.
  induction c; intros v H Hl; destruct v; simpl in *; try discriminate; auto.
  inversion H; subst. rewrite IHc by auto. destruct H2 as [-> | ->]; reflexivity.
Qed.

Lemma state_to_cof_spec : forall a k c m cube f u p x w,
  length cube = m -> m = (a + k + c)%nat ->
  bitvec k p -> bitvec a u -> bitvec k x -> bitvec c w ->
  exists g, state_to_cof m cube p f a = Some g /\ wf m g /\
  ev g (u ++ x ++ w) = ev f (u ++ p ++ w).
Proof.
  intros a k c m cube f u p x w Hcube Hm Hp Hu Hx Hw. unfold state_to_cof.
  rewrite fill_all by auto.
  rewrite copy_into_seg by (rewrite repeat_length; destruct Hp; lia).
  rewrite firstn_repeat, skipn_repeat.
  replace (Nat.min a m) with a by lia.
  replace (m - (a + length p))%nat with c by (destruct Hp; lia).
  rewrite cubeBDD_ok.
  2:{ apply Forall_app. split; [|apply Forall_app; split].
      - apply Forall_forall. intros y Hy. apply repeat_spec in Hy. unfold islit; auto.
      - apply bit_lit. apply Hp.
      - apply Forall_forall. intros y Hy. apply repeat_spec in Hy. unfold islit; auto. }
  eexists. split; [reflexivity|]. split; [apply wf_mk|].
  rewrite ev_Cof.
  - destruct Hp as [Hp1 Hp2], Hu as [Hu1 Hu2], Hx as [Hx1 Hx2], Hw as [Hw1 Hw2].
    rewrite !merge_q_app by (rewrite ?repeat_length; lia).
    rewrite !merge_q_twos by (rewrite ?repeat_length; lia).
    rewrite merge_self_bits by (auto; lia). reflexivity.
  - rewrite Hm. rewrite <- Nat.add_assoc. repeat apply bitvec_app; auto.
Qed.

Lemma state_to_cof_null : forall m cube p f a, (a + length p <= m)%nat -> length cube = m ->
  Exists (fun x => ~ islit x) p -> state_to_cof m cube p f a = None.
Proof.
  intros m cube p f a Hl Hc Hex. unfold state_to_cof.
  rewrite fill_all by auto.
  rewrite copy_into_seg by (rewrite repeat_length; lia).
  unfold cubeBDD. destruct (forallb cube_lit _) eqn:E; auto.
  exfalso. rewrite forallb_forall in E. apply Exists_exists in Hex.
  destruct Hex as (x & Hx & Hn). apply Hn.
  assert (Hl' : cube_lit x = true) by (apply E; rewrite !in_app_iff; auto).
  unfold cube_lit in Hl'. rewrite !orb_true_iff, !Z.eqb_eq in Hl'. unfold islit. lia.
Qed.

Lemma state_to_BDD_loop_spec : forall m p i v a, bitvec m a ->
  (i + length p <= m)%nat -> Forall isbit p ->
  (ev (state_to_BDD_loop m p i v) a = true <->
   ev v a = true /\ slice i (length p) a = p).
Proof.
  intros m p. induction p as [|x p IH]; intros i v a Ha Hi Hp; simpl.
  - unfold slice. simpl. tauto.
  - inversion Hp; subst. simpl in Hi. rewrite IH by (auto; lia).
    rewrite ev_And by auto.
    assert (Hs : slice i (S (length p)) a = nth i a 0 :: slice (S i) (length p) a).
    { unfold slice. destruct Ha as [Hla _].
      assert (Hi' : (i < length a)%nat) by lia. clear - Hi'.
      revert i Hi'. induction a; intros i Hi'; simpl in *; [lia|].
      destruct i; simpl; auto. rewrite <- IHa by lia. reflexivity. }
    rewrite Hs.
    assert (Hb : isbit (nth i a 0)).
    { destruct Ha as [Hla Hfa]. rewrite Forall_forall in Hfa. apply Hfa, nth_In. lia. }
    rewrite andb_true_iff.
    assert (Hlit : ev (if negb (x =? 0) then bVar m i else bNot m (bVar m i)) a = true <->
                   nth i a 0 = x).
    { destruct H1 as [-> | ->]; simpl.
      - rewrite ev_Not, ev_Var by auto. rewrite negb_true_iff, Z.eqb_neq.
        destruct Hb; lia.
      - rewrite ev_Var by auto. rewrite Z.eqb_eq. tauto. }
    rewrite Hlit. split.
    + intros [[H3 H4] H5]. split; auto. congruence.
    + intros [H3 H4]. inversion H4. repeat split; auto; congruence.
Qed.
Lemma state_to_BDD_spec : forall m p i a, bitvec m a ->
  (i + length p <= m)%nat -> Forall isbit p ->
  (ev (state_to_BDD m p i) a = true <-> slice i (length p) a = p).
Proof.
  intros. unfold state_to_BDD. rewrite state_to_BDD_loop_spec by auto.
  rewrite ev_One by auto. tauto.
Qed.

Lemma state_to_cube_spec : forall s cube, length cube = (2 * length s)%nat ->
  state_to_cube s cube = s ++ repeat 2 (length s).
Proof.
  intros s cube H. unfold state_to_cube.
  rewrite copy_into_seg by lia. simpl firstn. rewrite app_nil_l, Nat.add_0_l.
  rewrite fill_seg by (rewrite app_length, skipn_length; lia).
  rewrite firstn_app, Nat.sub_diag, firstn_all. simpl firstn. rewrite app_nil_r.
  f_equal. rewrite skipn_all2; [apply app_nil_r|].
  rewrite app_length, skipn_length. lia.
Qed.
Lemma statecmp_spec : forall a b, length a = length b -> (statecmp a b = true <-> a = b).
Proof.
  induction a; intros b H; destruct b; simpl in *; try discriminate; [tauto|].
  destruct (a =? z) eqn:E.
  - apply Z.eqb_eq in E. rewrite IHa by lia. split; congruence.
  - apply Z.eqb_neq in E. split; congruence.
Qed.
