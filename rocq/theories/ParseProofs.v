(** Lemmas: the formula parser reads exactly the formulas of [Syntax.reads]. *)
From Coq Require Import List ZArith Bool Arith Ascii String Lia.
From Verif Require Import Base Strs Ptree Form PtreeProofs Lex Parse Syntax.
Import ListNotations.
Open Scope list_scope.
Open Scope nat_scope.

Definition op_sym (o : bop) : ysym :=
  match o with OAnd => YAmp | OOr => YBar | OImp => YImp | OIff => YIff end.
Definition op_form (o : bop) (f g : form) : form :=
  match o with OAnd => FAnd f g | OOr => FOr f g | OImp => FImp f g | OIff => FIff f g end.
Definition op_level (o : bop) : level :=
  match o with OAnd | OOr => LAnd | OImp => LImp | OIff => LIff end.
Definition op_right (o : bop) : level :=
  match o with OAnd | OOr => LUnit | OImp => LAnd | OIff => LImp end.
Definition lp (l : level) : nat := match l with LIff => 1 | LImp => 2 | LAnd | LUnit => 8 end.

Lemma op_sym_of : forall k o, binop_of k = Some o -> k = op_sym o.
Proof. intros k o H. destruct k; try discriminate; injection H as <-; reflexivity. Qed.
Lemma binop_op_sym : forall o, binop_of (op_sym o) = Some o.
Proof. destruct o; reflexivity. Qed.
Lemma cmp_of_sym : forall k c, cmp_of k = Some c -> exists o, k = cmp_sym o /\ c = cmp_ty o.
Proof.
  intros k c H. destruct k; try discriminate; injection H as <-;
    [exists CLe|exists CGe|exists CNe|exists CEq|exists CLt|exists CGt]; auto.
Qed.
Lemma cmp_sym_of : forall o, cmp_of (cmp_sym o) = Some (cmp_ty o).
Proof. destruct o; reflexivity. Qed.

Ltac rdop := first [apply rd_and|apply rd_or|apply rd_imp|apply rd_iff].
Ltac rdu := first [apply rd_paren; assumption|apply rd_not; assumption|apply rd_atom; assumption].
Lemma rd_op : forall t o a f b g, reads t (op_level o) a f -> reads t (op_right o) b g ->
  reads t (op_level o) (a ++ op_sym o :: b) (op_form o f g).
Proof. intros t [] a f b g Ha Hb; simpl in *; rdop; auto. Qed.
Lemma rd_weaken : forall t l l2 a f, reads t l a f -> lp l2 <= lp l -> l2 <> LUnit -> reads t l2 a f.
Proof.
  intros t l l2 a f H Hl Hn. destruct l, l2; simpl in Hl; try lia; try congruence; auto;
    repeat (first [assumption | apply rd_impl | apply rd_andl | apply rd_unit]).
Qed.
Lemma rd_iff_any : forall t l a f, reads t l a f -> reads t LIff a f.
Proof. intros t l a f H. apply (rd_weaken t l); auto; [destruct l; simpl; lia|discriminate]. Qed.

Lemma push_op : forall o f g rest,
  pusht_operator (attach (tree_of g) (attach (tree_of f) rest)) (bop_ty o) =
  attach (tree_of (op_form o f g)) rest.
Proof. intros o f g rest. rewrite pusht_op_attach. destruct o; reflexivity. Qed.
Lemma push_not : forall f rest,
  pusht_operator (attach (tree_of f) rest) PT_NEG = attach (tree_of (FNot f)) rest.
Proof. intros f rest. rewrite pusht_op_attach. reflexivity. Qed.
Lemma push_cmp_attach : forall gen (p : bool) x o k,
  push_cmp gen (if p then PT_NEXT_VARIABLE else PT_VARIABLE) x (cmp_ty o) k =
  attach (tree_of (FCmp p x o k)) gen.
Proof. intros gen [] x [] k; reflexivity. Qed.

Definition quiet (rest : list ysym) : Prop :=
  match rest with [] => True | k :: _ => cmp_of k = None /\ k <> YQuote end.
(** reducing on lookahead [p] does nothing *)
Definition stk_ok (p : nat) (stk : list item) : Prop := forall g, reduce_while p stk g = (stk, g).
Lemma stk_ok_le : forall p q stk, stk_ok p stk -> p <= q -> stk_ok q stk.
Proof.
  intros p q stk H Hpq g. specialize (H g). destruct stk as [|[o| |] stk]; auto; simpl in *; unfold reduces in *.
  - destruct (p <=? prec o) eqn:E.
    + exfalso. assert (L : forall s g0 p, List.length (fst (reduce_while p s g0)) <= List.length s).
      { induction s as [|[o'| |] s IH]; intros g0 p0; simpl; auto.
        - destruct (reduces (prec o') p0); [|simpl; lia]. specialize (IH (pusht_operator g0 (bop_ty o')) p0). lia.
        - destruct (reduces prec_not p0); [|simpl; lia]. specialize (IH (pusht_operator g0 PT_NEG) p0). lia. }
      specialize (L stk (pusht_operator g (bop_ty o)) p). rewrite H in L. simpl in L. lia.
    + apply Nat.leb_gt in E. replace (q <=? prec o) with false; auto. symmetry. apply Nat.leb_gt. lia.
  - destruct (p <=? prec_not) eqn:E.
    + exfalso. assert (L : forall s g0 p, List.length (fst (reduce_while p s g0)) <= List.length s).
      { induction s as [|[o'| |] s IH]; intros g0 p0; simpl; auto.
        - destruct (reduces (prec o') p0); [|simpl; lia]. specialize (IH (pusht_operator g0 (bop_ty o')) p0). lia.
        - destruct (reduces prec_not p0); [|simpl; lia]. specialize (IH (pusht_operator g0 PT_NEG) p0). lia. }
      specialize (L stk (pusht_operator g PT_NEG) p). rewrite H in L. simpl in L. lia.
    + apply Nat.leb_gt in E. replace (q <=? prec_not) with false; auto. symmetry. apply Nat.leb_gt. lia.
Qed.

(** ** Completeness *)
Definition runs t l stk gen ts rest f : Prop :=
  exists ops gen', pform t false stk gen (ts ++ rest) = pform t true (ops ++ stk) gen' rest /\
    forall q, q <= lp l -> reduce_while q (ops ++ stk) gen' = reduce_while q stk (attach (tree_of f) gen).

Lemma atom_runs : forall t ts f, atom t ts f -> forall stk gen rest, quiet rest ->
  pform t false stk gen (ts ++ rest) = pform t true stk (attach (tree_of f) gen) rest.
Proof.
  intros t ts f H stk gen rest Hq. destruct H; try subst t.
  - reflexivity.
  - reflexivity.
  - destruct rest as [|k rest]; [reflexivity|]. destruct Hq as [Hq Hn]. cbn [app pform].
    destruct k; try discriminate Hq; try congruence; reflexivity.
  - destruct rest as [|k rest]; [reflexivity|]. destruct Hq as [Hq Hn]. cbn [app pform].
    destruct k; try discriminate Hq; try congruence; reflexivity.
  - rewrite <- (push_cmp_attach gen false). destruct o; reflexivity.
  - rewrite <- (push_cmp_attach gen true). destruct o; reflexivity.
Qed.

Lemma op_step : forall t o stk gen rest stk' gen', reduce_while (prec o) stk gen = (stk', gen') ->
  pform t true stk gen (op_sym o :: rest) = pform t false (IOp o :: stk') gen' rest.
Proof. intros t o stk gen rest stk' gen' H. destruct o; cbn [pform op_sym binop_of]; rewrite H; reflexivity. Qed.
Lemma quiet_op : forall o r, quiet (op_sym o :: r).
Proof. intros [] r; split; try reflexivity; discriminate. Qed.

Lemma run_op : forall t o a f b g stk gen rest, stk_ok (prec o) stk ->
  (forall rest, quiet rest -> runs t (op_level o) stk gen a rest f) ->
  (forall gen', runs t (op_right o) (IOp o :: stk) gen' b rest g) ->
  runs t (op_level o) stk gen (a ++ op_sym o :: b) rest (op_form o f g).
Proof.
  intros t o a f b g stk gen rest Hs Ha Hb.
  destruct (Ha (op_sym o :: b ++ rest) (quiet_op o _)) as (ops & gen' & E & R).
  assert (Ep : lp (op_level o) = prec o) by (destruct o; reflexivity).
  specialize (R (prec o) ltac:(lia)). rewrite (Hs (attach (tree_of f) gen)) in R.
  destruct (Hb (attach (tree_of f) gen)) as (ops2 & gen2 & E2 & R2).
  exists (ops2 ++ [IOp o]), gen2. split.
  - rewrite <- app_assoc. cbn [app]. rewrite E. rewrite (op_step _ _ _ _ _ _ _ R). rewrite E2.
    rewrite <- app_assoc. reflexivity.
  - intros q Hq. rewrite <- app_assoc. cbn [app]. rewrite R2 by (destruct o; simpl in *; lia).
    cbn [reduce_while]. unfold reduces. replace (q <=? prec o) with true by (symmetry; apply Nat.leb_le; lia).
    rewrite push_op. reflexivity.
Qed.

Lemma reads_runs : forall t l ts f, reads t l ts f ->
  forall stk gen rest, quiet rest -> (l <> LUnit -> stk_ok (lp l) stk) -> runs t l stk gen ts rest f.
Proof.
  intros t l ts f H. induction H; intros stk gen rest Hq Hs.
  - exists [], (attach (tree_of f) gen). split; [apply atom_runs; auto|]. auto.
  - destruct (IHreads (IParen :: stk) gen (YRpar :: rest)) as (ops & gen' & E & R).
    { split; [reflexivity|discriminate]. } { intros _ g. reflexivity. }
    exists [], (attach (tree_of f) gen). split; auto.
    cbn [app pform]. rewrite <- app_assoc. cbn [app]. rewrite E. cbn [pform binop_of].
    rewrite R by (simpl; lia). reflexivity.
  - destruct (IHreads (INot :: stk) gen rest Hq) as (ops & gen' & E & R); [congruence|].
    exists (ops ++ [INot]), gen'. split.
    + cbn [app pform]. rewrite E, <- app_assoc. reflexivity.
    + intros q Hl. rewrite <- app_assoc. cbn [app]. rewrite R by auto. cbn [reduce_while].
      unfold reduces. replace (q <=? prec_not) with true by (symmetry; apply Nat.leb_le; exact Hl).
      rewrite push_not. reflexivity.
  - apply IHreads; auto; try congruence.
  - refine (run_op t OAnd a f b g stk gen rest _ _ _).
    + apply Hs. discriminate.
    + intros rest' Hr. apply IHreads1; auto.
    + intros gen'. apply IHreads2; auto; simpl; congruence.
  - refine (run_op t OOr a f b g stk gen rest _ _ _).
    + apply Hs. discriminate.
    + intros rest' Hr. apply IHreads1; auto.
    + intros gen'. apply IHreads2; auto; simpl; congruence.
  - destruct (IHreads stk gen rest Hq) as (ops & gen' & E & R).
    { intros _. apply (stk_ok_le 2); [apply Hs; discriminate|simpl; lia]. }
    exists ops, gen'. split; auto. intros q Hl. apply R. simpl in *. lia.
  - refine (run_op t OImp a f b g stk gen rest _ _ _).
    + apply Hs. discriminate.
    + intros rest' Hr. apply IHreads1; auto.
    + intros gen'. apply IHreads2; auto. intros _ g0. reflexivity.
  - destruct (IHreads stk gen rest Hq) as (ops & gen' & E & R).
    { intros _. apply (stk_ok_le 1); [apply Hs; discriminate|simpl; lia]. }
    exists ops, gen'. split; auto. intros q Hl. apply R. simpl in *. lia.
  - refine (run_op t OIff a f b g stk gen rest _ _ _).
    + apply Hs. discriminate.
    + intros rest' Hr. apply IHreads1; auto.
    + intros gen'. apply IHreads2; auto. intros _ g0. reflexivity.
Qed.

(** nothing that continues a formula *)
Definition ends (rest : list ysym) : Prop :=
  match rest with [] => True | k :: _ => binop_of k = None /\ cmp_of k = None /\ k <> YQuote end.
Lemma formula_complete : forall t l ts f gen rest, reads t l ts f -> ends rest ->
  formula t gen (ts ++ rest) = Some (attach (tree_of f) gen, rest).
Proof.
  intros t l ts f gen rest H He. apply rd_iff_any in H.
  destruct (reads_runs _ _ _ _ H [] gen rest) as (ops & gen' & E & R).
  { destruct rest; simpl in *; tauto. } { intros _ g. reflexivity. }
  unfold formula. rewrite E, app_nil_r in *. specialize (R 0 ltac:(lia)).
  destruct rest as [|k rest]; cbn [pform]; [rewrite R; reflexivity|].
  destruct He as (-> & _ & _). rewrite R. destruct k; reflexivity.
Qed.

(** ** Soundness *)
Inductive pend (t : bool) (g0 : ptree) : list item -> ptree -> list ysym -> Prop :=
| pe_nil : pend t g0 [] g0 []
| pe_paren stk gen pre : pend t g0 stk gen pre -> pend t g0 (IParen :: stk) gen (pre ++ [YLpar])
| pe_not stk gen pre : pend t g0 stk gen pre -> pend t g0 (INot :: stk) gen (pre ++ [YBang])
| pe_op o stk gen pre a f : pend t g0 stk gen pre -> reads t (op_level o) a f -> stk_ok (prec o) stk ->
    pend t g0 (IOp o :: stk) (attach (tree_of f) gen) (pre ++ a ++ [op_sym o]).
Definition hold t g0 l stk gen pre : Prop :=
  exists gen0 pre0 a f, pend t g0 stk gen0 pre0 /\ reads t l a f /\ gen = attach (tree_of f) gen0 /\ pre = pre0 ++ a.
Definition fits (l : level) (stk : list item) : Prop :=
  match stk with
  | INot :: _ => l = LUnit
  | IOp o :: _ => lp (op_right o) <= lp l /\ (op_right o = LUnit -> l = LUnit)
  | _ => True
  end.
Lemma fits_below : forall o stk, stk_ok (prec o) stk -> fits (op_level o) stk.
Proof.
  intros o stk H. destruct stk as [|[o'| |] stk]; simpl; auto.
  - specialize (H NULL). simpl in H. unfold reduces in H.
    destruct (prec o <=? prec o') eqn:E.
    + exfalso. assert (L : forall s g0 p, List.length (fst (reduce_while p s g0)) <= List.length s).
      { induction s as [|[o1| |] s IH]; intros g0 p0; simpl; auto.
        - destruct (reduces (prec o1) p0); [|simpl; lia]. specialize (IH (pusht_operator g0 (bop_ty o1)) p0). lia.
        - destruct (reduces prec_not p0); [|simpl; lia]. specialize (IH (pusht_operator g0 PT_NEG) p0). lia. }
      specialize (L stk NULL (prec o)). rewrite H in L. simpl in L. lia.
    + apply Nat.leb_gt in E. destruct o, o'; simpl in *; split; try lia; try discriminate.
  - specialize (H NULL). simpl in H. unfold reduces in H.
    replace (prec o <=? prec_not) with true in H by (destruct o; reflexivity).
    exfalso. assert (L : forall s g0 p, List.length (fst (reduce_while p s g0)) <= List.length s).
    { induction s as [|[o1| |] s IH]; intros g0 p0; simpl; auto.
      - destruct (reduces (prec o1) p0); [|simpl; lia]. specialize (IH (pusht_operator g0 (bop_ty o1)) p0). lia.
      - destruct (reduces prec_not p0); [|simpl; lia]. specialize (IH (pusht_operator g0 PT_NEG) p0). lia. }
    specialize (L stk NULL (prec o)). rewrite H in L. simpl in L. lia.
Qed.
Lemma reads_right : forall t l o a f, reads t l a f -> lp (op_right o) <= lp l ->
  (op_right o = LUnit -> l = LUnit) -> reads t (op_right o) a f.
Proof.
  intros t l o a f H Hl Hu. destruct o; simpl in *;
    try (rewrite (Hu eq_refl) in H; exact H); apply (rd_weaken t l); auto; discriminate.
Qed.
Lemma reduce_hold : forall t g0 q stk l gen pre stk' gen',
  hold t g0 l stk gen pre -> fits l stk -> q <= lp l ->
  reduce_while q stk gen = (stk', gen') ->
  exists l', hold t g0 l' stk' gen' pre /\ stk_ok q stk' /\ q <= lp l'.
Proof.
  intros t g0 q stk. induction stk as [|i stk IH]; intros l gen pre stk' gen' Hh Hf Hq E.
  - simpl in E. injection E as <- <-. exists l. split; auto. split; auto. intros g. reflexivity.
  - destruct i as [o| |].
    + simpl in E. unfold reduces in E. destruct (q <=? prec o) eqn:Eq.
      * destruct Hh as (gen0 & pre0 & a & f & Hp & Hr & -> & ->). inversion Hp; subst.
        rewrite push_op in E. simpl in Hf. destruct Hf as [Hf1 Hf2].
        refine (IH (op_level o) _ ((pre ++ a0 ++ [op_sym o]) ++ a) _ _ _ _ _ E).
        { exists gen, pre, (a0 ++ op_sym o :: a), (op_form o f0 f). split; auto. split.
          - apply rd_op; auto. apply (reads_right t l); auto.
          - split; auto. rewrite <- !app_assoc. reflexivity. }
        { apply fits_below; auto. }
        { apply Nat.leb_le in Eq. destruct o; simpl in *; lia. }
      * injection E as <- <-. exists l. split; auto. split; auto. intros g. simpl. unfold reduces. rewrite Eq. reflexivity.
    + simpl in E. unfold reduces in E. destruct (q <=? prec_not) eqn:Eq.
      * destruct Hh as (gen0 & pre0 & a & f & Hp & Hr & -> & ->). inversion Hp; subst.
        rewrite push_not in E. simpl in Hf. subst l.
        assert (Hh' : hold t g0 LUnit stk (attach (tree_of (FNot f)) gen0) ((pre ++ [YBang]) ++ a)).
        { exists gen0, pre, (YBang :: a), (FNot f). split; auto. split; [rdu|].
          split; auto. rewrite <- app_assoc. reflexivity. }
        refine (IH LUnit _ _ _ _ Hh' _ Hq E).
        destruct stk as [|[o| |] stk]; simpl; auto. split; auto. destruct o; simpl; lia.
      * injection E as <- <-. exists l. split; auto. split; auto. intros g. simpl. unfold reduces. rewrite Eq. reflexivity.
    + simpl in E. injection E as <- <-. exists l. split; auto. split; auto. intros g. reflexivity.
Qed.
Lemma fits_unit : forall stk, fits LUnit stk.
Proof. intros [|[o| |] stk]; simpl; auto. split; auto. destruct o; simpl; lia. Qed.

Lemma prec_unit : forall o, prec o <= lp LUnit.
Proof. destruct o; simpl; lia. Qed.
Lemma hold_atom : forall t g0 stk gen pre a f, pend t g0 stk gen pre -> atom t a f ->
  hold t g0 LUnit stk (attach (tree_of f) gen) (pre ++ a).
Proof. intros. exists gen, pre, a, f. split; auto. split; [constructor; auto|auto]. Qed.

Lemma finish_sound : forall t g0 stk gen pre (ts : list ysym) gen' rest,
  hold t g0 LUnit stk gen pre ->
  match reduce_while 0 stk gen with ([], gen') => Some (gen', ts) | _ => None end = Some (gen', rest) ->
  exists f, reads t LIff pre f /\ gen' = attach (tree_of f) g0 /\ rest = ts.
Proof.
  intros t g0 stk gen pre ts gen' rest Hh E.
  destruct (reduce_while 0 stk gen) as [stk' gen''] eqn:Er. destruct stk'; [|discriminate].
  injection E as <- <-.
  destruct (reduce_hold _ _ _ _ _ _ _ _ _ Hh (fits_unit _) (Nat.le_0_l _) Er) as (l' & Hh' & _ & _).
  destruct Hh' as (gen0 & pre0 & a & f & Hp & Hr & -> & ->). inversion Hp; subst.
  exists f. split; auto. eapply rd_iff_any; eauto.
Qed.

Lemma pform_sound : forall t g0 n ts, List.length ts <= n -> forall (have : bool) stk gen pre gen' rest,
  (if have then hold t g0 LUnit stk gen pre else pend t g0 stk gen pre) ->
  pform t have stk gen ts = Some (gen', rest) ->
  exists mid f, ts = mid ++ rest /\ reads t LIff (pre ++ mid) f /\ gen' = attach (tree_of f) g0.
Proof.
  intros t g0 n. induction n as [|n IH]; intros ts Hn have stk gen pre gen' rest Hi E.
  - destruct ts; [|simpl in Hn; lia]. destruct have; [|discriminate].
    cbn [pform] in E. destruct (finish_sound _ _ _ _ _ _ _ _ Hi E) as (f & Hr & -> & ->).
    exists [], f. split; [reflexivity|]. rewrite app_nil_r. auto.
  - assert (Hgo : forall mid ts' (have : bool) stk gen, ts = mid ++ ts' -> mid <> [] ->
              (if have then hold t g0 LUnit stk gen (pre ++ mid) else pend t g0 stk gen (pre ++ mid)) ->
              pform t have stk gen ts' = Some (gen', rest) ->
              exists mid f, ts = mid ++ rest /\ reads t LIff (pre ++ mid) f /\ gen' = attach (tree_of f) g0).
    { intros mid ts' hv sk gn -> Hm Hh Ep.
      assert (Hl : List.length ts' <= n).
      { rewrite app_length in Hn. destruct mid; [congruence|]. simpl in Hn. lia. }
      destruct (IH ts' Hl _ _ _ _ _ _ Hh Ep) as (mid' & f & -> & Hr & Hg).
      exists (mid ++ mid'), f. rewrite <- app_assoc in *. auto. }
    destruct have.
    + destruct ts as [|k ts].
      { cbn [pform] in E. destruct (finish_sound _ _ _ _ _ _ _ _ Hi E) as (f & Hr & -> & ->).
        exists [], f. split; [reflexivity|]. rewrite app_nil_r. auto. }
      cbn [pform] in E.
      assert (Hfin : match reduce_while 0 stk gen with ([], g1) => Some (g1, k :: ts) | _ => None end = Some (gen', rest) ->
        exists mid f, k :: ts = mid ++ rest /\ reads t LIff (pre ++ mid) f /\ gen' = attach (tree_of f) g0).
      { intros E'. destruct (finish_sound _ _ _ _ _ _ _ _ Hi E') as (f & Hr & -> & ->).
        exists [], f. split; [reflexivity|]. rewrite app_nil_r. auto. }
      destruct (binop_of k) as [o|] eqn:Eo.
      * apply op_sym_of in Eo. subst k. destruct (reduce_while (prec o) stk gen) as [stk' gen1] eqn:Er.
        destruct (reduce_hold _ _ _ _ _ _ _ _ _ Hi (fits_unit _) (prec_unit o) Er) as (l' & Hh' & Hok & Hl').
        refine (Hgo [op_sym o] ts false _ _ eq_refl ltac:(discriminate) _ E).
        destruct Hh' as (gen0 & pre0 & a & f & Hp & Hr & -> & ->). rewrite <- app_assoc.
        constructor; auto. apply (rd_weaken t l'); auto; destruct o; simpl in *; auto; discriminate.
      * destruct k; try (exact (Hfin E)).
        destruct (reduce_while 0 stk gen) as [stk' gen1] eqn:Er. destruct stk' as [|[o| |] stk']; try (exact (Hfin E)).
        destruct (reduce_hold _ _ _ _ _ _ _ _ _ Hi (fits_unit _) (Nat.le_0_l _) Er) as (l' & Hh' & Hok & Hl').
        refine (Hgo [YRpar] ts true _ _ eq_refl ltac:(discriminate) _ E).
        destruct Hh' as (gen0 & pre0 & a & f & Hp & Hr & -> & ->). inversion Hp; subst.
        exists gen0, pre, (YLpar :: a ++ [YRpar]), f. split; auto. split.
        { apply rd_paren. eapply rd_iff_any; eauto. } split; auto. rewrite <- !app_assoc. reflexivity.
    + destruct ts as [|k ts]; [discriminate|].
      cbn [pform] in E. destruct k; try discriminate E.
      * destruct ts as [|c ts].
        { refine (Hgo [YVar x] [] true _ _ eq_refl ltac:(discriminate) _ E).
          apply (hold_atom t g0 stk gen pre [YVar x] (FVar x)); auto. constructor. }
        assert (Hvar : pform t true stk (pusht_terminal gen PT_VARIABLE (Some x) 0) (c :: ts) = Some (gen', rest) ->
          exists mid f, YVar x :: c :: ts = mid ++ rest /\ reads t LIff (pre ++ mid) f /\ gen' = attach (tree_of f) g0).
        { intros E'. refine (Hgo [YVar x] (c :: ts) true _ _ eq_refl ltac:(discriminate) _ E').
          apply (hold_atom t g0 stk gen pre [YVar x] (FVar x)); auto. constructor. }
        assert (Hcmp : forall o, cmp_of c = Some o ->
          match ts with YNum z :: r2 => pform t true stk (push_cmp gen PT_VARIABLE x o z) r2 | _ => None end = Some (gen', rest) ->
          exists mid f, YVar x :: c :: ts = mid ++ rest /\ reads t LIff (pre ++ mid) f /\ gen' = attach (tree_of f) g0).
        { intros o Ho E'. destruct (cmp_of_sym _ _ Ho) as (o' & -> & ->).
          destruct ts as [|[] ts]; try discriminate E'.
          refine (Hgo [YVar x; cmp_sym o'; YNum z] ts true _ _ eq_refl ltac:(discriminate) _ E').
          rewrite (push_cmp_attach gen false).
          apply (hold_atom t g0 stk gen pre _ (FCmp false x o' z)); auto. constructor. }
        destruct c; try (exact (Hvar E)); try (exact (Hcmp _ eq_refl E)).
        destruct t; [|discriminate E].
        destruct ts as [|c ts].
        { refine (Hgo [YVar x; YQuote] [] true _ _ eq_refl ltac:(discriminate) _ E).
          apply (hold_atom true g0 stk gen pre [YVar x; YQuote] (FNext x)); auto. constructor; auto. }
        destruct (cmp_of c) as [o|] eqn:Ho.
        { destruct (cmp_of_sym _ _ Ho) as (o' & -> & ->).
          destruct ts as [|[] ts]; try discriminate E.
          refine (Hgo [YVar x; YQuote; cmp_sym o'; YNum z] ts true _ _ eq_refl ltac:(discriminate) _ E).
          rewrite (push_cmp_attach gen true).
          apply (hold_atom true g0 stk gen pre _ (FCmp true x o' z)); auto. constructor; auto. }
        { refine (Hgo [YVar x; YQuote] (c :: ts) true _ _ eq_refl ltac:(discriminate) _ E).
          apply (hold_atom true g0 stk gen pre [YVar x; YQuote] (FNext x)); auto. constructor; auto. }
      * refine (Hgo [YTrue] ts true _ _ eq_refl ltac:(discriminate) _ E).
        apply (hold_atom t g0 stk gen pre [YTrue] FTrue); auto. constructor.
      * refine (Hgo [YFalse] ts true _ _ eq_refl ltac:(discriminate) _ E).
        apply (hold_atom t g0 stk gen pre [YFalse] FFalse); auto. constructor.
      * refine (Hgo [YBang] ts false _ _ eq_refl ltac:(discriminate) _ E). constructor; auto.
      * refine (Hgo [YLpar] ts false _ _ eq_refl ltac:(discriminate) _ E). constructor; auto.
Qed.

Lemma formula_sound : forall t gen ts tr rest, formula t gen ts = Some (tr, rest) ->
  exists pre f, ts = pre ++ rest /\ reads t LIff pre f /\ tr = attach (tree_of f) gen.
Proof.
  intros t gen ts tr rest E.
  destruct (pform_sound t gen (List.length ts) ts (le_n _) false [] gen [] tr rest (pe_nil _ _) E)
    as (mid & f & H1 & H2 & H3). exists mid, f. auto.
Qed.

(** ** The grammar *)
Lemma tree_of_inj : forall f g, tree_of f = tree_of g -> f = g.
Proof.
  induction f; destruct g; simpl; intros H; try discriminate H; auto;
    try (destruct o; discriminate H); try (destruct primed; discriminate H).
  - injection H as <-. reflexivity.
  - injection H as <-. reflexivity.
  - unfold binop, leaf_var, leaf_const in H. injection H as H1 H2 H3 H4.
    subst. f_equal; [destruct primed, primed0; auto; discriminate|].
    destruct o, o0; auto; discriminate.
  - injection H as H. f_equal. auto.
  - injection H as H1 H2. f_equal; auto.
  - injection H as H1 H2. f_equal; auto.
  - injection H as H1 H2. f_equal; auto.
  - injection H as H1 H2. f_equal; auto.
Qed.
Lemma reads_unique : forall t l l' ts f g, reads t l ts f -> reads t l' ts g -> f = g.
Proof.
  intros t l l' ts f g Hf Hg.
  pose proof (formula_complete t l ts f NULL [] Hf I) as E1.
  pose proof (formula_complete t l' ts g NULL [] Hg I) as E2.
  rewrite E1 in E2. rewrite !attach_nil in E2. injection E2 as E2. apply tree_of_inj; auto.
Qed.
Lemma reads_derives : forall t l ts f, reads t l ts f -> derives t ts f.
Proof. intros t l ts f H. induction H; try (constructor; assumption); auto. Qed.

Lemma read_not : forall t l ts f, reads t l ts f -> exists g, reads t l (YBang :: ts) g.
Proof.
  intros t l ts f H. induction H.
  - eexists. apply rd_not. apply rd_atom. eauto.
  - eexists. apply rd_not. apply rd_paren. eauto.
  - eexists. apply rd_not. apply rd_not. eauto.
  - destruct IHreads. eexists. apply rd_unit. eauto.
  - destruct IHreads1 as [h Hh]. exists (FAnd h g). apply (rd_and t (YBang :: a)); auto.
  - destruct IHreads1 as [h Hh]. exists (FOr h g). apply (rd_or t (YBang :: a)); auto.
  - destruct IHreads. eexists. apply rd_andl. eauto.
  - destruct IHreads1 as [h Hh]. exists (FImp h g). apply (rd_imp t (YBang :: a)); auto.
  - destruct IHreads. eexists. apply rd_impl. eauto.
  - destruct IHreads1 as [h Hh]. exists (FIff h g). apply (rd_iff t (YBang :: a)); auto.
Qed.
(** a further operand of the right level can be added on the right *)
Lemma read_and : forall t l a f, reads t l a f -> forall o b g, op_level o = LAnd -> reads t LUnit b g ->
  exists h, reads t (match l with LUnit => LAnd | _ => l end) (a ++ op_sym o :: b) h.
Proof.
  intros t l a f H. induction H; intros oo bb gg Ho Hb.
  - exists (op_form oo f gg). destruct oo; try discriminate Ho; simpl; rdop; auto; apply rd_unit; rdu.
  - exists (op_form oo f gg). destruct oo; try discriminate Ho; simpl;
      [apply (rd_and t (YLpar :: ts ++ [YRpar]))|apply (rd_or t (YLpar :: ts ++ [YRpar]))]; auto;
      apply rd_unit; rdu.
  - exists (op_form oo (FNot f) gg). destruct oo; try discriminate Ho; simpl;
      [apply (rd_and t (YBang :: ts))|apply (rd_or t (YBang :: ts))]; auto;
      apply rd_unit; rdu.
  - exact (IHreads oo bb gg Ho Hb).
  - exists (op_form oo (FAnd f g) gg). destruct oo; try discriminate Ho; simpl;
      [apply (rd_and t (a ++ YAmp :: b))|apply (rd_or t (a ++ YAmp :: b))]; auto; rdop; auto.
  - exists (op_form oo (FOr f g) gg). destruct oo; try discriminate Ho; simpl;
      [apply (rd_and t (a ++ YBar :: b))|apply (rd_or t (a ++ YBar :: b))]; auto; rdop; auto.
  - destruct (IHreads oo bb gg Ho Hb) as [h Hh]. exists h. apply rd_andl. auto.
  - destruct (IHreads2 oo bb gg Ho Hb) as [h Hh]. exists (FImp f h). rewrite <- app_assoc. simpl. rdop; auto.
  - destruct (IHreads oo bb gg Ho Hb) as [h Hh]. exists h. apply rd_impl. auto.
  - destruct (IHreads2 oo bb gg Ho Hb) as [h Hh]. exists (FIff f h). rewrite <- app_assoc. simpl. rdop; auto.
Qed.
Lemma read_imp : forall t l a f, reads t l a f -> forall b g, reads t LAnd b g ->
  exists h, reads t (match l with LIff => LIff | _ => LImp end) (a ++ YImp :: b) h.
Proof.
  intros t l a f H. destruct l; intros bb gg Hb.
  - remember LIff as l. induction H; try discriminate Heql.
    + exists (FImp f gg). apply rd_impl. apply rd_imp; auto.
    + exists (FIff f (FImp g gg)). rewrite <- app_assoc. simpl. apply rd_iff; auto. apply rd_imp; auto.
  - exists (FImp f gg). apply rd_imp; auto.
  - exists (FImp f gg). apply rd_imp; auto. apply rd_andl; auto.
  - exists (FImp f gg). apply rd_imp; auto. apply rd_andl. apply rd_unit; auto.
Qed.
Lemma read_join : forall t l b g, reads t l b g -> forall o a f, reads t LIff a f ->
  exists h, reads t LIff (a ++ op_sym o :: b) h.
Proof.
  intros t l b g H. induction H; intros oo aa ff Ha;
    try (match goal with |- exists h, reads t LIff (aa ++ op_sym oo :: ?b) h =>
      assert (Hu : exists g, reads t LUnit b g) by (eexists; first [apply rd_paren; eassumption|apply rd_not; eassumption|apply rd_atom; eassumption]); destruct Hu as [gg Hu];
      destruct oo;
      [exact (read_and t LIff aa ff Ha OAnd b gg eq_refl Hu)
      |exact (read_and t LIff aa ff Ha OOr b gg eq_refl Hu)
      |exact (read_imp t LIff aa ff Ha b gg (rd_unit _ _ _ Hu))
      |exists (FIff ff gg); apply rd_iff; auto; apply rd_andl; apply rd_unit; auto] end).
  - eauto.
  - destruct (IHreads1 oo aa ff Ha) as [h Hh].
    destruct (read_and t LIff _ h Hh OAnd b g eq_refl H0) as [h' Hh']. exists h'.
    rewrite <- app_assoc in Hh'. exact Hh'.
  - destruct (IHreads1 oo aa ff Ha) as [h Hh].
    destruct (read_and t LIff _ h Hh OOr b g eq_refl H0) as [h' Hh']. exists h'.
    rewrite <- app_assoc in Hh'. exact Hh'.
  - eauto.
  - destruct (IHreads1 oo aa ff Ha) as [h Hh].
    destruct (read_imp t LIff _ h Hh b g H0) as [h' Hh']. exists h'.
    rewrite <- app_assoc in Hh'. exact Hh'.
  - eauto.
  - destruct (IHreads1 oo aa ff Ha) as [h Hh].
    exists (FIff h g). rewrite app_comm_cons, app_assoc. apply rd_iff; auto.
Qed.
Lemma derives_reads : forall t ts f, derives t ts f -> exists g, reads t LIff ts g.
Proof.
  intros t ts f H. induction H.
  - exists f. apply rd_iff_any with (l := LUnit). rdu.
  - destruct IHderives as [g Hg]. exists g. apply rd_iff_any with (l := LUnit). rdu.
  - destruct IHderives as [g Hg]. eapply read_not; eauto.
  - destruct IHderives1 as [h1 H1], IHderives2 as [h2 H2]. exact (read_join t LIff b h2 H2 OAnd a h1 H1).
  - destruct IHderives1 as [h1 H1], IHderives2 as [h2 H2]. exact (read_join t LIff b h2 H2 OOr a h1 H1).
  - destruct IHderives1 as [h1 H1], IHderives2 as [h2 H2]. exact (read_join t LIff b h2 H2 OImp a h1 H1).
  - destruct IHderives1 as [h1 H1], IHderives2 as [h2 H2]. exact (read_join t LIff b h2 H2 OIff a h1 H1).
Qed.
