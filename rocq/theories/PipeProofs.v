(** The game of the prepared Boolean specification and the game of the original
    one with integers have the same winner. *)
From Coq Require Import List ZArith Lia Bool Arith String.
From Verif Require Import Base Strs Game GameIso Bdd Support Ops Ptree Form Solve FSpec Nonbool RSpec
  PtreeProofs ExpProofs SolveProofs RealProofs NonboolProofs EncProofs.
Import ListNotations.
Open Scope string_scope.
Open Scope list_scope.
Open Scope Z_scope.

(** ** What blocking adds *)
Definition blockers (ws : list vdecl) (p : bool) : list form :=
  flat_map (fun v => if snd v =? -1 then [] else
                     if snd v <? maxbitval (snd v) - 1 then [blocker (fst v) (snd v) p] else []) ws.
Section Truth.
  Variable T : form -> bool.
  Hypothesis T_true : T FTrue = true.
  Hypothesis T_and : forall f g, T (FAnd f g) = T f && T g.
  Definition TO (o : option form) : bool := match o with None => true | Some f => T f end.
  Lemma TO_or_true : forall o f, TO (Some (FAnd (f_or_true o) f)) = TO o && T f.
  Proof. intros [g|] f; simpl; rewrite T_and, ?T_true; reflexivity. Qed.
  Definition given (o : option form) : bool := match o with None => false | _ => true end.

  Lemma fblock_env_all : forall flags ws R,
    let R' := fblock_all (fblock_env flags) ws R in
    let os := is_one_side flags && given (rs_sinit R) in
    given (rs_sinit R') = given (rs_sinit R) /\
    TO (rs_einit R') = TO (rs_einit R) && (if os then true else forallb T (blockers ws false)) /\
    TO (rs_sinit R') = TO (rs_sinit R) && (if os then forallb T (blockers ws false) else true) /\
    (forall f, In f (rs_etrans R') <-> In f (rs_etrans R) \/ In f (blockers ws false ++ blockers ws true)) /\
    rs_strans R' = rs_strans R /\ rs_egoals R' = rs_egoals R /\ rs_sgoals R' = rs_sgoals R.
  Proof.
    intros flags. induction ws as [|[x d] ws IH]; intros R R' os.
    - unfold R'. simpl. destruct os; rewrite !andb_true_r; repeat split; auto; intros; tauto.
    - unfold R', fblock_all. cbn [fold_left fst snd].
      unfold blockers. cbn [flat_map fst snd].
      destruct (d =? -1) eqn:E1; [apply IH|].
      assert (Hnb : d <? maxbitval d - 1 = false -> fblock_env flags x d R = R).
      { intros E. unfold fblock_env. rewrite E. reflexivity. }
      destruct (d <? maxbitval d - 1) eqn:E2; [|rewrite Hnb by auto; apply IH].
      specialize (IH (fblock_env flags x d R)). unfold fblock_all in IH. cbv zeta in IH.
      destruct IH as (I1 & I2 & I3 & I4 & I5 & I6 & I7).
      fold (blockers ws false) in *. fold (blockers ws true) in *.
      set (R1 := fblock_env flags x d R) in *.
      assert (G : given (rs_sinit R1) = given (rs_sinit R)).
      { unfold R1, fblock_env. rewrite E2. cbn [rs_sinit]. destruct (rs_sinit R); [|destruct (is_one_side flags)]; cbn [andb]; auto.
        destruct (is_one_side flags && true); auto. }
      rewrite G in I1, I2, I3. fold os in I2, I3.
      assert (Hos : os = is_one_side flags && match rs_sinit R with None => false | _ => true end) by reflexivity.
      split; [exact I1|].
      split; [rewrite I2; unfold R1, fblock_env; rewrite E2, <- Hos; cbn [rs_einit];
              destruct os; auto; rewrite TO_or_true; cbn [app forallb]; rewrite andb_assoc; reflexivity|].
      split; [rewrite I3; unfold R1, fblock_env; rewrite E2, <- Hos; cbn [rs_sinit];
              destruct os; auto; rewrite TO_or_true; cbn [app forallb]; rewrite andb_assoc; reflexivity|].
      split.
      { intros f. rewrite I4. unfold R1, fblock_env. rewrite E2. cbn [rs_etrans].
        rewrite !in_app_iff. cbn [In]. tauto. }
      rewrite I5, I6, I7. unfold R1, fblock_env. rewrite E2. auto.
  Qed.
  Lemma fblock_sys_all : forall flags ws R,
    let R' := fblock_all (fblock_sys flags) ws R in
    let oe := is_one_side flags && negb (given (rs_sinit R)) in
    (is_one_side flags = true -> given (rs_sinit R') = given (rs_sinit R)) /\
    TO (rs_einit R') = TO (rs_einit R) && (if oe then forallb T (blockers ws false) else true) /\
    TO (rs_sinit R') = TO (rs_sinit R) && (if oe then true else forallb T (blockers ws false)) /\
    (forall f, In f (rs_strans R') <-> In f (rs_strans R) \/ In f (blockers ws false ++ blockers ws true)) /\
    rs_etrans R' = rs_etrans R /\ rs_egoals R' = rs_egoals R /\ rs_sgoals R' = rs_sgoals R.
  Proof.
    intros flags. induction ws as [|[x d] ws IH]; intros R R' oe.
    - unfold R'. simpl. destruct oe; rewrite !andb_true_r; repeat split; auto; intros; tauto.
    - unfold R', fblock_all. cbn [fold_left fst snd].
      unfold blockers. cbn [flat_map fst snd].
      destruct (d =? -1) eqn:E1; [apply IH|].
      assert (Hnb : d <? maxbitval d - 1 = false -> fblock_sys flags x d R = R).
      { intros E. unfold fblock_sys. rewrite E. reflexivity. }
      destruct (d <? maxbitval d - 1) eqn:E2; [|rewrite Hnb by auto; apply IH].
      specialize (IH (fblock_sys flags x d R)). unfold fblock_all in IH. cbv zeta in IH.
      destruct IH as (I1 & I2 & I3 & I4 & I5 & I6 & I7).
      fold (blockers ws false) in *. fold (blockers ws true) in *.
      set (R1 := fblock_sys flags x d R) in *.
      assert (G : is_one_side flags = true -> given (rs_sinit R1) = given (rs_sinit R)).
      { intros Ho. unfold R1, fblock_sys. rewrite E2, Ho. cbn [rs_sinit andb]. destruct (rs_sinit R); auto. }
      assert (Hoe : is_one_side flags && negb (given (rs_sinit R1)) = oe).
      { unfold oe. destruct (is_one_side flags); auto. rewrite G by auto. reflexivity. }
      rewrite Hoe in I2, I3.
      assert (Hos : oe = is_one_side flags && match rs_sinit R with None => true | _ => false end).
      { unfold oe. destruct (rs_sinit R); reflexivity. }
      split; [intros Ho; rewrite I1 by auto; apply G; auto|].
      split; [rewrite I2; unfold R1, fblock_sys; rewrite E2, <- Hos; cbn [rs_einit];
              destruct oe; auto; rewrite TO_or_true; cbn [app forallb]; rewrite andb_assoc; reflexivity|].
      split; [rewrite I3; unfold R1, fblock_sys; rewrite E2, <- Hos; cbn [rs_sinit];
              destruct oe; auto; rewrite TO_or_true; cbn [app forallb]; rewrite andb_assoc; reflexivity|].
      split.
      { intros f. rewrite I4. unfold R1, fblock_sys. rewrite E2. cbn [rs_strans].
        rewrite !in_app_iff. cbn [In]. tauto. }
      rewrite I5, I6, I7. unfold R1, fblock_sys. rewrite E2. auto.
  Qed.
End Truth.

Lemma NoDup_names_inj : forall (vs : list vdecl) x d d', NoDup (names vs) ->
  In (x, d) vs -> In (x, d') vs -> d = d'.
Proof.
  induction vs as [|[y e] vs IH]; intros x d d' Hn H1 H2; [destruct H1|].
  cbn [names map fst] in Hn. inversion Hn as [|? ? Hy Hn']; subst.
  destruct H1 as [E1|H1], H2 as [E2|H2].
  - congruence.
  - injection E1 as -> ->. exfalso. apply Hy. apply (in_map fst) in H2. auto.
  - injection E2 as -> ->. exfalso. apply Hy. apply (in_map fst) in H1. auto.
  - apply (IH x); auto.
Qed.
Lemma substring_all : forall s, substring 0 (String.length s) s = s.
Proof. induction s as [|c s IH]; auto. cbn [String.length substring]. f_equal. auto. Qed.
Lemma substring_full : forall s n, (String.length s <= n)%nat -> substring 0 n s = s.
Proof.
  induction s as [|c s IH]; intros [|n] H; auto; [cbn [String.length] in H; lia|].
  cbn [String.length] in H. cbn [substring]. f_equal. apply IH. lia.
Qed.

Definition indom (vs : list vdecl) (v : string -> Z) : Prop :=
  forall x d, In (x, d) vs -> In (v x) (dom d).
Definition inrepr (vs : list vdecl) (v : string -> Z) : Prop :=
  forall x d, In (x, d) vs -> In (v x) (dom (wide d)).
Lemma lookup_indoms : forall (vs : list vdecl) s, NoDup (names vs) -> List.length s = List.length vs ->
  ((forall x d, In (x, d) vs -> In (lookup (names vs) s x) (dom d)) <-> in_doms (doms vs) s).
Proof.
  unfold in_doms, names. induction vs as [|[x d] vs IH]; intros [|v s] Hn Hl; try discriminate.
  - split; [constructor|]. intros _ x d [].
  - cbn [map fst] in *. inversion Hn as [|? ? Hx Hn']; subst. injection Hl as Hl.
    specialize (IH s Hn' Hl). cbn [lookup].
    assert (Hne : forall y e, In (y, e) vs -> String.eqb x y = false).
    { intros y e Hin. apply String.eqb_neq. intros ->. apply Hx. apply (in_map fst) in Hin. auto. }
    split.
    + intros H. constructor.
      * specialize (H x d (or_introl eq_refl)). rewrite String.eqb_refl in H. auto.
      * apply IH. intros y e Hin. specialize (H y e (or_intror Hin)). rewrite (Hne y e Hin) in H. auto.
    + intros H. inversion H; subst. intros y e [E|Hin].
      * injection E as <- <-. rewrite String.eqb_refl. auto.
      * rewrite (Hne y e Hin). apply IH; auto.
Qed.
Lemma lookup_repr : forall vs s, NoDup (names vs) -> repr vs s -> inrepr vs (lookup (names vs) s).
Proof.
  intros vs s Hn Hr. set (ws := map (fun v => (fst v, wide (snd v))) vs).
  assert (E1 : names ws = names vs).
  { unfold ws, names. rewrite map_map. reflexivity. }
  assert (E2 : doms ws = map wide (doms vs)).
  { unfold ws, doms. rewrite !map_map. reflexivity. }
  intros x d Hin. rewrite <- E1. apply (lookup_indoms ws s).
  - rewrite E1. auto.
  - unfold ws. rewrite map_length. apply repr_len; auto.
  - rewrite E2. exact Hr.
  - unfold ws. apply in_map_iff. exists (x, d). auto.
Qed.

Section Pipe.
  Variable flags : init_flags_t.
  Variable R : rspec.
  Hypothesis HT : well_typed R.
  Hypothesis HN : NoDup (names (rs_vars R)).
  Hypothesis HB : bits_distinct (rs_vars R).
  Let vs := rs_vars R.
  Let es := rs_evars R.
  Let ss := rs_svars R.
  Let F := fspec_of R.
  Let F' := solver_spec (-1) flags R.

  Lemma dom_ge : forall x d, In (x, d) vs -> -1 <= d.
  Proof. apply HT. Qed.
  Lemma varname_bit : forall x d i, In (x, d) vs -> 0 <= d -> 0 <= i < nbits d -> varname x i = bit_name x i.
  Proof.
    intros x d i Hin Hd Hi. unfold varname. rewrite nbits_width in Hi by auto.
    pose proof (proj2 HB x d Hin Hd i Hi) as Hl. unfold bit_name in *.
    apply substring_full. unfold varname_cap. lia.
  Qed.
  Lemma bnames_all : bnames vs = all_bits vs.
  Proof.
    unfold bnames, all_bits. assert (H : forall v, In v vs -> dnames v = var_bits v).
    { intros [x d] Hin. unfold dnames, var_bits. cbn [fst snd].
      destruct (Z.leb_spec 0 d) as [Hd|Hd].
      - rewrite (proj2 (Z.ltb_ge d 0)) by auto. unfold bit_names. rewrite <- nbits_width by auto.
        apply map_ext_in. intros i Hi. apply zseq_In in Hi. apply (varname_bit x d); auto. lia.
      - rewrite (proj2 (Z.ltb_lt d 0)) by auto. reflexivity. }
    clear - H. induction vs as [|v l IH]; auto. cbn [flat_map]. rewrite H by (left; auto).
    f_equal. apply IH. intros; apply H; right; auto.
  Qed.
  Lemma bnames_nodup : NoDup (bnames vs).
  Proof. rewrite bnames_all. apply HB. Qed.
  Lemma es_nodup : NoDup (names es) /\ NoDup (bnames es).
  Proof.
    pose proof HN as H1. pose proof bnames_nodup as H2. unfold vs, rs_vars, names, bnames in *.
    rewrite map_app in H1. rewrite flat_map_app in H2.
    split; eapply NoDup_app_l; eauto.
  Qed.

  (** *** Truth of one formula *)
  Section OneForm.
    Variables cb nb ci ni : string -> Z.
    Variable vs' : list vdecl.
    Hypothesis Hsub : incl vs' vs.
    Hypothesis Rc : rel vs cb ci.
    Hypothesis Rn : rel vs' nb ni.
    Lemma rel_bits : forall ws vb vi x d, rel ws vb vi -> In (x, d) ws -> 0 <= d -> bits_are x d vb (vi x).
    Proof. intros ws vb vi x d H Hin Hd. specialize (H x d Hin). rewrite (proj2 (Z.ltb_ge d 0)) in H by auto. auto. Qed.
    Lemma typed_boolean : forall f, uses vs false f -> uses vs' true f -> boolean (expandS vs f) = true.
    Proof.
      intros f [_ H1] [_ H2]. apply boolean_cmps.
      assert (Hg : forall p, (forall y, In y (cmps p f) -> exists d, 0 <= d /\ In (y, d) vs) ->
                   cmps p (expandS vs f) = []).
      { intros p Hp. destruct (cmps p (expandS vs f)) as [|y l] eqn:E; auto. exfalso.
        assert (Hy : In y (cmps p (expandS vs f))) by (rewrite E; left; auto).
        apply expandS_cmps in Hy. destruct Hy as [Hy Hneg]. destruct (Hp y Hy) as (d & Hd & Hin).
        specialize (Hneg d Hin). lia. }
      split; apply Hg; auto. intros y Hy. destruct (H2 y Hy) as (d & Hd & Hin). eauto.
    Qed.
    Lemma form_ok : forall f, uses vs false f -> uses vs' true f -> indom vs ci -> indom vs' ni ->
      sem cb nb (expandS vs f) = sem ci ni f.
    Proof.
      intros f U1 U2 D1 D2. rewrite <- (sem2_boolean cb nb ci ni) by (apply typed_boolean; auto).
      rewrite expandS_sem2.
      - apply sem2_agree.
        + intros y Hy. apply U1 in Hy. apply (Rc y (-1) Hy).
        + intros y Hy. apply U2 in Hy. apply (Rn y (-1) Hy).
      - intros x d Hin Hd. split; intros Hx.
        + split; [apply (rel_bits vs); auto|]. right. apply dom_int; auto.
        + apply U2 in Hx. destruct Hx as (d' & Hd' & Hin').
          assert (d = d') by (eapply NoDup_names_inj; [exact HN|exact Hin|apply Hsub; exact Hin']). subst d'.
          split; [apply (rel_bits vs'); auto|]. right. apply dom_int; auto.
    Qed.
    Lemma blocker_ok : forall (p : bool) x d, 0 <= d -> d < maxbitval d - 1 ->
      In (x, d) (if p then vs' else vs) ->
      In ((if p then ni else ci) x) (dom (wide d)) ->
      (sem cb nb (expandS vs (blocker x d p)) = true <-> In ((if p then ni else ci) x) (dom d)).
    Proof.
      intros p x d Hd Hlt Hin Hw.
      destruct (unreach_scope x p (d + 1) (maxbitval d - 1)) as (B1 & B2 & C1 & C2 & Q & _).
      fold (blocker x d p) in *.
      destruct (wide_int d Hd) as (Ew & W1 & W2). rewrite dom_int in Hw by auto. rewrite dom_int by auto.
      assert (Hinv : In (x, d) vs) by (destruct p; auto).
      assert (Hb : boolean (expandS vs (blocker x d p)) = true).
      { apply boolean_cmps.
        assert (Hg : forall q, cmps q (expandS vs (blocker x d p)) = []).
        { intros q. destruct (cmps q (expandS vs (blocker x d p))) as [|y l] eqn:E; auto. exfalso.
          assert (Hy : In y (cmps q (expandS vs (blocker x d p)))) by (rewrite E; left; auto).
          apply expandS_cmps in Hy. destruct Hy as [Hy Hneg].
          assert (y = x).
          { destruct p, q; try (simpl in C1; rewrite C1 in Hy; destruct Hy; fail);
              apply C2 in Hy; destruct Hy as [->|[]]; auto. }
          subst y. specialize (Hneg d Hinv). lia. }
        split; apply Hg. }
      rewrite <- (sem2_boolean cb nb ci ni) by auto. rewrite expandS_sem2.
      - rewrite sem2_agree by (rewrite ?B1, ?B2; intros y []).
        unfold blocker. rewrite unreach_sem by lia.
        replace (if p then ni x else ci x) with ((if p then ni else ci) x) by (destruct p; auto).
        rewrite maxbitval_eq by auto.
        rewrite negb_true_iff, andb_false_iff, !Z.leb_gt. lia.
      - intros y e Hy He.
        assert (Hcase : forall q, In y (cmps q (blocker x d p)) -> y = x /\ q = p).
        { intros q Hq. destruct p, q; try (simpl in C1; rewrite C1 in Hq; destruct Hq; fail);
            apply C2 in Hq; destruct Hq as [->|[]]; auto. }
        split; intros Hq; apply Hcase in Hq; destruct Hq as [-> Hq];
          (assert (e = d) by (eapply NoDup_names_inj; [exact HN|exact Hy|exact Hinv])); subst e; subst p; split;
          try (left; split; [exact Q|lia]).
        + apply (rel_bits vs); auto.
        + apply (rel_bits vs'); auto.
    Qed.
    (** the blockers of [ws] say that the values are in the domains *)
    Lemma blockers_ok : forall (p : bool) ws, incl ws (if p then vs' else vs) ->
      inrepr ws (if p then ni else ci) ->
      (forallb (fun f => sem cb nb (expandS vs f)) (blockers ws p) = true <->
       indom ws (if p then ni else ci)).
    Proof.
      intros p ws Hi Hr. rewrite forallb_forall. unfold blockers, indom. split.
      - intros H x d Hin. pose proof (Hr x d Hin) as Hw.
        assert (Hv : In (x, d) vs) by (apply Hi in Hin; destruct p; auto).
        destruct (Z.eq_dec d (-1)) as [->|Hd].
        + rewrite wide_bool in Hw by lia. auto.
        + pose proof (dom_ge x d Hv). assert (Hd0 : 0 <= d) by lia.
          destruct (Z.ltb_spec d (maxbitval d - 1)) as [Hlt|Hge].
          * apply (blocker_ok p x d); auto. apply H. apply in_flat_map. exists (x, d). split; auto.
            cbn [fst snd]. rewrite (proj2 (Z.eqb_neq d (-1))) by auto.
            rewrite (proj2 (Z.ltb_lt d (maxbitval d - 1))) by auto. left; auto.
          * destruct (wide_int d Hd0) as (Ew & W1 & W2). rewrite maxbitval_eq in Hge by auto.
            rewrite dom_int in * by auto. lia.
      - intros H f Hf. apply in_flat_map in Hf. destruct Hf as ([x d] & Hin & Hf). cbn [fst snd] in Hf.
        destruct (Z.eqb_spec d (-1)); [destruct Hf|].
        destruct (Z.ltb_spec d (maxbitval d - 1)) as [Hlt|Hge]; [|destruct Hf].
        destruct Hf as [<-|[]].
        assert (Hv : In (x, d) vs) by (apply Hi in Hin; destruct p; auto).
        pose proof (dom_ge x d Hv). apply blocker_ok; auto; lia.
    Qed.
  End OneForm.

  (** *** Scopes and types of the formulas *)
  Definition typed (ws : list vdecl) (f : form) : Prop := uses vs false f /\ uses ws true f.
  Lemma uses_and : forall ws p f g, uses ws p f -> uses ws p g -> uses ws p (FAnd f g).
  Proof.
    intros ws p f g [A1 A2] [B1 B2]. split; intros y Hy; cbn [bares cmps] in Hy; apply in_app_or in Hy;
      destruct Hy; auto.
  Qed.
  Lemma uses_true : forall ws p, uses ws p FTrue.
  Proof. intros. split; intros y []. Qed.
  Lemma typed_and : forall ws f g, typed ws f -> typed ws g -> typed ws (FAnd f g).
  Proof. intros ws f g [A1 A2] [B1 B2]. split; apply uses_and; auto. Qed.
  Lemma typed_true : forall ws, typed ws FTrue.
  Proof. intros. split; apply uses_true. Qed.
  Lemma state_typed_eq : forall f, state_typed R f <-> typed [] f.
  Proof.
    intros f. unfold state_typed, typed. split.
    - intros (H1 & H2 & H3). split; auto. split; intros y Hy; [rewrite H2 in Hy|rewrite H3 in Hy]; destruct Hy.
    - intros [H1 [H2 H3]]. split; auto. split.
      + destruct (bares true f) as [|y l]; auto. destruct (H2 y); left; auto.
      + destruct (cmps true f) as [|y l]; auto. destruct (H3 y) as (d & _ & []). left; auto.
  Qed.
  Lemma blocker_uses : forall ws x d (p q : bool), 0 <= d -> (q = p -> In (x, d) ws) -> uses ws q (blocker x d p).
  Proof.
    intros ws x d p q Hd Hin.
    destruct (unreach_scope x p (d + 1) (maxbitval d - 1)) as (B1 & B2 & C1 & C2 & _).
    fold (blocker x d p) in *. split; intros y Hy.
    - destruct q; [rewrite B2 in Hy|rewrite B1 in Hy]; destruct Hy.
    - exists d. split; auto.
      destruct p, q; try (simpl in C1; rewrite C1 in Hy; destruct Hy; fail);
        apply C2 in Hy; destruct Hy as [<-|[]]; auto.
  Qed.
  Definition typedR (R' : rspec) : Prop :=
    (forall f, In f (opt_list (rs_einit R') ++ opt_list (rs_sinit R') ++ rs_egoals R' ++ rs_sgoals R') -> typed [] f) /\
    (forall f, In f (rs_etrans R') -> typed es f) /\ (forall f, In f (rs_strans R') -> typed vs f).
  Lemma incl_es : incl es vs.
  Proof. unfold es, vs, rs_vars. intros v H. apply in_or_app; auto. Qed.
  Lemma incl_ss : incl ss vs.
  Proof. unfold ss, vs, rs_vars. intros v H. apply in_or_app; auto. Qed.
  Lemma typed_or_true : forall o, (forall f, In f (opt_list o) -> typed [] f) -> typed [] (f_or_true o).
  Proof. intros [f|] H; [apply H; left; auto|apply typed_true]. Qed.
  Lemma typedR0 : typedR R.
  Proof.
    destruct HT as (_ & [H1 H2] & H3 & H4 & H5 & H6 & _).
    split; [|split].
    - intros f Hf. rewrite !in_app_iff in Hf. apply state_typed_eq.
      destruct Hf as [Hf|[Hf|[Hf|Hf]]]; auto.
      + destruct (rs_einit R); [destruct Hf as [<-|[]]|destruct Hf]. exact H1.
      + destruct (rs_sinit R); [destruct Hf as [<-|[]]|destruct Hf]. exact H2.
    - intros f Hf. apply H3; auto.
    - intros f Hf. apply H4; auto.
  Qed.
  Lemma typedR_env : forall x d R', In (x, d) es -> 0 <= d -> typedR R' -> typedR (fblock_env flags x d R').
  Proof.
    intros x d R' Hin Hd (H1 & H2 & H3). unfold fblock_env.
    destruct (d <? maxbitval d - 1); [|split; [|split]; assumption].
    assert (Hv : In (x, d) vs) by (apply incl_es; auto).
    assert (Hb : typed [] (blocker x d false)).
    { split; apply blocker_uses; auto; discriminate. }
    assert (He : typed [] (f_or_true (rs_einit R'))).
    { apply typed_or_true. intros; apply H1. rewrite !in_app_iff; auto. }
    assert (Hs : typed [] (f_or_true (rs_sinit R'))).
    { apply typed_or_true. intros; apply H1. rewrite !in_app_iff; auto. }
    split; [|split]; cbn [rs_evars rs_svars rs_einit rs_sinit rs_etrans rs_strans rs_egoals rs_sgoals]; auto.
    - intros f Hf. rewrite !in_app_iff in Hf.
      destruct (is_one_side flags && match rs_sinit R' with None => false | _ => true end);
        destruct Hf as [Hf|[Hf|Hf]]; try (apply H1; rewrite !in_app_iff; tauto);
        destruct Hf as [<-|[]]; apply typed_and; auto.
    - intros f Hf. apply in_app_or in Hf. destruct Hf as [Hf|[<-|[<-|[]]]]; auto;
        split; apply blocker_uses; auto.
  Qed.
  Lemma typedR_sys : forall x d R', In (x, d) ss -> 0 <= d -> typedR R' -> typedR (fblock_sys flags x d R').
  Proof.
    intros x d R' Hin Hd (H1 & H2 & H3). unfold fblock_sys.
    destruct (d <? maxbitval d - 1); [|split; [|split]; assumption].
    assert (Hv : In (x, d) vs) by (apply incl_ss; auto).
    assert (Hb : typed [] (blocker x d false)).
    { split; apply blocker_uses; auto; discriminate. }
    assert (He : typed [] (f_or_true (rs_einit R'))).
    { apply typed_or_true. intros; apply H1. rewrite !in_app_iff; auto. }
    assert (Hs : typed [] (f_or_true (rs_sinit R'))).
    { apply typed_or_true. intros; apply H1. rewrite !in_app_iff; auto. }
    split; [|split]; cbn [rs_evars rs_svars rs_einit rs_sinit rs_etrans rs_strans rs_egoals rs_sgoals]; auto.
    - intros f Hf. rewrite !in_app_iff in Hf.
      destruct (is_one_side flags && match rs_sinit R' with None => true | _ => false end);
        destruct Hf as [Hf|[Hf|Hf]]; try (apply H1; rewrite !in_app_iff; tauto);
        destruct Hf as [<-|[]]; apply typed_and; auto.
    - intros f Hf. apply in_app_or in Hf. destruct Hf as [Hf|[<-|[<-|[]]]]; auto;
        split; apply blocker_uses; auto.
  Qed.
  Let R1 := fdefaults R.
  Let R2 := fblocked flags R1.
  Lemma typedR2 : typedR R2.
  Proof.
    assert (H : typedR R1).
    { destruct typedR0 as (H1 & H2 & H3). unfold R1.
      assert (HD : forall ws l f, (forall f, In f l -> typed ws f) ->
                In f (match l with [] => [FTrue] | f0 :: l0 => f0 :: l0 end) -> typed ws f).
      { intros ws [|g l] f Hl Hf; auto. destruct Hf as [<-|[]]. apply typed_true. }
      split; [|split]; cbn [fdefaults rs_evars rs_svars rs_einit rs_sinit rs_etrans rs_strans rs_egoals rs_sgoals].
      - intros f Hf. rewrite !in_app_iff in Hf.
        destruct Hf as [Hf|[Hf|[Hf|Hf]]]; try (apply H1; rewrite !in_app_iff; tauto).
        eapply HD; [|exact Hf]. intros; apply H1; rewrite !in_app_iff; tauto.
      - intros f Hf. eapply HD; [|exact Hf]. auto.
      - intros f Hf. eapply HD; [|exact Hf]. auto. }
    unfold R2, fblocked. apply fblock_all_inv.
    - apply fblock_all_inv; auto. intros x d R' Hin Hd HR'. apply typedR_env; auto.
      assert (-1 <= d) by (apply (dom_ge x); apply incl_es; auto). lia.
    - intros x d R' Hin Hd HR'. apply typedR_sys; auto.
      assert (-1 <= d) by (apply (dom_ge x); apply incl_ss; auto). lia.
  Qed.

  Lemma bnames_In : forall ws x d y, In (x, d) ws -> In y (dnames (x, d)) -> In y (bnames ws).
  Proof. intros ws x d y H1 H2. apply in_flat_map. eauto. Qed.
  Lemma typed_scope : forall ws f, incl ws vs -> typed ws f ->
    boolean (expandS vs f) = true /\
    incl (fvars (expandS vs f)) (bnames vs) /\ incl (fnexts (expandS vs f)) (bnames ws).
  Proof.
    intros ws f Hi [U1 U2].
    assert (Hb : boolean (expandS vs f) = true) by (apply (typed_boolean ws); auto).
    split; auto.
    assert (Hg : forall p ws', incl ws' vs -> uses ws' p f -> incl (bares p (expandS vs f)) (bnames ws')).
    { intros p ws' Hi' [U3 U4] y Hy. apply expandS_bares in Hy.
      destruct Hy as [Hy|(x & d & Hin & Hd & Hx & Hy)].
      - apply U3 in Hy. apply (bnames_In ws' y (-1)); auto. left; auto.
      - destruct (U4 x Hx) as (d' & Hd' & Hin').
        assert (d = d') by (eapply NoDup_names_inj; [exact HN|exact Hin|apply Hi'; auto]). subst d'.
        apply (bnames_In ws' x d); auto. unfold dnames. cbn [fst snd].
        rewrite (proj2 (Z.leb_le 0 d)) by auto. auto. }
    split; intros y Hy.
    - apply fvars_split in Hy. rewrite (boolean_cmp_nil false) in Hy by auto.
      destruct Hy as [Hy|[]]. apply (Hg false vs); auto. apply incl_refl.
    - apply fnexts_split in Hy. rewrite (boolean_cmp_nil true) in Hy by auto.
      destruct Hy as [Hy|[]]. apply (Hg true ws); auto.
  Qed.
  Lemma and_all_ind : forall (P : form -> Prop), P FTrue -> (forall f g, P f -> P g -> P (FAnd f g)) ->
    forall l, (forall f, In f l -> P f) -> P (and_all l).
  Proof.
    intros P H1 H2 [|f l] H; auto. cbn [and_all].
    assert (Hc : forall l f, P f -> (forall g, In g l -> P g) -> P (chain FAnd f l)).
    { clear - H2. induction l as [|g l IH]; intros f Hf Hl; auto. unfold chain. cbn [fold_left].
      apply IH; [apply H2; auto; apply Hl; left; auto|intros; apply Hl; right; auto]. }
    apply Hc; [apply H; left; auto|intros; apply H; right; auto].
  Qed.
  Lemma and_all_sem : forall c n l, sem c n (and_all l) = forallb (sem c n) l.
  Proof. intros c n [|f l]; auto. apply chain_and_sem. Qed.
  Lemma conj_sem : forall c n l, sem c n (conj l) = forallb (sem c n) l.
  Proof. induction l as [|f l IH]; auto. cbn [conj fold_right sem forallb]. fold (conj l). rewrite IH. reflexivity. Qed.
  Lemma scope_and_all : forall ws l, incl ws vs -> (forall f, In f l -> typed ws f) ->
    boolean (and_all (map (expandS vs) l)) = true /\
    incl (fvars (and_all (map (expandS vs) l))) (bnames vs) /\
    incl (fnexts (and_all (map (expandS vs) l))) (bnames ws).
  Proof.
    intros ws l Hi H.
    apply (and_all_ind (fun f => boolean f = true /\ incl (fvars f) (bnames vs) /\ incl (fnexts f) (bnames ws))).
    - repeat split; intros y [].
    - intros f g (A1 & A2 & A3) (B1 & B2 & B3). cbn [boolean fvars fnexts]. rewrite A1, B1.
      repeat split; apply incl_app; auto.
    - intros f Hf. apply in_map_iff in Hf. destruct Hf as (g & <- & Hg). apply typed_scope; auto.
  Qed.

  Lemma vars' : fs_vars F' = bit_decls (-1) vs.
  Proof. unfold fs_vars, F', solver_spec, vs, rs_vars, bit_decls. cbn [fs_evars fs_svars]. rewrite flat_map_app. reflexivity. Qed.
  Lemma names' : names (fs_vars F') = bnames vs.
  Proof. rewrite vars'. apply bit_decls_bnames. Qed.
  Lemma enames' : names (fs_evars F') = bnames es.
  Proof. apply bit_decls_bnames. Qed.
  Lemma bit_doms : forall ws, incl ws vs -> forall v, In v (bit_decls (-1) ws) -> snd v = -1.
  Proof.
    intros ws Hi v Hv. apply in_flat_map in Hv. destruct Hv as ([x d] & Hin & Hv). cbn [fst snd] in Hv.
    pose proof (dom_ge x d (Hi _ Hin)). destruct (Z.leb_spec 0 d).
    - apply in_map_iff in Hv. destruct Hv as (y & <- & _). reflexivity.
    - destruct Hv as [<-|[]]. simpl. lia.
  Qed.
  Lemma state_scope : forall f, typed [] f -> state_form F' (expandS vs f) /\ boolean (expandS vs f) = true.
  Proof.
    intros f Hf. destruct (typed_scope [] f) as (A & B & C); auto; [intros v []|].
    unfold state_form. rewrite names'. repeat split; auto.
    destruct (fnexts (expandS vs f)) as [|y l]; auto. destruct (C y). left; auto.
  Qed.
  Lemma opt_scope : forall o, (forall f, In f (opt_list o) -> typed [] f) ->
    opt_form (state_form F') (option_map (expandS vs) o) /\
    opt_form (fun f => boolean f = true) (option_map (expandS vs) o).
  Proof. intros [f|] H; simpl; auto. apply state_scope. apply H. left; auto. Qed.
  Lemma F'_einit : fs_einit F' = option_map (expandS vs) (rs_einit R2).
  Proof. reflexivity. Qed.
  Lemma F'_sinit : fs_sinit F' = option_map (expandS vs) (rs_sinit R2).
  Proof. reflexivity. Qed.
  Lemma F'_etrans : fs_etrans F' = and_all (map (expandS vs) (rs_etrans R2)).
  Proof. reflexivity. Qed.
  Lemma F'_strans : fs_strans F' = and_all (map (expandS vs) (rs_strans R2)).
  Proof. reflexivity. Qed.
  Lemma R2_egoals : rs_egoals R2 = rs_egoals R.
  Proof.
    unfold R2, fblocked.
    destruct (fblock_sys_all (fun _ => true) eq_refl (fun _ _ => eq_refl) flags (rs_svars R1)
                (fblock_all (fblock_env flags) (rs_evars R1) R1)) as (_ & _ & _ & _ & _ & E1 & _).
    destruct (fblock_env_all (fun _ => true) eq_refl (fun _ _ => eq_refl) flags (rs_evars R1) R1)
      as (_ & _ & _ & _ & _ & E2 & _).
    cbv zeta in *. rewrite E1, E2. reflexivity.
  Qed.
  Lemma R2_sgoals : rs_sgoals R2 = rs_sgoals R1.
  Proof.
    unfold R2, fblocked.
    destruct (fblock_sys_all (fun _ => true) eq_refl (fun _ _ => eq_refl) flags (rs_svars R1)
                (fblock_all (fblock_env flags) (rs_evars R1) R1)) as (_ & _ & _ & _ & _ & _ & E1).
    destruct (fblock_env_all (fun _ => true) eq_refl (fun _ _ => eq_refl) flags (rs_evars R1) R1)
      as (_ & _ & _ & _ & _ & _ & E2).
    cbv zeta in *. rewrite E1, E2. reflexivity.
  Qed.
  Lemma F'_egoals : fs_egoals F' = map (expandS vs) (rs_egoals R).
  Proof. rewrite <- R2_egoals. reflexivity. Qed.
  Lemma F'_sgoals : fs_sgoals F' = map (expandS vs) (rs_sgoals R1).
  Proof. rewrite <- R2_sgoals. reflexivity. Qed.
  Lemma F'_has_goal : fs_sgoals F' <> [].
  Proof.
    rewrite F'_sgoals. unfold R1, fdefaults. cbn [rs_sgoals]. destruct (rs_sgoals R); discriminate.
  Qed.
  Lemma F'_scoped : well_scoped F'.
  Proof.
    destruct typedR2 as (H1 & H2 & H3). unfold well_scoped.
    rewrite F'_einit, F'_sinit, F'_etrans, F'_strans, names', enames'.
    split; [apply opt_scope; intros; apply H1; rewrite !in_app_iff; tauto|].
    split; [apply opt_scope; intros; apply H1; rewrite !in_app_iff; tauto|].
    split; [destruct (scope_and_all es (rs_etrans R2)) as (_ & A & B); auto; apply incl_es|].
    split; [destruct (scope_and_all vs (rs_strans R2)) as (_ & A & B); auto; apply incl_refl|].
    split.
    - intros f Hf. rewrite F'_egoals, <- R2_egoals in Hf. apply in_map_iff in Hf. destruct Hf as (g & <- & Hg).
      apply state_scope. apply H1. rewrite !in_app_iff; tauto.
    - intros f Hf. rewrite F'_sgoals, <- R2_sgoals in Hf. apply in_map_iff in Hf. destruct Hf as (g & <- & Hg).
      apply state_scope. apply H1. rewrite !in_app_iff; tauto.
  Qed.
  Lemma F'_boolean : all_boolean F'.
  Proof.
    destruct typedR2 as (H1 & H2 & H3). unfold all_boolean.
    rewrite F'_einit, F'_sinit, F'_etrans, F'_strans, vars'.
    split; [apply bit_doms; apply incl_refl|].
    split; [apply opt_scope; intros; apply H1; rewrite !in_app_iff; tauto|].
    split; [apply opt_scope; intros; apply H1; rewrite !in_app_iff; tauto|].
    split; [apply (scope_and_all es (rs_etrans R2)); auto; apply incl_es|].
    split; [apply (scope_and_all vs (rs_strans R2)); auto; apply incl_refl|].
    split.
    - intros f Hf. rewrite F'_egoals, <- R2_egoals in Hf. apply in_map_iff in Hf. destruct Hf as (g & <- & Hg).
      apply state_scope. apply H1. rewrite !in_app_iff; tauto.
    - intros f Hf. rewrite F'_sgoals, <- R2_sgoals in Hf. apply in_map_iff in Hf. destruct Hf as (g & <- & Hg).
      apply state_scope. apply H1. rewrite !in_app_iff; tauto.
  Qed.

  (** *** States *)
  Lemma in_doms_bits : forall ds t, (forall d, In d ds -> d = -1) ->
    (in_doms ds t <-> List.length t = List.length ds /\ Forall is_bit t).
  Proof.
    unfold in_doms. induction ds as [|d ds IH]; intros t H.
    - split; [inversion 1; split; auto; constructor|]. intros [Hl _]. destruct t; [constructor|discriminate].
    - assert (d = -1) by (apply H; left; auto). subst d.
      assert (IH' : forall t, Forall2 (fun d x => In x (dom d)) ds t <-> List.length t = List.length ds /\ Forall is_bit t)
        by (intros; apply IH; intros; apply H; right; auto).
      split.
      + inversion 1; subst. apply IH' in H5. destruct H5. split; [simpl; auto|]. constructor; auto.
        apply dom_bool in H3; [auto|lia].
      + intros [Hl Hb]. destruct t as [|b t]; [discriminate|]. inversion Hb; subst. constructor.
        * apply dom_bool; [lia|auto].
        * apply IH'. split; auto.
  Qed.
  Lemma bit_decls_len : forall ws, List.length (bit_decls (-1) ws) = total_bits ws.
  Proof.
    intros ws. rewrite <- bnames_len, <- (bit_decls_bnames (-1)). unfold names. rewrite map_length. reflexivity.
  Qed.
  Lemma vecs' : forall ws, incl ws vs -> forall t,
    In t (dvecs (doms (bit_decls (-1) ws))) <-> List.length t = total_bits ws /\ Forall is_bit t.
  Proof.
    intros ws Hi t. rewrite dvecs_In, in_doms_bits.
    - unfold doms. rewrite map_length, bit_decls_len. reflexivity.
    - intros d Hd. apply in_map_iff in Hd. destruct Hd as (v & <- & Hv). apply (bit_doms ws Hi v Hv).
  Qed.
  Lemma states' : forall t, In t (fs_states F') <-> List.length t = total_bits vs /\ Forall is_bit t.
  Proof. intros t. unfold fs_states. rewrite vars'. apply vecs'. apply incl_refl. Qed.
  Lemma envs' : forall t, In t (fs_envs F') <-> List.length t = total_bits es /\ Forall is_bit t.
  Proof. intros t. unfold fs_envs. apply (vecs' es). apply incl_es. Qed.
  Lemma enc_state : forall s, repr vs s -> In (enc vs s) (fs_states F').
  Proof. intros s H. apply states'. split; [apply enc_len, repr_len; auto|apply enc_bits; auto]. Qed.
  Lemma enc_env : forall e, repr es e -> In (enc es e) (fs_envs F').
  Proof. intros s H. apply envs'. split; [apply enc_len, repr_len; auto|apply enc_bits; auto]. Qed.
  Lemma dec_state : forall t, In t (fs_states F') -> enc vs (dec vs t) = t /\ repr vs (dec vs t).
  Proof. intros t H. apply states' in H. apply enc_dec; tauto. Qed.
  Lemma dec_env : forall t, In t (fs_envs F') -> enc es (dec es t) = t /\ repr es (dec es t).
  Proof. intros t H. apply envs' in H. apply enc_dec; tauto. Qed.
  Lemma state_repr : forall s, In s (fs_states F) -> repr vs s.
  Proof. intros s H. apply dvecs_In in H. apply in_doms_wide in H. exact H. Qed.
  Lemma env_repr : forall e, In e (fs_envs F) -> repr es e.
  Proof. intros s H. apply dvecs_In in H. apply in_doms_wide in H. exact H. Qed.
  Lemma state_rel : forall s, repr vs s -> rel vs (val F' (enc vs s)) (val F s) /\ inrepr vs (val F s).
  Proof.
    intros s H. unfold val. rewrite names'. split.
    - apply (enc_rel vs s); auto; [apply bnames_nodup|apply repr_len; auto].
    - apply (lookup_repr vs s); auto.
  Qed.
  Lemma env_rel : forall e, repr es e -> rel es (eval F' (enc es e)) (eval F e) /\ inrepr es (eval F e).
  Proof.
    intros s H. unfold eval. rewrite enames'. destruct es_nodup. split.
    - apply (enc_rel es s); auto. apply repr_len; auto.
    - apply (lookup_repr es s); auto.
  Qed.
  Lemma state_indom : forall s, repr vs s -> (indom vs (val F s) <-> In s (fs_states F)).
  Proof.
    intros s H. unfold fs_states. rewrite dvecs_In. apply (lookup_indoms vs s); auto. apply repr_len; auto.
  Qed.
  Lemma env_indom : forall e, repr es e -> (indom es (eval F e) <-> In e (fs_envs F)).
  Proof.
    intros s H. unfold fs_envs. rewrite dvecs_In. destruct es_nodup. apply (lookup_indoms es s); auto. apply repr_len; auto.
  Qed.
  Lemma indom_split : forall v, indom vs v <-> indom es v /\ indom ss v.
  Proof.
    intros v. unfold indom, vs, rs_vars. split.
    - intros H. split; intros x d Hin; apply H; apply in_or_app; auto.
    - intros [H1 H2] x d Hin. apply in_app_or in Hin. destruct Hin; auto.
  Qed.
  Lemma repr_firstn : forall s, repr vs s -> repr es (firstn (List.length es) s) /\
    enc es (firstn (List.length es) s) = firstn (total_bits es) (enc vs s).
  Proof.
    intros s H. pose proof (repr_len _ _ H) as Hl.
    assert (Hle : List.length (firstn (List.length es) s) = List.length es).
    { rewrite firstn_length, Hl. unfold vs, rs_vars. rewrite app_length. fold es. lia. }
    split.
    - unfold repr in *. rewrite <- (firstn_skipn (List.length es) s) in H.
      unfold vs, rs_vars, doms in H. rewrite map_app, map_app in H. apply in_doms_app in H; [apply H|].
      rewrite !map_length. auto.
    - rewrite <- (firstn_skipn (List.length es) s) at 2.
      change vs with (es ++ ss). rewrite enc_app by auto. symmetry. apply firstn_app_len.
      apply enc_len. auto.
  Qed.
  Lemma genv' : forall s, repr vs s -> g_env (game_of F') (enc vs s) = enc es (g_env (game_of F) s).
  Proof.
    intros s H. cbn [game_of g_env]. change (fs_evars F) with es.
    change (fs_evars F') with (bit_decls (-1) es). rewrite bit_decls_len.
    symmetry. apply repr_firstn; auto.
  Qed.
  Lemma genv_indom : forall s, repr vs s -> In (g_env (game_of F) s) (fs_envs F) -> indom es (val F s).
  Proof.
    intros s H He. pose proof (repr_len _ _ H) as Hl.
    assert (Hle : List.length (firstn (List.length es) s) = List.length es).
    { rewrite firstn_length, Hl. unfold vs, rs_vars. rewrite app_length. fold es. lia. }
    apply env_indom in He; [|apply repr_firstn; auto].
    intros x d Hin. specialize (He x d Hin).
    unfold val, eval in *. cbn [game_of g_env] in He. change (fs_evars F) with es in *.
    change (fs_vars F) with (es ++ ss). unfold names in *. rewrite map_app.
    rewrite <- (firstn_skipn (List.length es) s), lookup_app_l; auto.
    - rewrite map_length. auto.
    - apply (in_map fst) in Hin. auto.
  Qed.
  Lemma genv_in : forall s, In s (fs_states F) -> In (g_env (game_of F) s) (fs_envs F).
  Proof.
    intros s H. pose proof (state_repr s H) as Hr. apply env_indom; [apply repr_firstn; auto|].
    apply state_indom in H; auto. apply indom_split in H. destruct H as [H _].
    pose proof (repr_len _ _ Hr) as Hl.
    assert (Hle : List.length (firstn (List.length es) s) = List.length es).
    { rewrite firstn_length, Hl. unfold vs, rs_vars. rewrite app_length. fold es. lia. }
    intros x d Hin. specialize (H x d Hin).
    unfold val, eval in *. cbn [game_of g_env]. change (fs_evars F) with es in *.
    change (fs_vars F) with (es ++ ss) in H. unfold names in *. rewrite map_app in H.
    rewrite <- (firstn_skipn (List.length es) s), lookup_app_l in H; auto.
    - rewrite map_length. auto.
    - apply (in_map fst) in Hin. auto.
  Qed.

  (** *** Moves *)
  Section Tr.
    Variables c n : string -> Z.
    Let T f := sem c n (expandS vs f).
    Lemma T_true : T FTrue = true.
    Proof. unfold T. rewrite expandS_true. reflexivity. Qed.
    Lemma T_and : forall f g, T (FAnd f g) = T f && T g.
    Proof. intros. unfold T. rewrite expandS_and. reflexivity. Qed.
    Lemma defaults_T : forall l, forallb T (match l with [] => [FTrue] | f0 :: l0 => f0 :: l0 end) = forallb T l.
    Proof. intros [|f l]; auto. cbn [forallb]. rewrite T_true. reflexivity. Qed.
    Lemma forallb_mem : forall l a b, (forall f : form, In f l <-> In f a \/ In f b) ->
      forallb T l = forallb T a && forallb T b.
    Proof.
      intros l a b H. apply eq_true_iff_eq. rewrite andb_true_iff, !forallb_forall. split.
      - intros Hl. split; intros f Hf; apply Hl; apply H; auto.
      - intros [Ha Hb] f Hf. apply H in Hf. destruct Hf; auto.
    Qed.
    Lemma etrans_T : sem c n (fs_etrans F') =
      forallb T (rs_etrans R) && (forallb T (blockers es false) && forallb T (blockers es true)).
    Proof.
      rewrite F'_etrans, and_all_sem.
      assert (Em : forall l, forallb (sem c n) (map (expandS vs) l) = forallb T l).
      { induction l as [|f l IH]; auto. cbn [map forallb]. rewrite IH. reflexivity. }
      rewrite Em. unfold R2, fblocked.
      destruct (fblock_sys_all T T_true T_and flags (rs_svars R1)
                (fblock_all (fblock_env flags) (rs_evars R1) R1)) as (_ & _ & _ & _ & E1 & _).
      destruct (fblock_env_all T T_true T_and flags (rs_evars R1) R1) as (_ & _ & _ & E2 & _).
      cbv zeta in *. rewrite E1. rewrite (forallb_mem _ _ _ E2), forallb_app.
      unfold R1 at 1, fdefaults. cbn [rs_etrans]. rewrite defaults_T. reflexivity.
    Qed.
    Lemma strans_T : sem c n (fs_strans F') =
      forallb T (rs_strans R) && (forallb T (blockers ss false) && forallb T (blockers ss true)).
    Proof.
      rewrite F'_strans, and_all_sem.
      assert (Em : forall l, forallb (sem c n) (map (expandS vs) l) = forallb T l).
      { induction l as [|f l IH]; auto. cbn [map forallb]. rewrite IH. reflexivity. }
      rewrite Em. unfold R2, fblocked.
      destruct (fblock_sys_all T T_true T_and flags (rs_svars R1)
                (fblock_all (fblock_env flags) (rs_evars R1) R1)) as (_ & _ & _ & E1 & _).
      destruct (fblock_env_all T T_true T_and flags (rs_evars R1) R1) as (_ & _ & _ & _ & E2 & _).
      cbv zeta in *. rewrite (forallb_mem _ _ _ E1), forallb_app, E2.
      unfold R1 at 1, fdefaults. cbn [rs_strans]. rewrite defaults_T. reflexivity.
    Qed.
    Definition OT (o : option form) : bool := match o with None => true | Some f => T f end.
    Lemma init_T :
      let os := is_one_side flags && given (rs_sinit R) in
      let oe := is_one_side flags && negb (given (rs_sinit R)) in
      OT (rs_einit R2) = OT (rs_einit R) && (if os then true else forallb T (blockers es false)) &&
                         (if oe then forallb T (blockers ss false) else true) /\
      OT (rs_sinit R2) = OT (rs_sinit R) && (if os then forallb T (blockers es false) else true) &&
                         (if oe then true else forallb T (blockers ss false)) /\
      (is_one_side flags = true -> given (rs_sinit R2) = given (rs_sinit R)).
    Proof.
      intros os oe. unfold R2, fblocked.
      destruct (fblock_sys_all T T_true T_and flags (rs_svars R1)
                (fblock_all (fblock_env flags) (rs_evars R1) R1)) as (E1 & E2 & E3 & _).
      destruct (fblock_env_all T T_true T_and flags (rs_evars R1) R1) as (G1 & G2 & G3 & _).
      cbv zeta in *. rewrite G1 in E1, E2, E3. rewrite G2 in E2. rewrite G3 in E3.
      split; [exact E2|]. split; [exact E3|]. exact E1.
    Qed.
  End Tr.

  Lemma forallb_ext_in : forall A (p q : A -> bool) l, (forall a, In a l -> p a = q a) -> forallb p l = forallb q l.
  Proof.
    induction l as [|a l IH]; intros H; auto. cbn [forallb]. rewrite (H a) by (left; auto).
    rewrite IH by (intros; apply H; right; auto). reflexivity.
  Qed.
  Lemma etr_ok : forall s e, In s (fs_states F) -> repr es e ->
    (g_etr (game_of F') (enc vs s) (enc es e) = true <-> In e (fs_envs F) /\ g_etr (game_of F) s e = true).
  Proof.
    intros s e Hs He. cbn [game_of g_etr]. rewrite etrans_T.
    destruct (state_rel s (state_repr s Hs)) as [Rs Ss]. destruct (env_rel e He) as [Re Se].
    pose proof (proj2 (state_indom s (state_repr s Hs)) Hs) as Ds.
    rewrite !andb_true_iff.
    rewrite (blockers_ok _ _ _ _ es incl_es Rs Re true es (incl_refl _) Se).
    rewrite (blockers_ok _ _ _ _ es incl_es Rs Re false es incl_es) by (intros x d Hin; apply Ss; apply incl_es; auto).
    rewrite env_indom by auto. apply indom_split in Ds as Ds'.
    cbn [fs_etrans F fspec_of]. change (fs_etrans F) with (conj (rs_etrans R)). rewrite conj_sem.
    destruct typedR0 as (_ & Ty & _).
    assert (Hf : In e (fs_envs F) ->
      forallb (fun f => sem (val F' (enc vs s)) (eval F' (enc es e)) (expandS vs f)) (rs_etrans R) =
      forallb (sem (val F s) (eval F e)) (rs_etrans R)).
    { intros Hin. apply env_indom in Hin; auto. apply forallb_ext_in. intros f Hf. destruct (Ty f Hf).
      apply (form_ok _ _ _ _ es incl_es); auto. }
    split.
    - intros (H1 & _ & H3). split; auto. rewrite <- Hf; auto.
    - intros [H1 H2]. rewrite Hf; auto. repeat split; auto. apply Ds'.
  Qed.
  Lemma str_ok : forall s s', In s (fs_states F) -> repr vs s' -> In (g_env (game_of F) s') (fs_envs F) ->
    (g_str (game_of F') (enc vs s) (enc vs s') = true <-> In s' (fs_states F) /\ g_str (game_of F) s s' = true).
  Proof.
    intros s s' Hs He Hg. cbn [game_of g_str]. rewrite strans_T.
    destruct (state_rel s (state_repr s Hs)) as [Rs Ss]. destruct (state_rel s' He) as [Re Se].
    pose proof (proj2 (state_indom s (state_repr s Hs)) Hs) as Ds.
    pose proof (genv_indom s' He Hg) as De.
    rewrite !andb_true_iff.
    rewrite (blockers_ok _ _ _ _ vs (incl_refl _) Rs Re true ss incl_ss) by (intros x d Hin; apply Se; apply incl_ss; auto).
    rewrite (blockers_ok _ _ _ _ vs (incl_refl _) Rs Re false ss incl_ss) by (intros x d Hin; apply Ss; apply incl_ss; auto).
    rewrite <- (state_indom s' He). apply indom_split in Ds as Ds'. rewrite (indom_split (val F s')).
    change (fs_strans F) with (conj (rs_strans R)). rewrite conj_sem.
    destruct typedR0 as (_ & _ & Ty).
    assert (Hf : indom vs (val F s') ->
      forallb (fun f => sem (val F' (enc vs s)) (val F' (enc vs s')) (expandS vs f)) (rs_strans R) =
      forallb (sem (val F s) (val F s')) (rs_strans R)).
    { intros Hin. apply forallb_ext_in. intros f Hf. destruct (Ty f Hf).
      apply (form_ok _ _ _ _ vs (incl_refl _)); auto. }
    rewrite indom_split in Hf. split.
    - intros (H1 & _ & H3). split; auto. rewrite <- Hf; auto.
    - intros [H1 H2]. rewrite Hf; auto. repeat split; auto; [apply Ds'|apply H1].
  Qed.
  Lemma goal_ok : forall s f, In s (fs_states F) -> typed [] f ->
    holds F' (expandS vs f) (enc vs s) = holds F f s.
  Proof.
    intros s f Hs [U1 U2]. unfold holds. destruct (state_rel s (state_repr s Hs)) as [Rs Ss].
    assert (Rn : rel [] (fun _ : string => 0) (fun _ => 0)) by (intros x d []).
    assert (Hi : incl ([] : list vdecl) vs) by (intros x []).
    apply (form_ok _ _ _ _ [] Hi Rs Rn f U1 U2); [|intros x d []].
    apply state_indom; auto. apply state_repr; auto.
  Qed.
  Lemma io_ok : forall f p, typed [] f -> (forall t, In (p t) (fs_states F)) ->
    (infinitely_often (holds F' (expandS vs f)) (fun t => enc vs (p t)) <-> infinitely_often (holds F f) p).
  Proof.
    intros f p Hf Hp. unfold infinitely_often.
    split; intros H t; destruct (H t) as (t' & H1 & H2); exists t'; split; auto;
      [rewrite <- goal_ok|rewrite goal_ok]; auto.
  Qed.
  Lemma gr1_ok : forall p, (forall t, In (p t) (fs_states F)) ->
    (gr1 (game_of F) p <-> gr1 (game_of F') (fun t => enc vs (p t))).
  Proof.
    intros p Hp. unfold gr1. cbn [game_of g_egoals g_sgoals].
    destruct typedR0 as (Ty & _).
    assert (He : (forall g, In g (map (holds F) (fs_egoals F)) -> infinitely_often g p) <->
                 (forall g, In g (map (holds F') (fs_egoals F')) -> infinitely_often g (fun t => enc vs (p t)))).
    { rewrite F'_egoals. change (fs_egoals F) with (rs_egoals R). split; intros H g Hg.
      - apply in_map_iff in Hg. destruct Hg as (f' & <- & Hf). apply in_map_iff in Hf. destruct Hf as (f & <- & Hf).
        apply io_ok; auto; [apply Ty; rewrite !in_app_iff; tauto|]. apply H. apply in_map; auto.
      - apply in_map_iff in Hg. destruct Hg as (f & <- & Hf).
        apply io_ok; auto; [apply Ty; rewrite !in_app_iff; tauto|]. apply H. apply in_map, in_map; auto. }
    assert (Hs : (forall g, In g (map (holds F) (fs_sgoals F)) -> infinitely_often g p) <->
                 (forall g, In g (map (holds F') (fs_sgoals F')) -> infinitely_often g (fun t => enc vs (p t)))).
    { rewrite F'_sgoals. change (fs_sgoals F) with (rs_sgoals R). unfold R1, fdefaults. cbn [rs_sgoals].
      destruct (rs_sgoals R) as [|f0 l] eqn:El.
      - split; intros H g Hg; [|destruct Hg]. destruct Hg as [<-|[]]. intros t. exists t. split; auto.
        unfold holds. rewrite expandS_true. reflexivity.
      - rewrite <- El in *. split; intros H g Hg.
        + apply in_map_iff in Hg. destruct Hg as (f' & <- & Hf). apply in_map_iff in Hf. destruct Hf as (f & <- & Hf).
          apply io_ok; auto; [apply Ty; rewrite !in_app_iff; tauto|]. apply H. apply in_map; auto.
        + apply in_map_iff in Hg. destruct Hg as (f & <- & Hf).
          apply io_ok; auto; [apply Ty; rewrite !in_app_iff; tauto|]. apply H. apply in_map, in_map; auto. }
    tauto.
  Qed.
  Lemma env_ok : forall s, In s (fs_states F) -> forall e2,
    legal_env (game_of F') (enc vs s) e2 <-> exists e, e2 = enc es e /\ legal_env (game_of F) s e.
  Proof.
    intros s Hs e2. split.
    - intros [H1 H2]. cbn [game_of g_envs] in H1. destruct (dec_env e2 H1) as [Ed Hr].
      exists (dec es e2). split; auto. rewrite <- Ed in H2. apply etr_ok in H2; auto.
    - intros (e & -> & H1 & H2). cbn [game_of g_envs] in H1.
      split; [apply enc_env, env_repr; auto|]. apply etr_ok; auto. apply env_repr; auto.
  Qed.
  Lemma sys_ok : forall s, In s (fs_states F) -> forall e, legal_env (game_of F) s e -> forall s2,
    legal_sys (game_of F') (enc vs s) (enc es e) s2 <-> exists s', s2 = enc vs s' /\ legal_sys (game_of F) s e s'.
  Proof.
    intros s Hs e [He _] s2. cbn [game_of g_envs] in He. split.
    - intros (H1 & H2 & H3). cbn [game_of g_states] in H1. destruct (dec_state s2 H1) as [Ed Hr].
      exists (dec vs s2). split; auto. rewrite <- Ed in H2, H3. rewrite genv' in H2 by auto.
      assert (Ee : g_env (game_of F) (dec vs s2) = e).
      { rewrite <- (dec_enc es e) by (apply env_repr; auto). rewrite <- H2. symmetry. apply dec_enc.
        apply repr_firstn; auto. }
      apply str_ok in H3; auto; [|rewrite Ee; auto]. destruct H3. split; auto.
    - intros (s' & -> & H1 & H2 & H3). cbn [game_of g_states] in H1. pose proof (state_repr s' H1) as Hr.
      split; [apply enc_state; auto|]. rewrite genv' by auto. split; [congruence|].
      apply str_ok; auto. rewrite H2. auto.
  Qed.
  Lemma wins_ok : forall s, In s (fs_states F) -> (sys_wins (game_of F) s <-> sys_wins (game_of F') (enc vs s)).
  Proof.
    apply (iso_wins (game_of F) (game_of F') (enc vs) (dec vs) (enc es) (dec es)).
    - intros s Hs. apply dec_enc, state_repr; auto.
    - intros e He. apply dec_enc, env_repr; auto.
    - exact env_ok.
    - exact sys_ok.
    - exact gr1_ok.
  Qed.

  (** *** Initial states *)
  Lemma opt_ok : forall o s, In s (fs_states F) -> (forall f, In f (opt_list o) -> typed [] f) ->
    OT (val F' (enc vs s)) (fun _ => 0) o = holds_opt F o s.
  Proof. intros [f|] s Hs H; auto. cbn [OT holds_opt]. apply (goal_ok s f Hs). apply H. left; auto. Qed.
  Lemma init_blockers : forall s, repr vs s ->
    let T := fun f => sem (val F' (enc vs s)) (fun _ => 0) (expandS vs f) in
    (forallb T (blockers es false) = true <-> indom es (val F s)) /\
    (forallb T (blockers ss false) = true <-> indom ss (val F s)).
  Proof.
    intros s Hr T. destruct (state_rel s Hr) as [Rs Ss].
    assert (Rn : rel [] (fun _ : string => 0) (fun _ => 0)) by (intros x d []).
    assert (Hi : incl ([] : list vdecl) vs) by (intros x []).
    split.
    - apply (blockers_ok _ _ _ _ [] Hi Rs Rn false es incl_es). intros x d Hin; apply Ss, incl_es; auto.
    - apply (blockers_ok _ _ _ _ [] Hi Rs Rn false ss incl_ss). intros x d Hin; apply Ss, incl_ss; auto.
  Qed.
  Lemma typed_inits : (forall f, In f (opt_list (rs_einit R)) -> typed [] f) /\
                      (forall f, In f (opt_list (rs_sinit R)) -> typed [] f).
  Proof. destruct typedR0 as (Ty & _). split; intros; apply Ty; rewrite !in_app_iff; tauto. Qed.
  Lemma opt_holds' : forall o t, holds_opt F' (option_map (expandS vs) o) t = OT (val F' t) (fun _ => 0) o.
  Proof. intros [f|] t; reflexivity. Qed.
  (** both conditions together *)
  Lemma initial_ok : flags <> ONE_SIDE_INIT -> forall t,
    initial F' t <-> exists s, t = enc vs s /\ initial F s.
  Proof.
    intros Hfl. assert (Hos : is_one_side flags = false) by (destruct flags; auto; congruence).
    destruct typed_inits as [T1 T2]. unfold initial. rewrite F'_einit, F'_sinit.
    intros t. destruct (init_T (val F' t) (fun _ => 0)) as (E1 & E2 & _).
    cbv zeta in E1, E2. rewrite Hos in E1, E2. cbn [andb] in E1, E2.
    rewrite !opt_holds', E1, E2, !andb_true_iff. clear E1 E2. split.
    - intros (H1 & [[H2 H3] _] & [[H4 _] H5]). destruct (dec_state t H1) as [Ed Hr].
      exists (dec vs t). split; auto. rewrite <- Ed in H2, H3, H4, H5.
      destruct (init_blockers (dec vs t) Hr) as [B1 B2]. apply B1 in H3. apply B2 in H5.
      assert (Hin : In (dec vs t) (fs_states F)).
      { apply state_indom; auto. apply indom_split. auto. }
      split; auto. rewrite opt_ok in H2, H4 by auto. auto.
    - intros (s & -> & H1 & H2 & H3). pose proof (state_repr s H1) as Hr.
      destruct (init_blockers s Hr) as [B1 B2]. pose proof (proj2 (state_indom s Hr) H1) as D.
      apply indom_split in D. destruct D as [D1 D2].
      rewrite !opt_ok by auto. split; [apply enc_state; auto|].
      repeat split; auto; [apply B1|apply B2]; auto.
  Qed.
  Lemma one_side_ok : flags = ONE_SIDE_INIT -> 
    (match rs_sinit R with
     | None => fs_sinit F' = None /\ forall t,
         In t (fs_states F') /\ holds_opt F' (fs_einit F') t = true <->
         exists s, t = enc vs s /\ In s (fs_states F) /\ holds_opt F (rs_einit R) s = true
     | Some f => exists f', fs_sinit F' = Some f' /\ forall t,
         In t (fs_states F') /\ holds F' f' t = true <->
         exists s, t = enc vs s /\ In s (fs_states F) /\ holds F f s = true
     end).
  Proof.
    intros Hfl. assert (Hos : is_one_side flags = true) by (rewrite Hfl; auto).
    destruct typed_inits as [T1 T2]. rewrite F'_einit, F'_sinit.
    assert (E : forall t, 
      let T f := sem (val F' t) (fun _ => 0) (expandS vs f) in
      let os := given (rs_sinit R) in
      OT (val F' t) (fun _ => 0) (rs_einit R2) = OT (val F' t) (fun _ => 0) (rs_einit R) && (if os then true else forallb T (blockers es false)) &&
                         (if os then true else forallb T (blockers ss false)) /\
      OT (val F' t) (fun _ => 0) (rs_sinit R2) = OT (val F' t) (fun _ => 0) (rs_sinit R) && (if os then forallb T (blockers es false) else true) &&
                         (if os then forallb T (blockers ss false) else true) /\
      given (rs_sinit R2) = os).
    { intros t T os. destruct (init_T (val F' t) (fun _ => 0)) as (E1 & E2 & E3).
      cbv zeta in E1, E2. rewrite Hos in E1, E2. cbn [andb] in E1, E2. specialize (E3 Hos).
      fold os in E1, E2, E3. unfold T. rewrite E1, E2. destruct os; auto. }
    destruct (rs_sinit R) as [f|] eqn:Es; cbn [given] in E.
    - destruct (rs_sinit R2) as [f2|] eqn:E2; [|destruct (E []) as (_ & _ & Hc); discriminate Hc].
      exists (expandS vs f2). split; auto. intros t. destruct (E t) as (_ & H & _). cbv zeta in H.
      change (holds F' (expandS vs f2) t) with (OT (val F' t) (fun _ => 0) (Some f2)). rewrite H, !andb_true_iff. clear H.
      split.
      + intros (H1 & [H2 H3] & H4). destruct (dec_state t H1) as [Ed Hr].
        exists (dec vs t). split; auto. rewrite <- Ed in H2, H3, H4.
        destruct (init_blockers (dec vs t) Hr) as [B1 B2]. apply B1 in H3. apply B2 in H4.
        assert (Hin : In (dec vs t) (fs_states F)).
        { apply state_indom; auto. apply indom_split. auto. }
        split; auto. rewrite opt_ok in H2 by auto. auto.
      + intros (s & -> & H1 & H2). pose proof (state_repr s H1) as Hr.
        destruct (init_blockers s Hr) as [B1 B2]. pose proof (proj2 (state_indom s Hr) H1) as D.
        apply indom_split in D. destruct D as [D1 D2].
        split; [apply enc_state; auto|]. rewrite opt_ok by auto.
        repeat split; auto; [apply B1|apply B2]; auto.
    - destruct (rs_sinit R2) as [f2|] eqn:E2; [destruct (E []) as (_ & _ & Hc); discriminate Hc|].
      split; auto. intros t. destruct (E t) as (H & _ & _). cbv zeta in H.
      rewrite opt_holds', H, !andb_true_iff. clear H.
      split.
      + intros (H1 & [H2 H3] & H4). destruct (dec_state t H1) as [Ed Hr].
        exists (dec vs t). split; auto. rewrite <- Ed in H2, H3, H4.
        destruct (init_blockers (dec vs t) Hr) as [B1 B2]. apply B1 in H3. apply B2 in H4.
        assert (Hin : In (dec vs t) (fs_states F)).
        { apply state_indom; auto. apply indom_split. auto. }
        split; auto. rewrite opt_ok in H2 by auto. auto.
      + intros (s & -> & H1 & H2). pose proof (state_repr s H1) as Hr.
        destruct (init_blockers s Hr) as [B1 B2]. pose proof (proj2 (state_indom s Hr) H1) as D.
        apply indom_split in D. destruct D as [D1 D2].
        split; [apply enc_state; auto|]. rewrite opt_ok by auto.
        repeat split; auto; [apply B1|apply B2]; auto.
  Qed.

  (** *** Preparation succeeds *)
  Lemma no_bad : forall x d, In (x, d) (rs_vars R) -> 0 <= d -> forall f, In f (all_forms R) -> bad_ne x d f = false.
  Proof.
    intros x d Hin Hd f Hf. rewrite bad_ne_eq. destruct (Z.eqb_spec d 0) as [->|]; [|apply andb_false_r].
    rewrite andb_true_r. destruct HT as (_ & _ & _ & _ & _ & _ & [H1 H2] & H3).
    unfold all_forms in Hf. rewrite !in_app_iff in Hf.
    assert (Hno : no_ne0 R f); [|apply Hno; auto].
    destruct Hf as [Hf|[Hf|Hf]].
    - destruct (rs_sinit R); [destruct Hf as [<-|[]]|destruct Hf]. exact H2.
    - destruct (rs_einit R); [destruct Hf as [<-|[]]|destruct Hf]. exact H1.
    - apply H3. rewrite !in_app_iff. auto.
  Qed.
  Lemma prepared : exists N, forall fuel, (N <= fuel)%nat -> exists sp nb,
    prepare fuel flags (raw_of R) = Ok (Some (sp, nb)) /\
    (forall g fl, check_realizable sp g fl = check_realizable (spec_of F') g fl).
  Proof.
    destruct (prepare_ok flags R no_bad) as [N HN']. exists N. intros fuel Hf.
    eexists. eexists. split; [apply HN'; auto|].
    intros g fl. apply same_check. apply solver_spec_same.
  Qed.
  Lemma prepared_total : exists N, forall fuel, (N <= fuel)%nat ->
    exists r, check_realizable (spec_of F') fuel flags = Ok r.
  Proof. exact (real_total F' F'_scoped F'_boolean F'_has_goal flags). Qed.
End Pipe.
