(** The invariant of the main loop of synthesize. The properties of the BDD
    operations proved in SynthBdd.v enter as hypotheses on abstract relations. *)
From Coq Require Import List ZArith Lia Bool Arith.
From Verif Require Import Base Fix Bdd Support Ops Automaton AutProofs AutProofs2 Synth SynthBdd.
Import ListNotations.
Open Scope nat_scope.

Lemma Forall2_snoc : forall {A B} (R : A -> B -> Prop) l l' x y,
  Forall2 R l l' -> R x y -> Forall2 R (l ++ [x]) (l' ++ [y]).
Proof. intros. apply Forall2_app; auto. Qed.
Lemma Forall2_impl2 : forall {A B} (R R' : A -> B -> Prop) l l',
  (forall x y, In x l -> In y l' -> R x y -> R' x y) -> Forall2 R l l' -> Forall2 R' l l'.
Proof.
  intros A B R R' l l' H H2. induction H2; constructor.
  - apply H; auto; left; auto.
  - apply IHForall2. intros. apply H; auto; right; auto.
Qed.

Section Inv.
  Variables (ne ns : nat) (orc : oracle) (alloc : nat -> aut -> nat).
  Let n := ne + ns.
  Hypothesis Halloc : forall t A, ~ In (alloc t A) (ids A).
  Variables (stW et : dt) (L : list levels_t).
  Let k := length L.
  Variable g0 : nat -> vec -> bool.
  Variable bump : vec -> nat -> nat -> Prop.
  Variable fin : nat -> vec -> nat -> Prop.
  Variable pick : vec -> nat -> nat -> vec -> vec -> Prop.
  Variable mvs : vec -> list vec -> Prop.
  Hypothesis Hbr : forall s i, bump s i i.
  Hypothesis Hbt : forall s a b c, bump s a b -> bump s b c -> bump s a c.
  Hypothesis Hsearch : forall fuel lm s md j, lm < k -> bitvec n s ->
    mode_search ne ns fuel L lm lm s = Ok (md, j) -> bump s lm md /\ md < k /\ fin md s j.
  Hypothesis Hchoose : forall i s j e t c t', i < k -> bitvec n s -> bitvec ne e -> fin i s j ->
    choose ne ns orc stW t (nth i L ([], [])) j s e = Ok (Some c, t') ->
    pick s i j e (next_state ne ns c e) /\ bitvec n (next_state ne ns c e).
  Hypothesis Heval : forall i s f, i < k -> bitvec n s ->
    nth_error (fst (nth i L ([], []))) 0 = Some f -> eval_at ne ns f s = g0 i s.
  Hypothesis Hmoves : 0 < ne -> forall fuel t s mv, bitvec n s ->
    get_env_moves fuel (orc t) (cube0 ne ns) s et ne ns = Ok mv -> mvs s mv.
  Hypothesis Hmoves0 : ne = 0 -> forall s, bitvec n s -> mvs s [[]].
  Hypothesis Hmvs : forall s mv, mvs s mv -> Forall (bitvec ne) mv.

  Definition nextmode (i : nat) (s' : vec) : nat := if g0 i s' then nx k i else i.
  Definition step_ok (s : vec) (i : nat) (e s' : vec) (i' : nat) : Prop :=
    exists j, fin i s j /\ pick s i j e s' /\ bump s' (nextmode i s') i'.
  Definition part (A : aut) (x : anode) (mv : list vec) : Prop :=
    exists i j, amode x = Z.of_nat i /\ argrad x = Z.of_nat j /\ fin i (astate x) j /\
      Forall2 (fun e t => exists y i', In y A /\ aid y = t /\ amode y = Z.of_nat i' /\
                 step_ok (astate x) i e (astate y) i') mv (atrans x).
  Definition settled (A : aut) (x : anode) : Prop :=
    exists mv, mvs (astate x) mv /\ part A x mv.
  Definition pending (stk : list (vec * nat)) (x : anode) : Prop :=
    atrans x = [] /\ exists i, amode x = Z.of_nat i /\ In (astate x, i) stk.

  Variable ss : list vec.
  Record base (A : aut) (stk : list (vec * nat)) : Prop := {
    b_ids : NoDup (ids A);
    b_wf : forall x, In x A -> bitvec n (astate x) /\ exists i, i < k /\ amode x = Z.of_nat i;
    b_key : forall x y, In x A -> In y A -> astate x = astate y -> amode x = amode y -> x = y;
    b_nd : NoDup stk;
    b_stk : forall s i, In (s, i) stk -> i < k /\
      exists x, In x A /\ astate x = s /\ amode x = Z.of_nat i;
    b_init : forall x, In x A -> ainit x = true -> In (astate x) ss;
    b_cover : forall s, In s ss -> exists x i, In x A /\ astate x = s /\ amode x = Z.of_nat i /\
      bump s 0 i
  }.
  (** all nodes but [a] are settled or pending *)
  Definition others (A : aut) (stk : list (vec * nat)) (a : nat) : Prop :=
    forall x, In x A -> aid x <> a -> settled A x \/ pending stk x.
  Definition inv (A : aut) (stk : list (vec * nat)) : Prop :=
    base A stk /\ forall x, In x A -> settled A x \/ pending stk x.
  (** node [a], with state [s] and mode [md], has been treated for the moves [mv] *)
  Definition invp (A : aut) (stk : list (vec * nat)) (a : nat) (s : vec) (md : nat)
      (mv : list vec) : Prop :=
    base A stk /\ others A stk a /\
    exists x, In x A /\ aid x = a /\ astate x = s /\ amode x = Z.of_nat md /\ part A x mv.

  (** *** transport along changes of the automaton *)
  Definition extr (rho : nat -> nat) (A A' : aut) : Prop :=
    forall y i, In y A -> amode y = Z.of_nat i -> exists y' i', In y' A' /\ aid y' = rho (aid y) /\
      astate y' = astate y /\ amode y' = Z.of_nat i' /\ bump (astate y) i i'.
  Lemma part_ext : forall rho A A' x x' mv, extr rho A A' ->
    astate x' = astate x -> amode x' = amode x -> argrad x' = argrad x ->
    atrans x' = map rho (atrans x) -> part A x mv -> part A' x' mv.
  Proof.
    intros rho A A' x x' mv Hext Hs Hm Hr Ht (i & j & Hi & Hj & Hf & Hall).
    exists i, j. rewrite Hs, Hm, Hr, Ht. split; auto. split; auto. split; auto.
    clear - Hall Hext Hbt. induction Hall as [|e t mv' tr H Hall IH]; simpl; constructor; auto.
    destruct H as (y & i' & Hy & Hid & Hmy & (j1 & Hf1 & Hp & Hb)).
    destruct (Hext y i' Hy Hmy) as (y' & i2 & Hy' & Hid' & Hs' & Hm' & Hb').
    exists y', i2. split; auto. split; [congruence|]. split; auto.
    exists j1. rewrite Hs'. split; auto. split; auto. eapply Hbt; eauto.
  Qed.
  Lemma extr_id : forall (A A' : aut), (forall y, In y A -> exists y', In y' A' /\ aid y' = aid y /\
      astate y' = astate y /\ amode y' = amode y) -> extr (fun t => t) A A'.
  Proof.
    intros A A' H y i Hy Hm. destruct (H y Hy) as (y' & H1 & H2 & H3 & H4).
    exists y', i. split; auto. split; auto. split; auto. split; [congruence|]. apply Hbr.
  Qed.
  Lemma part_id : forall A A' x x' mv, extr (fun t => t) A A' ->
    astate x' = astate x -> amode x' = amode x -> argrad x' = argrad x ->
    atrans x' = atrans x -> part A x mv -> part A' x' mv.
  Proof.
    intros A A' x x' mv He H1 H2 H3 H4 Hp. apply (part_ext (fun t => t) A A' x); auto.
    rewrite map_id. auto.
  Qed.
  Lemma settled_id : forall A A' x, extr (fun t => t) A A' -> settled A x -> settled A' x.
  Proof.
    intros A A' x He (mv & Hm & Hp). exists mv. split; auto. apply (part_id A A' x); auto.
  Qed.

  (** *** finding nodes *)
  Lemma find_some_iff : forall A stk s i x, base A stk -> bitvec n s ->
    (find_anode A (Z.of_nat i) s = Some x <-> In x A /\ astate x = s /\ amode x = Z.of_nat i).
  Proof.
    intros A stk s i x HB Hs.
    assert (Hu : uniform n A) by (intros y Hy; apply (b_wf _ _ HB y Hy)).
    rewrite find_anode_find. split.
    - intros H. apply find_some in H. destruct H as (Hin & Hm).
      apply (matches_iff n A) in Hm; auto; [|apply Hs]. tauto.
    - intros (Hin & H1 & H2). destruct (find (matches (Z.of_nat i) s) A) as [y|] eqn:E.
      + apply find_some in E. destruct E as (Hin' & Hm).
        apply (matches_iff n A) in Hm; auto; [|apply Hs]. f_equal.
        apply (b_key _ _ HB); auto; destruct Hm; congruence.
      + apply find_none with (x := x) in E; auto.
        assert (matches (Z.of_nat i) s x = true); [|congruence].
        apply (matches_iff n A); auto. apply Hs.
  Qed.
  Lemma find_none_iff : forall A stk s i, base A stk -> bitvec n s ->
    find_anode A (Z.of_nat i) s = None ->
    forall x, In x A -> astate x = s -> amode x = Z.of_nat i -> False.
  Proof.
    intros A stk s i HB Hs H x Hx H1 H2.
    assert (find_anode A (Z.of_nat i) s = Some x) by (apply (find_some_iff A stk); auto).
    congruence.
  Qed.

  (** *** one environment move *)
  Lemma store_In : forall A a f y, In y (store A a f) <->
    exists x, In x A /\ y = (if aid x =? a then f x else x).
  Proof. intros. unfold store. rewrite in_map_iff. split; intros (x & H1 & H2); eauto. Qed.
  Lemma store_base : forall A stk a f, base A stk ->
    (forall x, aid (f x) = aid x) -> (forall x, astate (f x) = astate x) ->
    (forall x, amode (f x) = amode x) -> (forall x, ainit (f x) = ainit x) ->
    base (store A a f) stk.
  Proof.
    intros A stk a f HB Hid Hst Hmo Hin.
    assert (Hg : forall x, let y := if aid x =? a then f x else x in
      aid y = aid x /\ astate y = astate x /\ amode y = amode x /\ ainit y = ainit x).
    { intros x. simpl. destruct (aid x =? a); auto. }
    constructor.
    - unfold store. rewrite ids_map; [apply (b_ids _ _ HB)|]. intros x. apply Hg.
    - intros y Hy. apply store_In in Hy. destruct Hy as (x & Hx & ->).
      destruct (Hg x) as (H1 & H2 & H3 & H4). rewrite H2, H3. apply (b_wf _ _ HB); auto.
    - intros y1 y2 Hy1 Hy2 Hs Hm. apply store_In in Hy1. apply store_In in Hy2.
      destruct Hy1 as (x1 & Hx1 & ->). destruct Hy2 as (x2 & Hx2 & ->).
      destruct (Hg x1) as (H1 & H2 & H3 & H4). destruct (Hg x2) as (H5 & H6 & H7 & H8).
      assert (x1 = x2) by (apply (b_key _ _ HB); auto; congruence). subst. auto.
    - apply (b_nd _ _ HB).
    - intros s i Hi. destruct (b_stk _ _ HB s i Hi) as (Hk & x & Hx & H1 & H2). split; auto.
      destruct (Hg x) as (H3 & H4 & H5 & H6).
      exists (if aid x =? a then f x else x). split; [apply store_In; eauto|]. split; congruence.
    - intros y Hy Hi. apply store_In in Hy. destruct Hy as (x & Hx & ->).
      destruct (Hg x) as (H1 & H2 & H3 & H4). rewrite H2. apply (b_init _ _ HB); auto. congruence.
    - intros s Hs. destruct (b_cover _ _ HB s Hs) as (x & i & Hx & H1 & H2 & H3).
      destruct (Hg x) as (H4 & H5 & H6 & H7).
      exists (if aid x =? a then f x else x), i. split; [apply store_In; eauto|].
      split; [congruence|]. split; [congruence|auto].
  Qed.
  Lemma store_extr : forall A a f,
    (forall x, aid (f x) = aid x) -> (forall x, astate (f x) = astate x) ->
    (forall x, amode (f x) = amode x) -> extr (fun t => t) A (store A a f).
  Proof.
    intros A a f H1 H2 H3. apply extr_id. intros y Hy.
    exists (if aid y =? a then f y else y). split; [apply store_In; eauto|].
    destruct (aid y =? a); auto.
  Qed.
  Lemma store_others : forall A stk a f, others A stk a ->
    (forall x, aid (f x) = aid x) -> (forall x, astate (f x) = astate x) ->
    (forall x, amode (f x) = amode x) -> others (store A a f) stk a.
  Proof.
    intros A stk a f HO H1 H2 H3 y Hy Hne. apply store_In in Hy. destruct Hy as (x & Hx & ->).
    destruct (Nat.eqb_spec (aid x) a) as [E|E].
    - rewrite H1 in Hne. contradiction.
    - destruct (HO x Hx E) as [Hs|Hp]; auto. left. apply (settled_id A); auto.
      apply store_extr; auto.
  Qed.

  Lemma insert_base : forall A stk a s i, base A stk -> ~ In a (ids A) -> bitvec n s -> i < k ->
    (forall x, In x A -> astate x = s -> amode x = Z.of_nat i -> False) ->
    base (insert_anode A a (Z.of_nat i) (-1) false s) ((s, i) :: stk).
  Proof.
    intros A stk a s i HB Hf Hs Hi Hnew. unfold insert_anode. constructor.
    - simpl. constructor; auto. apply (b_ids _ _ HB).
    - intros x [<-|Hx]; simpl; eauto. apply (b_wf _ _ HB); auto.
    - intros x y [<-|Hx] [<-|Hy]; simpl; auto; intros H1 H2.
      + exfalso. apply (Hnew y); auto.
      + exfalso. apply (Hnew x); auto.
      + apply (b_key _ _ HB); auto.
    - constructor; [|apply (b_nd _ _ HB)]. intros H.
      destruct (b_stk _ _ HB s i H) as (_ & x & Hx & H1 & H2). apply (Hnew x); auto.
    - intros s1 i1 [H|H].
      + injection H as <- <-. split; auto. eexists. split; [left; reflexivity|]. auto.
      + destruct (b_stk _ _ HB s1 i1 H) as (H1 & x & Hx & H2). split; auto. exists x.
        split; [right|]; auto.
    - intros x [<-|Hx]; simpl; [discriminate|]. apply (b_init _ _ HB); auto.
    - intros s1 Hs1. destruct (b_cover _ _ HB s1 Hs1) as (x & i1 & Hx & H). exists x, i1.
      split; [right|]; auto.
  Qed.
  Lemma insert_extr : forall A x, extr (fun t => t) A (x :: A).
  Proof. intros. apply extr_id. intros y Hy. exists y. split; [right|]; auto. Qed.
  Lemma pending_cons : forall stk p x, pending stk x -> pending (p :: stk) x.
  Proof. intros stk p x (H1 & i & H2 & H3). split; auto. exists i. split; auto. right. auto. Qed.
  Lemma insert_inv : forall A stk a b s i s1 md mv, invp A stk a s1 md mv -> ~ In b (ids A) ->
    bitvec n s -> i < k -> (forall x, In x A -> astate x = s -> amode x = Z.of_nat i -> False) ->
    invp (insert_anode A b (Z.of_nat i) (-1) false s) ((s, i) :: stk) a s1 md mv.
  Proof.
    intros A stk a b s i s1 md mv (HB & HO & x & Hx & H1 & H2 & H3 & Hp) Hb Hs Hi Hnew.
    split; [apply insert_base; auto|]. split.
    - intros y [<-|Hy] Hya; simpl.
      + right. split; auto. exists i. split; auto. left. auto.
      + destruct (HO y Hy Hya) as [H|H].
        * left. apply (settled_id A); auto. apply insert_extr.
        * right. apply pending_cons. auto.
    - exists x. split; [right; auto|]. repeat (split; [auto|]).
      apply (part_id A _ x); auto. apply insert_extr.
  Qed.

  Lemma append_inv : forall A stk a s md mv e y i', invp A stk a s md mv -> In y A ->
    amode y = Z.of_nat i' -> step_ok s md e (astate y) i' ->
    invp (store A a (fun x => set_trans (atrans x ++ [aid y]) x)) stk a s md (mv ++ [e]).
  Proof.
    intros A stk a s md mv e y i' (HB & HO & x & Hx & H1 & H2 & H3 & Hp) Hy Hmy Hst.
    split; [apply store_base; auto|]. split; [apply store_others; auto|].
    exists (set_trans (atrans x ++ [aid y]) x). split.
    { apply store_In. exists x. split; auto. rewrite H1, Nat.eqb_refl. auto. }
    simpl. repeat (split; [auto|]).
    set (A' := store A a (fun x => set_trans (atrans x ++ [aid y]) x)).
    assert (Hext : extr (fun t => t) A A') by (apply store_extr; auto).
    assert (Hp' : part A' x mv) by (apply (part_id A A' x); auto).
    destruct Hp' as (i & j & Hi & Hj & Hf & Hall). exists i, j. simpl.
    split; auto. split; auto. split; auto. apply Forall2_snoc; auto.
    destruct (Hext y i' Hy Hmy) as (y' & i2 & Hy' & Hid & Hs' & Hm' & Hb).
    assert (i = md) by lia. subst i.
    exists y', i2. split; auto. split; auto. split; auto.
    destruct Hst as (j1 & Hf1 & Hpk & Hb1). exists j1. rewrite H2, Hs'.
    split; auto. split; auto. eapply Hbt; eauto.
  Qed.

  Lemma do_move_inv : forall s md j e st st' a mv, md < k -> bitvec n s -> bitvec ne e ->
    fin md s j -> invp (s_str st) (s_stk st) a s md mv ->
    do_move ne ns orc alloc stW L s md j e st = Ok (Some st') ->
    invp (s_str st') (s_stk st') a s md (mv ++ [e]).
  Proof.
    intros s md j e st st' a mv Hmd Hs He Hf HI Hd. unfold do_move in Hd.
    rewrite (nth_error_nth' L ([], [])) in Hd by auto.
    apply bind_ok in Hd. destruct Hd as ((o & t) & Hc & Hd). destruct o as [c|]; [|discriminate].
    destruct (Hchoose md s j e _ c t Hmd Hs He Hf Hc) as (Hpk & Hs').
    set (s' := next_state ne ns c e) in *. cbn zeta in Hd. fold k in Hd.
    destruct (nth_error (fst (nth md L ([], []))) 0) as [Y0|] eqn:EY; [|discriminate].
    rewrite (Heval md s' Y0 Hmd Hs' EY) in Hd.
    change (if g0 md s' then if md =? k - 1 then 0 else md + 1 else md) with (nextmode md s') in Hd.
    set (nm := nextmode md s') in *.
    assert (Hnm : nm < k).
    { unfold nm, nextmode. destruct (g0 md s'); auto. apply nx_lt. auto. }
    set (st1 := match find_anode (s_str st) (Z.of_nat nm) s' with
                | Some _ => SS (s_str st) (s_stk st) t
                | None => SS (insert_anode (s_str st) (alloc t (s_str st)) (Z.of_nat nm) (-1) false s')
                            ((s', nm) :: s_stk st) (S t)
                end) in *.
    assert (HI1 : invp (s_str st1) (s_stk st1) a s md mv).
    { unfold st1. destruct (find_anode (s_str st) (Z.of_nat nm) s') as [z|] eqn:Ef; auto. simpl.
      apply insert_inv; auto. apply (find_none_iff _ (s_stk st)); auto. apply HI. }
    clearbody st1. apply bind_ok in Hd. destruct Hd as ((A' & b) & Hap & Hd).
    destruct b; [|discriminate]. injection Hd as <-. simpl.
    unfold append_anode_trans in Hap.
    destruct (find_anode (s_str st1) (Z.of_nat md) s) as [bs|] eqn:Eb; [|discriminate].
    destruct (find_anode (s_str st1) (Z.of_nat nm) s') as [tg|] eqn:Et; [|discriminate].
    injection Hap as <-. pose proof (proj1 HI1) as HB1.
    apply (find_some_iff _ (s_stk st1)) in Eb; auto. apply (find_some_iff _ (s_stk st1)) in Et; auto.
    assert (Ha : aid bs = a).
    { destruct HI1 as (_ & _ & x & Hx & H1 & H2 & H3 & _).
      assert (bs = x) by (apply (b_key _ _ HB1); auto; [apply Eb| |]; destruct Eb as (? & ? & ?); congruence).
      subst. auto. }
    rewrite Ha. destruct Et as (Ht1 & Ht2 & Ht3).
    apply (append_inv _ _ _ _ _ _ _ _ nm); auto. rewrite Ht2. exists j. split; auto.
  Qed.
  Lemma do_moves_inv : forall s md j, md < k -> bitvec n s -> fin md s j ->
    forall es st st' a mv, Forall (bitvec ne) es -> invp (s_str st) (s_stk st) a s md mv ->
    do_moves ne ns orc alloc stW L s md j es st = Ok (Some st') ->
    invp (s_str st') (s_stk st') a s md (mv ++ es).
  Proof.
    intros s md j Hmd Hs Hf. induction es as [|e es IH]; intros st st' a mv Hes HI Hd.
    - injection Hd as <-. rewrite app_nil_r. auto.
    - inversion Hes; subst. cbn [do_moves] in Hd. apply bind_ok in Hd.
      destruct Hd as (o & Hm & Hd). destruct o as [st1|]; [|discriminate].
      replace (mv ++ e :: es) with ((mv ++ [e]) ++ es) by (rewrite <- app_assoc; auto).
      apply (IH st1); auto. eapply do_move_inv; eauto.
  Qed.

  (** *** expanding a node *)
  Lemma start_inv : forall A stk a s md j x, base A stk -> others A stk a -> In x A -> aid x = a ->
    astate x = s -> amode x = Z.of_nat md -> atrans x = [] -> fin md s j ->
    invp (store A a (set_rgrad (Z.of_nat j))) stk a s md [].
  Proof.
    intros A stk a s md j x HB HO Hx H1 H2 H3 H4 Hf.
    split; [apply store_base; auto|]. split; [apply store_others; auto|].
    exists (set_rgrad (Z.of_nat j) x). split.
    { apply store_In. exists x. split; auto. rewrite H1, Nat.eqb_refl. auto. }
    simpl. repeat (split; [auto|]). exists md, j. simpl. rewrite H4, H2. auto.
  Qed.
  Lemma finish_inv : forall A stk a s md mv, invp A stk a s md mv -> mvs s mv -> inv A stk.
  Proof.
    intros A stk a s md mv (HB & HO & x & Hx & H1 & H2 & H3 & Hp) Hm. split; auto.
    intros y Hy. destruct (Nat.eq_dec (aid y) a) as [E|E]; auto.
    assert (y = x) by (apply (node_unique A); auto; [apply (b_ids _ _ HB)|congruence]).
    subst y. left. exists mv. rewrite H2. auto.
  Qed.
  Lemma process_inv : forall fuel a s md j A stk t st' x, md < k -> bitvec n s -> fin md s j ->
    base A stk -> others A stk a -> In x A -> aid x = a ->
    astate x = s -> amode x = Z.of_nat md -> atrans x = [] ->
    process ne ns orc alloc stW et L fuel a s md j (SS A stk t) = Ok (Some st') ->
    inv (s_str st') (s_stk st').
  Proof.
    intros fuel a s md j A stk t st' x Hmd Hs Hf HB HO Hx H1 H2 H3 H4 Hp.
    pose proof (start_inv A stk a s md j x HB HO Hx H1 H2 H3 H4 Hf) as HI.
    unfold process in Hp. cbn [s_str s_stk s_clk] in Hp.
    destruct (Nat.ltb_spec 0 ne) as [Hne|Hne].
    - apply bind_ok in Hp. destruct Hp as (mv & Hmv & Hp).
      pose proof (Hmoves Hne _ _ _ _ Hs Hmv) as Hm.
      apply (finish_inv _ _ a s md mv); auto.
      refine (do_moves_inv s md j Hmd Hs Hf mv _ st' a [] (Hmvs _ _ Hm) _ Hp). exact HI.
    - assert (Hm : mvs s [[]]) by (apply Hmoves0; auto; lia).
      apply (finish_inv _ _ a s md [[]]); auto.
      refine (do_moves_inv s md j Hmd Hs Hf [[]] _ st' a [] (Hmvs _ _ Hm) _ Hp). exact HI.
  Qed.

  (** *** popping, deleting and merging *)
  Lemma pop_base : forall A p stk, base A (p :: stk) -> base A stk.
  Proof.
    intros A p stk HB. destruct HB. constructor; auto.
    - inversion b_nd0; auto.
    - intros s i H. apply b_stk0. right. auto.
  Qed.
  Lemma pop_pending : forall A s lm stk x old, base A ((s, lm) :: stk) -> In old A ->
    astate old = s -> amode old = Z.of_nat lm -> In x A -> x <> old ->
    pending ((s, lm) :: stk) x -> pending stk x.
  Proof.
    intros A s lm stk x old HB Ho H1 H2 Hx Hne (Ht & i & Hi & [H|H]).
    - exfalso. apply Hne. injection H as E1 E2. apply (b_key _ _ HB); auto; congruence.
    - split; auto. exists i. auto.
  Qed.

  (** replacing [old] by a node [z] with the same state and an advanced mode *)
  Lemma merge_inv : forall A s lm md stk old B z, inv A ((s, lm) :: stk) -> In old A ->
    astate old = s -> amode old = Z.of_nat lm -> atrans old = [] ->
    bump s lm md -> md < k ->
    NoDup (ids B) -> In z B -> astate z = s -> amode z = Z.of_nat md ->
    (forall x, In x B <-> (In x A /\ x <> old) \/ x = z) ->
    (forall x, In x A -> astate x = s -> amode x = Z.of_nat md -> x = z) ->
    (forall x, In x A -> aid x = aid z -> x = z \/ x = old) ->
    (ainit z = true -> In s ss) ->
    md <> lm ->
    let C := replace_anode_trans B (aid old) (Some (aid z)) in
    base C stk /\ others C stk (aid z) /\
    (exists z', In z' C /\ aid z' = aid z /\ astate z' = s /\ amode z' = Z.of_nat md /\
       length (atrans z') = length (atrans z)) /\
    (In z A -> inv C stk).
  Proof.
    intros A s lm md stk old B z HI Ho H1 H2 H3 Hb Hmd HndB Hz Hzs Hzm HB Huniq Hidz Hini Hml C.
    destruct HI as (HBA & HA).
    set (rho := fun t => if t =? aid old then aid z else t).
    set (f := fun x => set_trans (map rho (atrans x)) x).
    assert (EC : C = map f B).
    { unfold C, replace_anode_trans, f. apply map_ext. intros x. rewrite replace_some. auto. }
    assert (HinC : forall y, In y C <-> exists x, In x B /\ y = f x).
    { intros y. rewrite EC, in_map_iff. split; intros (x & ? & ?); eauto. }
    assert (Hext : extr rho A C).
    { intros y i Hy Hmy. destruct (Nat.eq_dec (aid y) (aid old)) as [E|E].
      - assert (y = old) by (apply (node_unique A); auto; apply (b_ids _ _ HBA)). subst y.
        exists (f z), md. split; [apply HinC; eauto|]. simpl. unfold rho. rewrite Nat.eqb_refl.
        split; auto. split; [congruence|]. split; auto. rewrite H1.
        assert (i = lm) by lia. subst i. auto.
      - exists (f y), i. split.
        { apply HinC. exists y. split; auto. apply HB. left. split; auto. congruence. }
        simpl. unfold rho. destruct (Nat.eqb_spec (aid y) (aid old)); [contradiction|].
        repeat (split; [auto|]). apply Hbr. }
    assert (Hset : forall x, In x A -> x <> old -> x <> z \/ In z A -> settled C (f x) \/ pending stk (f x)).
    { intros x Hx Hne _. destruct (HA x Hx) as [(mv & Hm & Hp)|Hp].
      - left. exists mv. split; auto. apply (part_ext rho A C x); auto.
      - right. destruct (pop_pending A s lm stk x old HBA Ho H1 H2 Hx Hne Hp) as (Ht & i & Hi).
        split; [simpl; rewrite Ht; auto|]. exists i. auto. }
    assert (Hzold : z <> old) by (intros ->; lia).
    assert (HbC : base C stk).
    { constructor.
      - rewrite EC, ids_map; auto.
      - intros y Hy. apply HinC in Hy. destruct Hy as (x & Hx & ->). simpl. apply HB in Hx.
        destruct Hx as [(Hx & _)| ->]; [apply (b_wf _ _ HBA); auto|].
        rewrite Hzs, <- H1. split; [apply (b_wf _ _ HBA); auto|]. eauto.
      - intros y1 y2 Hy1 Hy2 Es Em. apply HinC in Hy1. apply HinC in Hy2.
        destruct Hy1 as (x1 & Hx1 & ->). destruct Hy2 as (x2 & Hx2 & ->). simpl in Es, Em. f_equal.
        apply HB in Hx1. apply HB in Hx2.
        destruct Hx1 as [(Hx1 & Hn1)| ->], Hx2 as [(Hx2 & Hn2)| ->]; auto.
        + apply (b_key _ _ HBA); auto.
        + apply Huniq; congruence.
        + symmetry. apply Huniq; congruence.
      - pose proof (b_nd _ _ HBA) as Hnd. inversion Hnd; auto.
      - intros s1 i1 Hi1. destruct (b_stk _ _ HBA s1 i1) as (Hk1 & x & Hx & E1 & E2); [right; auto|].
        split; auto. assert (Hne : x <> old).
        { intros ->. pose proof (b_nd _ _ HBA) as Hnd. inversion Hnd; subst.
          assert (i1 = lm) by lia. subst i1. auto. }
        exists (f x). split; [apply HinC; exists x; split; auto; apply HB; auto|]. auto.
      - intros y Hy Hi. apply HinC in Hy. destruct Hy as (x & Hx & ->). simpl in *. apply HB in Hx.
        destruct Hx as [(Hx & _)| ->]; [apply (b_init _ _ HBA); auto|]. rewrite Hzs. auto.
      - intros s1 Hs1. destruct (b_cover _ _ HBA s1 Hs1) as (x & i & Hx & E1 & E2 & E3).
        destruct (Hext x i Hx E2) as (y & i2 & Hy & _ & Hs2 & Hm2 & Hb2).
        exists y, i2. split; auto. split; [congruence|]. split; auto.
        rewrite E1 in Hb2. eapply Hbt; eauto. }
    split; auto. split; [|split].
    - intros y Hy Hne. apply HinC in Hy. destruct Hy as (x & Hx & ->). simpl in Hne.
      apply HB in Hx. destruct Hx as [(Hx & Hxo)| ->]; [|congruence].
      apply Hset; auto. left. congruence.
    - exists (f z). split; [apply HinC; eauto|]. simpl. rewrite map_length. auto.
    - intros HzA. split; auto. intros y Hy. apply HinC in Hy. destruct Hy as (x & Hx & ->).
      apply HB in Hx. destruct Hx as [(Hx & Hxo)| ->]; apply Hset; auto.
  Qed.

  Lemma iteration_inv : forall fuel s lm stk A t st', lm < k -> bitvec n s ->
    inv A ((s, lm) :: stk) ->
    iteration ne ns orc alloc stW et L fuel s lm stk A t = Ok (Some st') ->
    inv (s_str st') (s_stk st').
  Proof.
    intros fuel s lm stk A t st' Hlm Hs HI Hit. pose proof HI as (HB & HA).
    unfold iteration in Hit. apply bind_ok in Hit. destruct Hit as ((md & j) & Hms & Hit).
    destruct (Hsearch _ _ _ _ _ Hlm Hs Hms) as (Hb & Hmd & Hf). cbn [fst snd] in Hit.
    destruct (find_anode A (Z.of_nat lm) s) as [old|] eqn:Eold; [|discriminate].
    apply (find_some_iff A ((s, lm) :: stk)) in Eold; auto.
    destruct Eold as (Ho & Ho1 & Ho2).
    destruct (Nat.ltb_spec 0 (length (atrans old))) as [Htr|Htr].
    { injection Hit as <-. simpl. split; [apply (pop_base _ (s, lm)); auto|].
      intros x Hx. destruct (HA x Hx) as [H|H]; auto.
      assert (x <> old) by (intros ->; destruct H as (E & _); rewrite E in Htr; simpl in Htr; lia).
      right. apply (pop_pending A s lm stk x old); auto. }
    assert (Hnil : atrans old = []) by (destruct (atrans old); auto; simpl in Htr; lia).
    assert (HO : others A stk (aid old)).
    { intros x Hx Hne. destruct (HA x Hx) as [H|H]; auto. right.
      apply (pop_pending A s lm stk x old); auto. congruence. }
    destruct (Nat.eqb_spec md lm) as [Em|Em].
    { subst md. apply (process_inv fuel (aid old) s lm j A stk t st' old); auto.
      apply (pop_base _ (s, lm)); auto. }
    pose proof (b_ids _ _ HB) as Hnd.
    assert (Hoid : In (aid old) (ids A)) by (apply in_map; auto).
    rewrite (delete_ok A (aid old) Hnd Hoid) in Hit.
    set (A1 := filter (fun x => negb (aid x =? aid old)) A) in *.
    assert (HA1 : forall x, In x A1 <-> In x A /\ x <> old).
    { intros x. unfold A1. rewrite filter_In, negb_true_iff, Nat.eqb_neq. split; intros (H1 & H2).
      - split; auto. congruence.
      - split; auto. intros E. apply H2. apply (node_unique A); auto. }
    assert (Hnd1 : NoDup (ids A1)).
    { unfold A1, ids. clear - Hnd. induction A as [|x A IH]; simpl; [constructor|].
      inversion Hnd; subst. destruct (negb (aid x =? aid old)); simpl; auto. constructor; auto.
      intros H. apply H1. apply in_map_iff in H. destruct H as (y & E & Hy).
      apply filter_In in Hy. rewrite <- E. apply in_map. apply Hy. }
    assert (Hu1 : uniform n A1).
    { intros x Hx. apply HA1 in Hx. apply (b_wf _ _ HB x); apply Hx. }
    assert (Hfind : forall x, find_anode A1 (Z.of_nat md) s = Some x ->
              In x A /\ x <> old /\ astate x = s /\ amode x = Z.of_nat md).
    { intros x Hx. rewrite find_anode_find in Hx. apply find_some in Hx. destruct Hx as (H1 & H2).
      apply (matches_iff n A1) in H2; auto; [|apply Hs]. apply HA1 in H1. tauto. }
    destruct (find_anode A1 (Z.of_nat md) s) as [new|] eqn:Enew.
    - destruct (Hfind new eq_refl) as (Hn1 & Hn2 & Hn3 & Hn4).
      destruct (merge_inv A s lm md stk old A1 new HI Ho Ho1 Ho2 Hnil Hb Hmd Hnd1)
        as (HB' & HO' & (z & Hz1 & Hz2 & Hz3 & Hz4 & Hz5) & HI'); auto.
      + apply HA1. auto.
      + intros x. rewrite HA1. split; [tauto|]. intros [H| ->]; auto.
      + intros x Hx E1 E2. apply (b_key _ _ HB); auto; congruence.
      + intros x Hx E1. left. apply (node_unique A); auto.
      + intros Hi. rewrite <- Hn3. apply (b_init _ _ HB); auto.
      + destruct (Nat.ltb_spec 0 (length (atrans new))) as [Htn|Htn].
        * injection Hit as <-. simpl. auto.
        * apply (process_inv fuel (aid new) s md j _ stk t st' z Hmd Hs Hf HB' HO' Hz1 Hz2 Hz3 Hz4);
            auto. destruct (atrans z); auto. simpl in Hz5. lia.
    - assert (Hno : forall x, In x A -> astate x = s -> amode x = Z.of_nat md -> False).
      { intros x Hx E1 E2. assert (In x A1).
        { apply HA1. split; auto. intros ->. apply Em. lia. }
        rewrite find_anode_find in Enew. apply find_none with (x := x) in Enew; auto.
        assert (matches (Z.of_nat md) s x = true); [|congruence].
        apply (matches_iff n A1); auto. apply Hs. }
      set (a := alloc t A1) in *. pose proof (Halloc t A1) as Hfresh. fold a in Hfresh.
      set (z := Node a (ainit old) s (Z.of_nat md) (-1) []) in *.
      change (insert_anode A1 a (Z.of_nat md) (-1) (ainit old) s) with (z :: A1) in Hit.
      assert (Ef : find_anode (z :: A1) (Z.of_nat md) s = Some z).
      { simpl. rewrite Z.eqb_refl, statecmp_refl. auto. }
      rewrite Ef in Hit.
      destruct (merge_inv A s lm md stk old (z :: A1) z HI Ho Ho1 Ho2 Hnil Hb Hmd)
        as (HB' & HO' & (z' & Hz1 & Hz2 & Hz3 & Hz4 & Hz5) & HI'); auto.
      + simpl. constructor; auto.
      + left. auto.
      + intros x. simpl. rewrite HA1. split; [intros [<-|H]; auto|]. intros [H| ->]; auto.
      + intros x Hx E1 E2. exfalso. apply (Hno x); auto.
      + intros x Hx E1. right. destruct (Nat.eq_dec (aid x) (aid old)) as [E|E].
        * apply (node_unique A); auto.
        * exfalso. apply Hfresh. change a with (aid z). rewrite <- E1. apply in_map. apply HA1.
          split; auto. congruence.
      + intros Hi. rewrite <- Ho1. apply (b_init _ _ HB); auto.
      + apply (process_inv fuel (aid z) s md j _ stk (S t) st' z' Hmd Hs Hf HB' HO' Hz1 Hz2 Hz3 Hz4);
          auto. destruct (atrans z'); auto. simpl in Hz5. lia.
  Qed.

  Lemma inv_top : forall A s lm stk, inv A ((s, lm) :: stk) -> lm < k /\ bitvec n s.
  Proof.
    intros A s lm stk (HB & _). destruct (b_stk _ _ HB s lm) as (Hl & x & Hx & E & _); [left; auto|].
    split; auto. rewrite <- E. apply (b_wf _ _ HB); auto.
  Qed.
  Lemma main_loop_inv : forall ifuel fuel st A, inv (s_str st) (s_stk st) ->
    main_loop ne ns orc alloc stW et L fuel ifuel st = Ok (Some A) -> inv A [].
  Proof.
    intros ifuel. induction fuel; intros st A HI Hm.
    - simpl in Hm. destruct (s_stk st) as [|[s i] stk] eqn:E; [|discriminate].
      injection Hm as <-. auto.
    - cbn [main_loop] in Hm. destruct (s_stk st) as [|[s i] stk] eqn:E.
      + injection Hm as <-. auto.
      + apply bind_ok in Hm. destruct Hm as (o & Hi & Hm). destruct o as [st'|]; [|discriminate].
        destruct (inv_top _ _ _ _ HI) as (Hl & Hs).
        apply (IHfuel st'); auto. eapply iteration_inv; eauto.
  Qed.

  (** *** predicates on states that the chosen moves preserve *)
  Section Preserved.
  Variable Cn : vec -> Prop.
  Hypothesis Hclosed : forall s i j e s' mv, Cn s -> bitvec n s -> mvs s mv -> In e mv ->
    pick s i j e s' -> Cn s'.
  Definition cinv (A : aut) : Prop := forall x, In x A -> Cn (astate x).

  Lemma store_cinv : forall A a f, (forall x, astate (f x) = astate x) -> cinv A -> cinv (store A a f).
  Proof.
    intros A a f Hf Hw y Hy. apply store_In in Hy. destruct Hy as (x & Hx & ->).
    destruct (aid x =? a); rewrite ?Hf; apply Hw; auto.
  Qed.
  Lemma do_move_cinv : forall s md j e st st' mv, md < k -> bitvec n s -> Cn s ->
    mvs s mv -> In e mv -> fin md s j -> cinv (s_str st) ->
    do_move ne ns orc alloc stW L s md j e st = Ok (Some st') -> cinv (s_str st').
  Proof.
    intros s md j e st st' mv Hmd Hs HC Hm He Hf HI Hd. unfold do_move in Hd.
    assert (Hbe : bitvec ne e) by (pose proof (Hmvs _ _ Hm) as H; rewrite Forall_forall in H; auto).
    rewrite (nth_error_nth' L ([], [])) in Hd by auto.
    apply bind_ok in Hd. destruct Hd as ((o & t) & Hc & Hd). destruct o as [c|]; [|discriminate].
    destruct (Hchoose md s j e _ c t Hmd Hs Hbe Hf Hc) as (Hpk & Hs').
    set (s' := next_state ne ns c e) in *. cbn zeta in Hd.
    assert (HC' : Cn s') by (eapply Hclosed; eauto).
    destruct (nth_error (fst (nth md L ([], []))) 0) as [Y0|]; [|discriminate].
    set (nm := if eval_at ne ns Y0 s' then if md =? length L - 1 then 0 else md + 1 else md) in *.
    set (st1 := match find_anode (s_str st) (Z.of_nat nm) s' with
                | Some _ => SS (s_str st) (s_stk st) t
                | None => SS (insert_anode (s_str st) (alloc t (s_str st)) (Z.of_nat nm) (-1) false s')
                            ((s', nm) :: s_stk st) (S t)
                end) in *.
    assert (HI1 : cinv (s_str st1)).
    { unfold st1. destruct (find_anode (s_str st) (Z.of_nat nm) s') as [z|]; auto. simpl.
      intros x [<-|Hx]; auto. }
    clearbody st1. apply bind_ok in Hd. destruct Hd as ((A' & b) & Hap & Hd).
    destruct b; [|discriminate]. injection Hd as <-. simpl.
    unfold append_anode_trans in Hap.
    destruct (find_anode (s_str st1) (Z.of_nat md) s) as [bs|]; [|discriminate].
    destruct (find_anode (s_str st1) (Z.of_nat nm) s') as [tg|]; [|discriminate].
    injection Hap as <-. apply store_cinv; auto.
  Qed.
  Lemma do_moves_cinv : forall s md j mv, md < k -> bitvec n s -> Cn s -> mvs s mv -> fin md s j ->
    forall es st st', incl es mv -> cinv (s_str st) ->
    do_moves ne ns orc alloc stW L s md j es st = Ok (Some st') -> cinv (s_str st').
  Proof.
    intros s md j mv Hmd Hs HC Hm Hf. induction es as [|e es IH]; intros st st' Hin HI Hd.
    - injection Hd as <-. auto.
    - cbn [do_moves] in Hd. apply bind_ok in Hd.
      destruct Hd as (o & Hm1 & Hd). destruct o as [st1|]; [|discriminate].
      apply (IH st1); auto.
      + intros x Hx. apply Hin. right. auto.
      + apply (do_move_cinv s md j e st st1 mv); auto. apply Hin. left. auto.
  Qed.
  Lemma process_cinv : forall fuel a s md j A stk t st', md < k -> bitvec n s -> Cn s -> fin md s j ->
    cinv A -> process ne ns orc alloc stW et L fuel a s md j (SS A stk t) = Ok (Some st') ->
    cinv (s_str st').
  Proof.
    intros fuel a s md j A stk t st' Hmd Hs HC Hf HI Hp.
    assert (HI' : cinv (store A a (set_rgrad (Z.of_nat j)))) by (apply store_cinv; auto).
    unfold process in Hp. cbn [s_str s_stk s_clk] in Hp.
    destruct (Nat.ltb_spec 0 ne) as [Hne|Hne].
    - apply bind_ok in Hp. destruct Hp as (mv & Hmv & Hp).
      pose proof (Hmoves Hne _ _ _ _ Hs Hmv) as Hm.
      refine (do_moves_cinv s md j mv Hmd Hs HC Hm Hf mv _ st' (incl_refl _) _ Hp). exact HI'.
    - assert (Hm : mvs s [[]]) by (apply Hmoves0; auto; lia).
      refine (do_moves_cinv s md j [[]] Hmd Hs HC Hm Hf [[]] _ st' (incl_refl _) _ Hp). exact HI'.
  Qed.
  Lemma iteration_cinv : forall fuel s lm stk A t st',
    inv A ((s, lm) :: stk) -> cinv A ->
    iteration ne ns orc alloc stW et L fuel s lm stk A t = Ok (Some st') -> cinv (s_str st').
  Proof.
    intros fuel s lm stk A t st' HI HC Hit. destruct (inv_top _ _ _ _ HI) as (Hlm & Hs).
    pose proof HI as (HB & _).
    unfold iteration in Hit. apply bind_ok in Hit. destruct Hit as ((md & j) & Hms & Hit).
    destruct (Hsearch _ _ _ _ _ Hlm Hs Hms) as (Hb & Hmd & Hf). cbn [fst snd] in Hit.
    destruct (find_anode A (Z.of_nat lm) s) as [old|] eqn:Eold; [|discriminate].
    apply (find_some_iff A ((s, lm) :: stk)) in Eold; auto.
    destruct Eold as (Ho & Ho1 & Ho2).
    assert (HCs : Cn s) by (rewrite <- Ho1; auto).
    assert (HrC : forall B z, cinv B -> cinv (replace_anode_trans B (aid old) (Some z))).
    { intros B z HBz y Hy. unfold replace_anode_trans in Hy. apply in_map_iff in Hy.
      destruct Hy as (x & <- & Hx). simpl. auto. }
    destruct (Nat.ltb_spec 0 (length (atrans old))) as [Htr|Htr].
    { injection Hit as <-. auto. }
    destruct (Nat.eqb_spec md lm) as [Em|Em].
    { subst md. apply (process_cinv fuel (aid old) s lm j A stk t st'); auto. }
    pose proof (b_ids _ _ HB) as Hnd.
    assert (Hoid : In (aid old) (ids A)) by (apply in_map; auto).
    rewrite (delete_ok A (aid old) Hnd Hoid) in Hit.
    set (A1 := filter (fun x => negb (aid x =? aid old)) A) in *.
    assert (HC1 : cinv A1) by (intros x Hx; apply filter_In in Hx; apply HC; apply Hx).
    destruct (find_anode A1 (Z.of_nat md) s) as [new|] eqn:Enew.
    - destruct (0 <? length (atrans new)).
      + injection Hit as <-. simpl. auto.
      + revert Hit. apply process_cinv; auto.
    - set (A2 := insert_anode A1 (alloc t A1) (Z.of_nat md) (-1) (ainit old) s) in *.
      assert (HC2 : cinv A2) by (intros x [<-|Hx]; auto).
      destruct (find_anode A2 (Z.of_nat md) s) as [new|]; [|discriminate].
      revert Hit. apply process_cinv; auto.
  Qed.
  Lemma main_loop_cinv : forall ifuel fuel st A, inv (s_str st) (s_stk st) -> cinv (s_str st) ->
    main_loop ne ns orc alloc stW et L fuel ifuel st = Ok (Some A) -> cinv A.
  Proof.
    intros ifuel. induction fuel; intros st A HI HC Hm.
    - simpl in Hm. destruct (s_stk st) as [|[s i] stk]; [|discriminate].
      injection Hm as <-. auto.
    - cbn [main_loop] in Hm. destruct (s_stk st) as [|[s i] stk] eqn:E.
      + injection Hm as <-. auto.
      + apply bind_ok in Hm. destruct Hm as (o & Hi & Hm). destruct o as [st'|]; [|discriminate].
        destruct (inv_top _ _ _ _ HI) as (Hl & Hs).
        apply (IHfuel st'); auto; [eapply iteration_inv; eauto|eapply iteration_cinv; eauto].
  Qed.
  End Preserved.

  (** *** progress and termination, from winning states *)
  Section Progress.
  Variable Wn : vec -> Prop.
  Variable ifuel : nat.
  Hypothesis Hpick : forall s i j e s', pick s i j e s' -> Wn s'.
  Hypothesis Hct : forall i s j e t mv, i < k -> bitvec n s -> Wn s -> mvs s mv -> In e mv ->
    fin i s j -> exists c t', choose ne ns orc stW t (nth i L ([], [])) j s e = Ok (Some c, t').
  Hypothesis Hmt : 0 < ne -> forall t s, bitvec n s ->
    exists mv, get_env_moves ifuel (orc t) (cube0 ne ns) s et ne ns = Ok mv.
  Hypothesis Hst : forall lm s, lm < k -> bitvec n s ->
    exists p, mode_search ne ns ifuel L lm lm s = Ok p.
  Hypothesis HY0 : forall i, i < k -> exists f, nth_error (fst (nth i L ([], []))) 0 = Some f.
  Hypothesis Hlen : forall s mv, mvs s mv -> length mv <= 2 ^ ne.

  Definition winv (A : aut) : Prop := forall x, In x A -> Wn (astate x).
  Definition hast (A : aut) (s : vec) (i : nat) : Prop :=
    exists x, In x A /\ astate x = s /\ amode x = Z.of_nat i /\ atrans x <> [].
  Definition leK (A A' : aut) : Prop := forall s i, hast A s i -> hast A' s i.
  Lemma leK_trans : forall A B C, leK A B -> leK B C -> leK A C.
  Proof. intros A B C H1 H2 s i H. apply H2, H1, H. Qed.
  Lemma store_leK : forall A a f, (forall x, astate (f x) = astate x) ->
    (forall x, amode (f x) = amode x) -> (forall x, atrans x <> [] -> atrans (f x) <> []) ->
    leK A (store A a f).
  Proof.
    intros A a f H1 H2 H3 s i (x & Hx & E1 & E2 & E3).
    exists (if aid x =? a then f x else x). split; [apply store_In; eauto|].
    destruct (aid x =? a); auto. split; [congruence|]. split; [congruence|]. auto.
  Qed.
  Lemma insert_leK : forall A x, leK A (x :: A).
  Proof. intros A x s i (y & Hy & H). exists y. split; [right|]; auto. Qed.
  Lemma store_winv : forall A a f, (forall x, astate (f x) = astate x) -> winv A -> winv (store A a f).
  Proof.
    intros A a f Hf Hw y Hy. apply store_In in Hy. destruct Hy as (x & Hx & ->).
    destruct (aid x =? a); rewrite ?Hf; apply Hw; auto.
  Qed.

  Lemma do_move_prog : forall s md j e st a mv mvv, md < k -> bitvec n s -> Wn s ->
    mvs s mvv -> In e mvv -> fin md s j -> invp (s_str st) (s_stk st) a s md mv -> winv (s_str st) ->
    exists st', do_move ne ns orc alloc stW L s md j e st = Ok (Some st') /\ winv (s_str st') /\
      leK (s_str st) (s_str st') /\ length (s_stk st') <= S (length (s_stk st)).
  Proof.
    intros s md j e st a mv mvv Hmd Hs HW Hm He Hf HI Hwi.
    assert (Hbe : bitvec ne e) by (pose proof (Hmvs _ _ Hm) as H; rewrite Forall_forall in H; auto).
    destruct (Hct md s j e (s_clk st) mvv Hmd Hs HW Hm He Hf) as (c & t & Hc).
    destruct (Hchoose md s j e _ c t Hmd Hs Hbe Hf Hc) as (Hpk & Hs').
    destruct (HY0 md Hmd) as (Y0 & EY). unfold do_move.
    rewrite (nth_error_nth' L ([], [])) by auto. rewrite Hc. cbn [bind]. cbn zeta. fold k.
    rewrite EY. set (s' := next_state ne ns c e) in *. rewrite (Heval md s' Y0 Hmd Hs' EY).
    change (if g0 md s' then if md =? k - 1 then 0 else md + 1 else md) with (nextmode md s').
    set (nm := nextmode md s') in *.
    assert (Hnm : nm < k).
    { unfold nm, nextmode. destruct (g0 md s'); auto. apply nx_lt. auto. }
    set (st1 := match find_anode (s_str st) (Z.of_nat nm) s' with
                | Some _ => SS (s_str st) (s_stk st) t
                | None => SS (insert_anode (s_str st) (alloc t (s_str st)) (Z.of_nat nm) (-1) false s')
                            ((s', nm) :: s_stk st) (S t)
                end) in *.
    assert (HI1 : invp (s_str st1) (s_stk st1) a s md mv /\ winv (s_str st1) /\
       leK (s_str st) (s_str st1) /\ length (s_stk st1) <= S (length (s_stk st)) /\
       exists tg, find_anode (s_str st1) (Z.of_nat nm) s' = Some tg).
    { unfold st1. destruct (find_anode (s_str st) (Z.of_nat nm) s') as [z|] eqn:Ef.
      - cbn [s_str s_stk]. split; auto. split; auto. split; [intros ? ? ?; auto|]. split; [lia|]. eauto.
      - cbn [s_str s_stk]. split; [|split; [|split; [|split]]].
        + apply insert_inv; auto. apply (find_none_iff _ (s_stk st)); auto. apply HI.
        + intros x [<-|Hx]; [|auto]. simpl. eapply Hpick; eauto.
        + apply insert_leK.
        + simpl. lia.
        + exists (Node (alloc t (s_str st)) false s' (Z.of_nat nm) (-1) []). simpl.
          rewrite Z.eqb_refl, statecmp_refl. auto. }
    clearbody st1. destruct HI1 as (HI1 & Hw1 & Hk1 & Hl1 & tg & Etg).
    unfold append_anode_trans.
    assert (Eb : exists bs, find_anode (s_str st1) (Z.of_nat md) s = Some bs).
    { destruct HI1 as (HB1 & _ & x & Hx & H1 & H2 & H3 & _). exists x.
      apply (find_some_iff _ (s_stk st1)); auto. }
    destruct Eb as (bs & Eb). rewrite Eb, Etg. cbn [bind].
    eexists. split; [reflexivity|]. cbn [s_str s_stk]. split; [apply store_winv; auto|].
    split; auto. eapply leK_trans; [exact Hk1|]. apply store_leK; auto.
    intros x Hx E. simpl in E. apply app_eq_nil in E. destruct E. contradiction.
  Qed.
  Lemma do_moves_prog : forall s md j mvv, md < k -> bitvec n s -> Wn s -> mvs s mvv -> fin md s j ->
    forall es st a mv, incl es mvv -> invp (s_str st) (s_stk st) a s md mv -> winv (s_str st) ->
    exists st', do_moves ne ns orc alloc stW L s md j es st = Ok (Some st') /\ winv (s_str st') /\
      leK (s_str st) (s_str st') /\ length (s_stk st') <= length es + length (s_stk st).
  Proof.
    intros s md j mvv Hmd Hs HW Hm Hf. induction es as [|e es IH]; intros st a mv Hin HI Hwi.
    - exists st. split; auto. split; auto. split; [intros ? ? ?; auto|]. simpl. lia.
    - assert (He : In e mvv) by (apply Hin; left; auto).
      destruct (do_move_prog s md j e st a mv mvv Hmd Hs HW Hm He Hf HI Hwi)
        as (st1 & H1 & H2 & H3 & H4).
      assert (Hbe : bitvec ne e) by (pose proof (Hmvs _ _ Hm) as H; rewrite Forall_forall in H; auto).
      destruct (IH st1 a (mv ++ [e])) as (st2 & H5 & H6 & H7 & H8); auto.
      { intros x Hx. apply Hin. right. auto. }
      { eapply do_move_inv; eauto. }
      exists st2. cbn [do_moves]. rewrite H1. cbn [bind]. split; auto. split; auto.
      split; [eapply leK_trans; eauto|]. simpl. lia.
  Qed.
  Lemma process_prog : forall a s md j A stk t x, md < k -> bitvec n s -> Wn s -> fin md s j ->
    base A stk -> others A stk a -> In x A -> aid x = a ->
    astate x = s -> amode x = Z.of_nat md -> atrans x = [] -> winv A ->
    exists st', process ne ns orc alloc stW et L ifuel a s md j (SS A stk t) = Ok (Some st') /\
      winv (s_str st') /\ leK A (s_str st') /\
      (length (s_stk st') <= length stk \/
       (hast (s_str st') s md /\ length (s_stk st') <= length stk + 2 ^ ne)).
  Proof.
    intros a s md j A stk t x Hmd Hs HW Hf HB HO Hx H1 H2 H3 H4 Hwi.
    pose proof (start_inv A stk a s md j x HB HO Hx H1 H2 H3 H4 Hf) as HI.
    assert (Hgen : forall mv t', mvs s mv -> exists st',
      do_moves ne ns orc alloc stW L s md j mv
        (SS (store A a (set_rgrad (Z.of_nat j))) stk t') = Ok (Some st') /\
      winv (s_str st') /\ leK A (s_str st') /\
      (length (s_stk st') <= length stk \/
       (hast (s_str st') s md /\ length (s_stk st') <= length stk + 2 ^ ne))).
    { intros mv t' Hm.
      destruct (do_moves_prog s md j mv Hmd Hs HW Hm Hf mv
        (SS (store A a (set_rgrad (Z.of_nat j))) stk t') a [] (incl_refl _) HI) as (st' & P1 & P2 & P3 & P4).
      { apply store_winv; auto. }
      exists st'. split; auto. split; auto. split.
      { eapply leK_trans; [|exact P3]. apply store_leK; auto. }
      cbn [s_stk] in P4. destruct mv as [|e mv']; [left; simpl in P4; lia|]. right. split.
      - assert (HI' : invp (s_str st') (s_stk st') a s md ([] ++ e :: mv')).
        { refine (do_moves_inv s md j Hmd Hs Hf (e :: mv') _ st' a [] (Hmvs _ _ Hm) _ P1). exact HI. }
        destruct HI' as (_ & _ & y & Hy & E1 & E2 & E3 & (i1 & j1 & _ & _ & _ & Hall)).
        exists y. split; auto. split; auto. split; auto. intros E. rewrite E in Hall. inversion Hall.
      - pose proof (Hlen _ _ Hm). lia. }
    unfold process. cbn [s_str s_stk s_clk].
    destruct (Nat.ltb_spec 0 ne) as [Hne|Hne].
    - destruct (Hmt Hne t s Hs) as (mv & Hmv). rewrite Hmv. cbn [bind].
      apply Hgen. eapply Hmoves; eauto.
    - apply Hgen. apply Hmoves0; auto. lia.
  Qed.
  Lemma iteration_prog : forall s lm stk A t, inv A ((s, lm) :: stk) -> winv A ->
    exists st', iteration ne ns orc alloc stW et L ifuel s lm stk A t = Ok (Some st') /\
      winv (s_str st') /\ leK A (s_str st') /\
      (length (s_stk st') <= length stk \/
       exists md, md < k /\ ~ hast A s md /\ hast (s_str st') s md /\
         length (s_stk st') <= length stk + 2 ^ ne).
  Proof.
    intros s lm stk A t HI Hwi. destruct (inv_top _ _ _ _ HI) as (Hlm & Hs).
    pose proof HI as (HB & HA).
    destruct (Hst lm s Hlm Hs) as ((md & j) & Hms).
    destruct (Hsearch _ _ _ _ _ Hlm Hs Hms) as (Hb & Hmd & Hf).
    destruct (b_stk _ _ HB s lm) as (_ & old & Ho & Ho1 & Ho2); [left; auto|].
    assert (Eold : find_anode A (Z.of_nat lm) s = Some old) by (apply (find_some_iff A ((s, lm) :: stk)); auto).
    unfold iteration. rewrite Hms. cbn [bind fst snd]. rewrite Eold.
    assert (HWs : Wn s) by (rewrite <- Ho1; auto).
    destruct (Nat.ltb_spec 0 (length (atrans old))) as [Htr|Htr].
    { eexists. split; [reflexivity|]. split; auto. split; [intros ? ? ?; auto|]. left. simpl. lia. }
    assert (Hnil : atrans old = []) by (destruct (atrans old); auto; simpl in Htr; lia).
    assert (HO : others A stk (aid old)).
    { intros x Hx Hne. destruct (HA x Hx) as [H|H]; auto. right.
      apply (pop_pending A s lm stk x old); auto. congruence. }
    destruct (Nat.eqb_spec md lm) as [Em|Em].
    { subst md.
      destruct (process_prog (aid old) s lm j A stk t old) as (st' & P1 & P2 & P3 & P4); auto.
      { apply (pop_base _ (s, lm)); auto. }
      exists st'. split; auto. split; auto. split; auto. destruct P4 as [P4|(P4 & P5)]; auto.
      right. exists lm. split; auto. split; auto. intros (y & Hy & E1 & E2 & E3).
      assert (y = old) by (apply (b_key _ _ HB); auto; congruence). subst y. contradiction. }
    pose proof (b_ids _ _ HB) as Hnd.
    assert (Hoid : In (aid old) (ids A)) by (apply in_map; auto).
    rewrite (delete_ok A (aid old) Hnd Hoid).
    set (A1 := filter (fun x => negb (aid x =? aid old)) A) in *.
    assert (HA1 : forall x, In x A1 <-> In x A /\ x <> old).
    { intros x. unfold A1. rewrite filter_In, negb_true_iff, Nat.eqb_neq. split; intros (H1 & H2).
      - split; auto. congruence.
      - split; auto. intros E. apply H2. apply (node_unique A); auto. }
    assert (Hnd1 : NoDup (ids A1)).
    { unfold A1, ids. clear - Hnd. induction A as [|x A IH]; simpl; [constructor|].
      inversion Hnd; subst. destruct (negb (aid x =? aid old)); simpl; auto. constructor; auto.
      intros H. apply H1. apply in_map_iff in H. destruct H as (y & E & Hy).
      apply filter_In in Hy. rewrite <- E. apply in_map. apply Hy. }
    assert (Hu1 : uniform n A1).
    { intros x Hx. apply HA1 in Hx. apply (b_wf _ _ HB x); apply Hx. }
    assert (Hfind : forall x, find_anode A1 (Z.of_nat md) s = Some x ->
              In x A /\ x <> old /\ astate x = s /\ amode x = Z.of_nat md).
    { intros x Hx. rewrite find_anode_find in Hx. apply find_some in Hx. destruct Hx as (H1 & H2).
      apply (matches_iff n A1) in H2; auto; [|apply Hs]. apply HA1 in H1. tauto. }
    assert (HrK : forall B z, (forall x, In x A1 -> In x B) -> leK A (replace_anode_trans B (aid old) (Some z))).
    { intros B z HBz s1 i1 (y & Hy & E1 & E2 & E3).
      exists (set_trans (replace_in (atrans y) (aid old) (Some z)) y). split.
      - unfold replace_anode_trans. apply in_map_iff. exists y. split; auto. apply HBz. apply HA1.
        split; auto. intros ->. contradiction.
      - simpl. split; auto. split; auto. rewrite replace_some. intros E. apply map_eq_nil in E. auto. }
    assert (HrW : forall B z, winv B -> winv (replace_anode_trans B (aid old) (Some z))).
    { intros B z HBz y Hy. unfold replace_anode_trans in Hy. apply in_map_iff in Hy.
      destruct Hy as (x & <- & Hx). simpl. auto. }
    assert (HwA1 : winv A1) by (intros x Hx; apply HA1 in Hx; apply Hwi; apply Hx).
    destruct (find_anode A1 (Z.of_nat md) s) as [new|] eqn:Enew.
    - destruct (Hfind new eq_refl) as (Hn1 & Hn2 & Hn3 & Hn4).
      destruct (merge_inv A s lm md stk old A1 new HI Ho Ho1 Ho2 Hnil Hb Hmd Hnd1)
        as (HB' & HO' & (z & Hz1 & Hz2 & Hz3 & Hz4 & Hz5) & HI'); auto.
      + apply HA1. auto.
      + intros x. rewrite HA1. split; [tauto|]. intros [H| ->]; auto.
      + intros x Hx E1 E2. apply (b_key _ _ HB); auto; congruence.
      + intros x Hx E1. left. apply (node_unique A); auto.
      + intros Hi. rewrite <- Hn3. apply (b_init _ _ HB); auto.
      + destruct (Nat.ltb_spec 0 (length (atrans new))) as [Htn|Htn].
        * eexists. split; [reflexivity|]. cbn [s_str s_stk]. split; [apply HrW; auto|].
          split; [apply HrK; auto|]. left. lia.
        * destruct (process_prog (aid new) s md j (replace_anode_trans A1 (aid old) (Some (aid new))) stk t z)
            as (st' & P1 & P2 & P3 & P4); auto.
          { destruct (atrans z); auto. simpl in Hz5. lia. }
          exists st'. split; auto. split; auto.
          split; [eapply leK_trans; [|exact P3]; apply HrK; auto|]. destruct P4 as [P4|(P4 & P5)]; auto.
          right. exists md. split; auto. split; auto. intros (y & Hy & E1 & E2 & E3).
          assert (y = new) by (apply (b_key _ _ HB); auto; congruence). subst y.
          destruct (atrans new); auto. simpl in Htn. lia.
    - assert (Hno : forall x, In x A -> astate x = s -> amode x = Z.of_nat md -> False).
      { intros x Hx E1 E2. assert (In x A1).
        { apply HA1. split; auto. intros ->. apply Em. lia. }
        rewrite find_anode_find in Enew. apply find_none with (x := x) in Enew; auto.
        assert (matches (Z.of_nat md) s x = true); [|congruence].
        apply (matches_iff n A1); auto. apply Hs. }
      set (a := alloc t A1) in *. pose proof (Halloc t A1) as Hfresh. fold a in Hfresh.
      set (z := Node a (ainit old) s (Z.of_nat md) (-1) []) in *.
      change (insert_anode A1 a (Z.of_nat md) (-1) (ainit old) s) with (z :: A1).
      assert (Ef : find_anode (z :: A1) (Z.of_nat md) s = Some z).
      { simpl. rewrite Z.eqb_refl, statecmp_refl. auto. }
      rewrite Ef.
      destruct (merge_inv A s lm md stk old (z :: A1) z HI Ho Ho1 Ho2 Hnil Hb Hmd)
        as (HB' & HO' & (z' & Hz1 & Hz2 & Hz3 & Hz4 & Hz5) & HI'); auto.
      + simpl. constructor; auto.
      + left. auto.
      + intros x. simpl. rewrite HA1. split; [intros [<-|H]; auto|]. intros [H| ->]; auto.
      + intros x Hx E1 E2. exfalso. apply (Hno x); auto.
      + intros x Hx E1. right. destruct (Nat.eq_dec (aid x) (aid old)) as [E|E].
        * apply (node_unique A); auto.
        * exfalso. apply Hfresh. change a with (aid z). rewrite <- E1. apply in_map. apply HA1.
          split; auto. congruence.
      + intros Hi. rewrite <- Ho1. apply (b_init _ _ HB); auto.
      + destruct (process_prog (aid z) s md j
                   (replace_anode_trans (z :: A1) (aid old) (Some (aid z))) stk (S t) z')
            as (st' & P1 & P2 & P3 & P4); auto.
        { destruct (atrans z'); auto. simpl in Hz5. lia. }
        { apply HrW. intros x [<-|Hx]; auto. }
        exists st'. split; auto. split; auto.
        split; [eapply leK_trans; [|exact P3]; apply HrK; intros; right; auto|].
        destruct P4 as [P4|(P4 & P5)]; auto.
        right. exists md. split; auto. split; auto. intros (y & Hy & E1 & E2 & E3).
        apply (Hno y); auto.
  Qed.

  Definition keys : list (vec * nat) := list_prod (all_vecs n) (seq 0 k).
  Definition hastb (A : aut) (p : vec * nat) : bool :=
    existsb (fun x => statecmp (astate x) (fst p) && (amode x =? Z.of_nat (snd p))%Z &&
                      negb (no_trans x)) A.
  Lemma hastb_spec : forall A stk s i, base A stk -> bitvec n s -> (hastb A (s, i) = true <-> hast A s i).
  Proof.
    intros A stk s i HB Hs. unfold hastb. rewrite existsb_exists. cbn [fst snd].
    assert (Hc : forall x, In x A -> (statecmp (astate x) s = true <-> astate x = s)).
    { intros x Hx. apply statecmp_eq. destruct (b_wf _ _ HB x Hx) as ((H & _) & _).
      rewrite H. symmetry. apply Hs. }
    split.
    - intros (x & Hx & E). rewrite !andb_true_iff, Z.eqb_eq, negb_true_iff in E.
      destruct E as ((E1 & E2) & E3). exists x. split; auto. split; [apply Hc; auto|]. split; auto.
      intros E. unfold no_trans in E3. rewrite E in E3. discriminate.
    - intros (x & Hx & E1 & E2 & E3). exists x. split; auto.
      rewrite !andb_true_iff, Z.eqb_eq, negb_true_iff. split; [split; auto; apply Hc; auto|].
      unfold no_trans. destruct (atrans x); auto. contradiction.
  Qed.
  Lemma main_loop_prog : forall fuel st, inv (s_str st) (s_stk st) -> winv (s_str st) ->
    (length keys - card keys (hastb (s_str st))) * S (2 ^ ne) + length (s_stk st) <= fuel ->
    exists A, main_loop ne ns orc alloc stW et L fuel ifuel st = Ok (Some A).
  Proof.
    induction fuel as [|fuel IH]; intros st HI Hwi Hm.
    - destruct st as [A [|p stk] t]; cbn [s_str s_stk s_clk length] in *; [simpl; eauto|rewrite Nat.add_succ_r in Hm; inversion Hm].
    - destruct st as [A [|[s lm] stk] t]; cbn [s_str s_stk s_clk] in *; [simpl; eauto|].
      cbn [main_loop s_stk s_str s_clk].
      destruct (iteration_prog s lm stk A t HI Hwi) as (st' & H1 & H2 & H3 & H4).
      destruct (inv_top _ _ _ _ HI) as (Hlm & Hs).
      assert (HI' : inv (s_str st') (s_stk st')) by (eapply iteration_inv; eauto).
      rewrite H1. cbn [bind]. apply IH; auto. clear IH.
      assert (Hle : leP keys (hastb A) (hastb (s_str st'))).
      { intros [s1 i1] Hk1 H. unfold keys in Hk1. apply in_prod_iff in Hk1. destruct Hk1 as (Hk1 & _).
        apply all_vecs_spec in Hk1. apply (hastb_spec _ _ _ _ (proj1 HI)) in H; auto.
        apply (hastb_spec _ _ _ _ (proj1 HI')); auto. }
      pose proof (card_bound keys (hastb (s_str st'))) as Hbd.
      simpl length in Hm. destruct H4 as [H4|(md & Hmd & H5 & H6 & H7)].
      + assert (card keys (hastb A) <= card keys (hastb (s_str st'))) by (apply card_le; auto).
        nia.
      + assert (card keys (hastb A) < card keys (hastb (s_str st'))).
        { apply (card_lt keys _ _ (s, md)); auto.
          - unfold keys. apply in_prod; [apply all_vecs_spec; auto|apply in_seq; lia].
          - destruct (hastb A (s, md)) eqn:E; auto. exfalso. apply H5.
            apply (hastb_spec _ _ _ _ (proj1 HI)); auto.
          - apply (hastb_spec _ _ _ _ (proj1 HI')); auto. }
        nia.
  Qed.
  End Progress.
End Inv.
