(** From the BDD level to sets: the strategy returned by synthesize satisfies the
    invariant of SynthInv.v, and what follows from it. *)
From Coq Require Import List ZArith Lia Bool Arith Wf_nat FinFun.
From Verif Require Import Base Fix Game GameTheory GameSound Levels Bdd BGame Support SupportProofs
  EnumProofs Ops OpsProofs SubProofs LevelProofs RealProofs Solve Automaton AutProofs AutProofs2
  Synth SynthSets SynthBdd SynthInv SynthInit.
Import ListNotations.
Open Scope nat_scope.

(** states from which the system can force [Wset] belong to it *)
Lemma EX_W : forall S E (G : game S E) (eqE : E -> E -> bool),
  (forall a b, eqE a b = true <-> a = b) -> 0 < ngoals G -> g_egoals G <> [] ->
  leP (g_states G) (EX G eqE (Wset G eqE)) (Wset G eqE).
Proof.
  intros S E G eqE Heq Hk Heg.
  pose proof (sub_eq_W G eqE Heq 0 Hk) as HE. set (Y := muY G eqE (Bw G eqE 0)) in *.
  destruct (g_egoals G) as [|eg l] eqn:Eg; [contradiction|].
  intros s Hs H. rewrite <- HE by auto.
  apply (nuX_in_muY G eqE Heq (Bw G eqE 0) eg); auto; [rewrite Eg; left; auto|]. fold Y.
  revert s Hs H. apply (nuX_coind G eqE Heq). intros s Hs H. unfold PhiB.
  assert (HEX : EX G eqE Y s = true).
  { apply (EX_mono G eqE Heq (Wset G eqE)); auto. apply eqP_leP. apply eqP_sym. exact HE. }
  rewrite HEX. rewrite orb_true_r. auto.
Qed.

  Lemma Forall2_in_r : forall P Q (R : P -> Q -> Prop) l l' y, Forall2 R l l' -> In y l' ->
    exists x, In x l /\ R x y.
  Proof.
    intros P Q R l l' y H. induction H as [|a b l l' Hab H IH]; intros Hy; [inversion Hy|].
    destruct Hy as [<-|Hy]; [exists a; split; [left|]; auto|]. destruct (IH Hy) as (x & Hx & Hr).
    exists x. split; [right|]; auto.
  Qed.
  Lemma Forall2_in_l : forall P Q (R : P -> Q -> Prop) l l' x, Forall2 R l l' -> In x l ->
    exists y, In y l' /\ R x y.
  Proof.
    intros P Q R l l' x H. induction H as [|a b l l' Hab H IH]; intros Hx; [inversion Hx|].
    destruct Hx as [<-|Hx]; [exists b; split; [left|]; auto|]. destruct (IH Hx) as (y & Hy & Hr).
    exists y. split; [right|]; auto.
  Qed.
Section Cert.
  Variables (ne ns : nat) (orc : oracle) (alloc : nat -> aut -> nat).
  Let n := ne + ns.
  Let m := 2 * (ne + ns).
  Hypothesis Horc : oracle_ok m orc.
  Hypothesis Halloc : forall t A, ~ In (alloc t A) (ids A).
  Variables (et st : dt) (egs sgs : list dt).
  Hypothesis Het : no_primed_sys ne ns et.
  Hypothesis Hegs : Forall (Good ne ns) egs.
  Hypothesis Hsgs : Forall (Good ne ns) sgs.
  Hypothesis Hsg0 : 0 < length sgs.
  Hypothesis Heg0 : 0 < length egs.
  Let G := bgame ne ns et st egs sgs.
  Notation Good := (Good ne ns).
  Notation den := (evS n).
  Notation z0 := (bZero m).
  Notation d0 := (@nil dt, @nil (list dt)).
  Notation states := (all_vecs n).
  Definition goal (i : nat) : vec -> bool := den (nth i sgs z0).
  Definition egoal (r : nat) : vec -> bool := den (nth r egs z0).
  Let neg := length egs.
  Let k := length sgs.

  Record glue (W : dt) (L : list levels_t) (K : nat -> nat) (Y : nat -> nat -> vec -> bool)
      (X : nat -> nat -> nat -> vec -> bool) : Prop := {
    gl_W : Good W;
    gl_win : eqP states (den W) (Wset G vec_eqb);
    gl_len : length L = k;
    gl_Ly : forall i, i < k -> length (fst (nth i L d0)) = K i;
    gl_Lx : forall i, i < k -> length (snd (nth i L d0)) = K i;
    gl_Y : forall i j, i < k -> j < K i -> Good (nth j (fst (nth i L d0)) z0) /\
      forall s, bitvec n s -> den (nth j (fst (nth i L d0)) z0) s = Lf (goal i) (den W) (Y i) j s;
    gl_X : forall i j, i < k -> j < K i -> length (nth j (snd (nth i L d0)) []) = neg /\
      forall r, r < neg -> Good (nth r (nth j (snd (nth i L d0)) []) z0) /\
        forall s, bitvec n s -> den (nth r (nth j (snd (nth i L d0)) []) z0) s = X i (S j) r s;
    gl_K : forall i, i < k -> 0 < K i;
    gl_lad : forall i, i < k -> is_ladder G (goal i) (den W) egoal neg (K i) (Y i) (X i)
  }.

  Lemma shift_all_nth : forall W l (ps : list (list dt * list (list dt))) L, shift_all ne ns W l ps = Ok L ->
    length L = length l /\
    forall i, i < length l -> exists y0 y1 Ys x0 Xs,
      nth i ps d0 = (y0 :: y1 :: Ys, x0 :: Xs) /\ nth i L d0 = (bAnd m (nth i l z0) W :: Ys, Xs).
  Proof.
    induction l as [|sg l IH]; intros ps L H; simpl in H.
    - injection H as <-. split; auto. simpl. intros; lia.
    - destruct ps as [|p ps]; [discriminate|]. apply bind_ok in H. destruct H as (q & Hq & H).
      apply bind_ok in H. destruct H as (qs & Hqs & H). injection H as <-.
      destruct (IH ps qs Hqs) as (H1 & H2). split; [simpl; lia|].
      intros [|i] Hi; [|simpl in Hi; simpl; apply H2; lia]. simpl.
      unfold shift_levels in Hq. destruct p as [[|y0 [|y1 Ys]] [|x0 Xs]]; try discriminate.
      injection Hq as <-. eauto 10.
  Qed.

  Lemma levels_glue : forall fuel0 fuel W R L,
    compute_winning_set_BDD ne ns et st fuel0 egs sgs = Ok W ->
    compute_sublevel_sets ne ns et st fuel W egs sgs = Ok (Some R) ->
    shift_all ne ns W sgs R = Ok L ->
    exists K Y X, glue W L K Y X.
  Proof.
    intros fuel0 fuel W R L HWc HR HL.
    destruct (winning_set_ok ne ns et st Het egs sgs Hegs Hsgs Hsg0
       (S (Nat.max fuel0 (length (domZ G) + length states)))) as (W' & HW' & HGW & HeW).
    { fold G. lia. } { fold n. lia. }
    pose proof (winning_set_mono ne ns et st fuel0
       (S (Nat.max fuel0 (length (domZ G) + length states))) egs sgs W ltac:(lia) HWc) as HW2.
    assert (W' = W) by congruence. subst W'.
    destruct (sub_goals_ok ne ns et st Het egs sgs Hegs (S (Nat.max fuel (length states))) W
                ltac:(fold n; lia) HGW sgs Hsgs) as (R' & HR' & HlR & HRi).
    pose proof (sublevel_mono ne ns et st fuel (S (Nat.max fuel (length states))) egs W sgs _
                    ltac:(lia) HR) as HR2.
    assert (R' = R).
    { unfold compute_sublevel_sets in HR2. rewrite HR' in HR2. cbn [bind] in HR2.
      destruct sgs; congruence. }
    subst R'. clear HR' HR2.
    destruct (shift_all_nth W sgs R L HL) as (HlL & Hnth).
    set (K := fun i => length (fst (nth i R d0)) - 1).
    exists K, (fun i j => den (nth j (fst (nth i R d0)) z0)),
      (fun i j r => den (nth r (nth j (snd (nth i R d0)) []) z0)).
    assert (Hall : forall i, i < k ->
      length (fst (nth i R d0)) = S (K i) /\ length (snd (nth i R d0)) = S (K i) /\
      (forall j, j <= K i -> Good (nth j (fst (nth i R d0)) z0)) /\
      (forall j, 1 <= j <= K i -> length (nth j (snd (nth i R d0)) []) = neg /\
           Forall Good (nth j (snd (nth i R d0)) [])) /\
      is_ladder G (goal i) (den W) egoal neg (K i) (fun j => den (nth j (fst (nth i R d0)) z0))
        (fun j r => den (nth r (nth j (snd (nth i R d0)) []) z0))).
    { intros i Hi. destruct (HRi i Hi) as (K1 & HL1 & HK1).
      assert (EK : K i = K1) by (unfold K; destruct HL1 as (-> & _); lia). rewrite EK.
      split; [apply HL1|]. split; [apply HL1|].
      split; [intros j Hj; apply HL1; auto|].
      split; [intros j Hj; destruct HL1 as (_ & _ & _ & _ & H & _); destruct (H j Hj) as (? & ? & _); auto|].
      apply (ladder_is ne ns et st egs sgs W i K1); auto. }
    constructor; auto.
    - intros i Hi. destruct (Hall i Hi) as (H1 & _).
      destruct (Hnth i Hi) as (y0 & y1 & Ys & x0 & Xs & E1 & E2). rewrite E1 in H1. rewrite E2.
      simpl in H1 |- *. lia.
    - intros i Hi. destruct (Hall i Hi) as (_ & H1 & _).
      destruct (Hnth i Hi) as (y0 & y1 & Ys & x0 & Xs & E1 & E2). rewrite E1 in H1. rewrite E2.
      simpl in H1 |- *. lia.
    - intros i j Hi Hj. destruct (Hall i Hi) as (H1 & _ & H2 & _).
      destruct (Hnth i Hi) as (y0 & y1 & Ys & x0 & Xs & E1 & E2). rewrite E1 in *. rewrite E2.
      assert (HGg : Good (nth i sgs z0)) by (rewrite Forall_forall in Hsgs; apply Hsgs; apply nth_In; auto).
      destruct j as [|j].
      + destruct (good_And ne ns _ _ HGg HGW) as (HG & HE). split; [exact HG|].
        intros s Hs. cbn [fst nth Lf]. unfold goal. apply (evS_And ne ns); auto.
      + split.
        * cbn [fst nth]. apply (H2 (S (S j))). lia.
        * intros s Hs. cbn [Lf]. rewrite ?E1. reflexivity.
    - intros i j Hi Hj. destruct (Hall i Hi) as (_ & H1 & _ & H2 & _).
      destruct (Hnth i Hi) as (y0 & y1 & Ys & x0 & Xs & E1 & E2). rewrite E2.
      destruct (H2 (S j)) as (H3 & H4); [lia|]. rewrite E1 in H3, H4. cbn [snd nth] in H3, H4 |- *.
      split; auto. intros r Hr. split.
      + rewrite Forall_forall in H4. apply H4. apply nth_In. lia.
      + intros s Hs. rewrite ?E1. reflexivity.
    - intros i Hi. destruct (Hall i Hi) as (H1 & _).
      destruct (Hnth i Hi) as (y0 & y1 & Ys & x0 & Xs & E1 & E2). rewrite E1 in H1. simpl in H1. lia.
    - intros i Hi. apply Hall. auto.
  Qed.

  (** *** the relations of the invariant *)
  Section WithGlue.
  Variables (W : dt) (L : list levels_t) (K : nat -> nat) (Y : nat -> nat -> vec -> bool)
    (X : nat -> nat -> nat -> vec -> bool).
  Hypothesis HG : glue W L K Y X.
  Let stW := bAnd m st (bSwap m n W).
  Definition gw (i : nat) (s : vec) : bool := goal i s && den W s.
  Definition sbump : vec -> nat -> nat -> Prop := bump L goal (den W).
  Definition lev (i : nat) (s : vec) (j : nat) : Prop := jspec (goal i) (den W) (K i) (Y i) s j.
  Definition sfin (i : nat) (s : vec) (j : nat) : Prop :=
    lev i s j /\ (j = 0 -> forall i', i' < k -> gw i' s = true).
  Definition spick (s : vec) (i j : nat) (e s' : vec) : Prop :=
    chosen G (goal i) (den W) neg (K i) (Y i) (X i) s j e s'.
  Definition smvs (s : vec) (mv : list vec) : Prop :=
    NoDup mv /\ Forall (bitvec ne) mv /\
    if 0 <? ne then forall e, In e mv <-> legal_env G s e else mv = [[]].

  Lemma kL : length L = k. Proof. apply HG. Qed.
  Lemma sbump_refl : forall s i, sbump s i i. Proof. exact (bump_refl ne ns L goal (den W)). Qed.
  Lemma sbump_trans : forall s a b c, sbump s a b -> sbump s b c -> sbump s a c.
  Proof. exact (bump_trans ne ns L goal (den W)). Qed.
  Lemma HstW : forall s s', bitvec n s -> bitvec n s' -> ev stW (s ++ s') = ev st (s ++ s') && den W s'.
  Proof.
    intros s s' Hs Hs'. unfold stW. rewrite ev_And by (apply bm; auto).
    f_equal. rewrite ev_Swap by (apply bm; auto).
    rewrite skipn_len, firstn_len by apply Hs. apply (evS_any ne ns); auto. apply HG.
  Qed.
  Lemma HLy' : forall i, i < length L -> length (fst (nth i L d0)) = K i.
  Proof. rewrite kL. apply (gl_Ly _ _ _ _ _ HG). Qed.
  Lemma HLx' : forall i, i < length L -> length (snd (nth i L d0)) = K i.
  Proof. rewrite kL. apply (gl_Lx _ _ _ _ _ HG). Qed.
  Lemma HY' : forall i j, i < length L -> j < K i -> Good (nth j (fst (nth i L d0)) z0) /\
      forall s, bitvec n s -> den (nth j (fst (nth i L d0)) z0) s = Lf (goal i) (den W) (Y i) j s.
  Proof. rewrite kL. apply (gl_Y _ _ _ _ _ HG). Qed.
  Lemma HX' : forall i j, i < length L -> j < K i -> length (nth j (snd (nth i L d0)) []) = neg /\
      forall r, r < neg -> Good (nth r (nth j (snd (nth i L d0)) []) z0) /\
        forall s, bitvec n s -> den (nth r (nth j (snd (nth i L d0)) []) z0) s = X i (S j) r s.
  Proof. rewrite kL. apply (gl_X _ _ _ _ _ HG). Qed.
  Lemma HK' : forall i, i < length L -> 0 < K i.
  Proof. rewrite kL. apply (gl_K _ _ _ _ _ HG). Qed.

  Lemma s_search : forall fuel lm s, lm < k -> bitvec n s ->
    (forall md j, mode_search ne ns fuel L lm lm s = Ok (md, j) ->
       sbump s lm md /\ md < k /\ sfin md s j) /\
    (k <= fuel -> exists p, mode_search ne ns fuel L lm lm s = Ok p).
  Proof.
    intros fuel lm s Hlm Hs.
    assert (HlL : lm < length L) by (rewrite kL; auto).
    destruct (mode_search_ok ne ns L goal (den W) K Y HLy' HY' HK' fuel lm s HlL Hs) as (H1 & H2).
    rewrite kL in H2. split; auto. intros md j H. destruct (H1 md j H) as (Hb & Hj & H0).
    split; [exact Hb|]. split.
    - rewrite <- kL. apply (bump_lt L goal (den W) s lm); auto.
    - split; auto. intros E i Hi. apply (proj2 (H0 E) i). rewrite kL. auto.
  Qed.
  Lemma choose_cases : forall i s j e t, i < k -> bitvec n s -> bitvec ne e -> lev i s j ->
    (exists c t', choose ne ns orc stW t (nth i L d0) j s e = Ok (Some c, t') /\
       spick s i j e (next_state ne ns c e)) \/
    ((forall c t', choose ne ns orc stW t (nth i L d0) j s e <> Ok (Some c, t')) /\
     ~ choosable ne ns et st egs sgs goal (den W) neg K Y X i s j e).
  Proof.
    intros i s j e t Hi Hs He Hj. assert (HiL : i < length L) by (rewrite kL; auto).
    exact (choose_ok ne ns orc Horc et st stW egs sgs L goal (den W) neg K Y X HLy' HLx' HY' HX' HK'
                 HstW i s j e t HiL Hs He Hj).
  Qed.
  Lemma spick_base : forall s i j e s', spick s i j e s' ->
    bitvec n s' /\ firstn ne s' = e /\ ev st (s ++ s') = true /\ den W s' = true.
  Proof.
    intros s i j e s' H. apply chosen_base in H. destruct H as ((H1 & H2 & H3) & H4).
    split; [apply all_vecs_spec; auto|]. auto.
  Qed.
  Lemma s_choose : forall i s j e t c t', i < k -> bitvec n s -> bitvec ne e -> sfin i s j ->
    choose ne ns orc stW t (nth i L d0) j s e = Ok (Some c, t') ->
    spick s i j e (next_state ne ns c e) /\ bitvec n (next_state ne ns c e).
  Proof.
    intros i s j e t c t' Hi Hs He (Hj & _) H.
    destruct (choose_cases i s j e t Hi Hs He Hj) as [(c1 & t1 & H1 & H2)|(H1 & _)].
    - rewrite H in H1. injection H1 as <- <-. split; auto. apply (spick_base _ _ _ _ _ H2).
    - exfalso. apply (H1 c t'). auto.
  Qed.
  Lemma s_eval : forall i s f, i < k -> bitvec n s ->
    nth_error (fst (nth i L d0)) 0 = Some f -> eval_at ne ns f s = gw i s.
  Proof.
    intros i s f Hi Hs H.
    rewrite (eval_at_den ne ns) by auto.
    apply nth_error_nth with (d := z0) in H. rewrite <- H.
    destruct (gl_Y _ _ _ _ _ HG i 0 Hi (gl_K _ _ _ _ _ HG i Hi)) as (_ & HE). apply (HE s Hs).
  Qed.
  Lemma et_any : forall s e w, bitvec n s -> bitvec ne e -> bitvec ns w ->
    ev et (s ++ e ++ w) = g_etr G s e.
  Proof. intros. apply Het; auto using bitvec_zeros. Qed.
  Lemma s_moves : 0 < ne -> forall fuel t s mv, bitvec n s ->
    get_env_moves fuel (orc t) (cube0 ne ns) s et ne ns = Ok mv -> smvs s mv.
  Proof.
    intros Hne fuel t s mv Hs H.
    destruct (get_env_moves_any fuel (orc t) (cube0 ne ns) s et ne ns mv) as (Hnd & Hin); auto.
    { apply cube0_length. }
    assert (Hb : Forall (bitvec ne) mv) by (apply Forall_forall; intros e He; apply Hin in He; apply He).
    split; auto. split; auto.
    replace (0 <? ne) with true by (symmetry; apply Nat.ltb_lt; auto).
    intros e. rewrite Hin. unfold legal_env. simpl. rewrite all_vecs_spec. split.
    - intros (He & w & Hw & E). rewrite et_any in E by auto. auto.
    - intros (He & E). split; auto. exists (zeros ns). split; [apply bitvec_zeros|]. exact E.
  Qed.
  Lemma s_moves0 : ne = 0 -> forall s, bitvec n s -> smvs s [[]].
  Proof.
    intros E s Hs. split; [repeat constructor; intros []|].
    split; [rewrite E; repeat constructor|]. replace (0 <? ne) with false; auto. rewrite E. auto.
  Qed.

  Definition sinv (ss : list vec) (A : aut) (stk : list (vec * nat)) : Prop :=
    inv ne ns L gw sbump sfin spick smvs ss A stk.

  Lemma initial_inv : forall ss t A t', NoDup ss -> Forall (bitvec n) ss ->
    insert_initial alloc (map (fun s => (s, 0)) ss) [] t = (A, t') ->
    sinv ss A (map (fun s => (s, 0)) ss).
  Proof.
    intros ss t A t' Hnd Hb H.
    destruct (insert_initial_ok alloc Halloc ss [] t A t') as (H1 & H2 & H3); auto; [constructor|].
    simpl in H3. rewrite app_nil_r in H3. rewrite Forall_forall in H2, Hb.
    assert (Hin : forall s, In s ss <-> exists x, In x A /\ astate x = s).
    { intros s. rewrite (in_rev ss). rewrite <- H3. rewrite in_map_iff.
      split; intros (x & ? & ?); eauto. }
    assert (Hinj : forall x y, In x A -> In y A -> astate x = astate y -> x = y).
    { assert (Hm : NoDup (map astate A)) by (rewrite H3; apply NoDup_rev; auto).
      clear - Hm. induction A as [|a A IH]; intros x y Hx Hy E; [inversion Hx|].
      simpl in Hm. inversion Hm; subst.
      destruct Hx as [<-|Hx], Hy as [<-|Hy]; auto.
      - exfalso. apply H1. rewrite E. apply in_map. auto.
      - exfalso. apply H1. rewrite <- E. apply in_map. auto. }
    split.
    - constructor; auto.
      + intros x Hx. split; [apply Hb; apply Hin; eauto|]. exists 0. split; [rewrite kL; exact Hsg0|].
        apply (H2 x Hx).
      + apply FinFun.Injective_map_NoDup; auto. intros a b E. congruence.
      + intros s i Hi. apply in_map_iff in Hi. destruct Hi as (s1 & E & Hs). injection E as <- <-.
        split; [rewrite kL; exact Hsg0|]. apply Hin in Hs. destruct Hs as (x & Hx & Ex). exists x.
        split; auto. split; auto. apply (H2 x Hx).
      + intros x Hx _. apply Hin. eauto.
      + intros s Hs. apply Hin in Hs. destruct Hs as (x & Hx & Ex). exists x, 0. split; auto.
        split; auto. split; [apply (H2 x Hx)|]. apply sbump_refl.
    - intros x Hx. right. split; [apply (H2 x Hx)|]. exists 0. split; [apply (H2 x Hx)|].
      apply in_map_iff. exists (astate x). split; auto. apply Hin. eauto.
  Qed.
  Lemma sinv_loop : forall ss ifuel fuel sst A, sinv ss (s_str sst) (s_stk sst) ->
    main_loop ne ns orc alloc stW et L fuel ifuel sst = Ok (Some A) -> sinv ss A [].
  Proof.
    intros ss ifuel fuel sst A HI H.
    refine (main_loop_inv ne ns orc alloc Halloc stW et L gw sbump sfin spick smvs
      sbump_refl sbump_trans _ _ _ s_moves s_moves0 _ ss ifuel fuel sst A HI H).
    - intros f lm s md j Hlm Hs. rewrite kL in *. apply (s_search f lm s Hlm Hs).
    - intros i s j e t c t' Hi. rewrite kL in Hi. apply s_choose; auto.
    - intros i s f Hi. rewrite kL in Hi. apply s_eval; auto.
    - intros s mv (_ & Hb & _). auto.
  Qed.
  (** a predicate that holds in the states of [ss], and that the chosen moves
      preserve, holds in all states of [A] *)
  Definition grown (ss : list vec) (A : aut) : Prop := forall C : vec -> Prop,
    (forall s, In s ss -> C s) ->
    (forall s i j e s' mv, C s -> bitvec n s -> smvs s mv -> In e mv -> spick s i j e s' -> C s') ->
    forall x, In x A -> C (astate x).
  Lemma grown_loop : forall ss ifuel fuel sst A, sinv ss (s_str sst) (s_stk sst) ->
    (forall x, In x (s_str sst) -> In (astate x) ss) ->
    main_loop ne ns orc alloc stW et L fuel ifuel sst = Ok (Some A) -> grown ss A.
  Proof.
    intros ss ifuel fuel sst A HI H0 H C HC Hcl.
    refine (main_loop_cinv ne ns orc alloc Halloc stW et L gw sbump sfin spick smvs
      sbump_refl sbump_trans _ _ _ s_moves s_moves0 _ ss C _ ifuel fuel sst A HI _ H).
    - intros f lm s md j Hlm Hs. rewrite kL in *. apply (s_search f lm s Hlm Hs).
    - intros i s j e t c t' Hi. rewrite kL in Hi. apply s_choose; auto.
    - intros i s f Hi. rewrite kL in Hi. apply s_eval; auto.
    - intros s mv (_ & Hb & _). auto.
    - exact Hcl.
    - intros x Hx. apply HC. apply H0. auto.
  Qed.
  End WithGlue.

  (** *** the invariant holds of the returned strategy *)
  Lemma synth_cert : forall fuel flags sg einit sinit A, Good einit -> Good sinit ->
    synthesize_BDD ne ns orc alloc fuel flags sg einit sinit et st egs sgs = Ok A ->
    A = [] \/ exists W L K Y X ss, glue W L K Y X /\ stack_ok ne ns einit sinit W flags sg ss /\
       sinv W L K Y X ss A [] /\ grown W K Y X ss A.
  Proof.
    intros fuel flags sg einit sinit A Hei Hsi H. unfold synthesize_BDD in H. fold n in H.
    change (2 * n) with m in H.
    apply bind_ok in H. destruct H as (W & HW & H). apply bind_ok in H. destruct H as (o & Ho & H).
    destruct o as [R|]; [|left; congruence].
    apply bind_ok in H. destruct H as (L & HL & H).
    destruct (levels_glue fuel fuel W R L HW Ho HL) as (K & Y & X & HG).
    apply bind_ok in H. destruct H as ((o & t) & Hi & H). destruct o as [ss|]; [|left; congruence].
    destruct (insert_initial alloc (map (fun s => (s, 0)) ss) [] t) as (A0 & t0) eqn:E0.
    apply bind_ok in H. destruct H as (r & Hr & H). destruct r as [A1|]; [|left; congruence].
    injection H as ->. right.
    destruct (stack_any ne ns orc Horc einit sinit W (gl_W _ _ _ _ _ HG) Hei Hsi _ _ _ _ _ Hi)
      as (Hnd & Hb & Hst).
    exists W, L, K, Y, X, ss. split; auto. split; auto.
    pose proof (initial_inv W L K Y X HG ss t A0 t0 Hnd Hb E0) as HI0. split.
    - eapply sinv_loop; eauto. exact HI0.
    - eapply grown_loop; eauto; [exact HI0|]. simpl. intros x Hx.
      destruct (insert_initial_ok alloc Halloc ss [] t A0 t0) as (_ & _ & H3); auto; [constructor|].
      simpl in H3. rewrite app_nil_r in H3. apply (in_rev ss). rewrite <- H3. apply in_map. auto.
  Qed.

  (** *** consequences *)
  Section Consequences.
  Variables (W : dt) (L : list levels_t) (K : nat -> nat) (Y : nat -> nat -> vec -> bool)
    (X : nat -> nat -> nat -> vec -> bool) (ss : list vec) (A : aut).
  Hypothesis HG : glue W L K Y X.
  Hypothesis HI : sinv W L K Y X ss A [].
  Notation step := (step_ok L (gw W) (sbump W L) (sfin W K Y) (spick W K Y X)).
  Let HB : base ne ns L (sbump W L) ss A [] := proj1 HI.

  Lemma c_ids : NoDup (ids A). Proof. apply HB. Qed.
  Lemma c_wf : forall x, In x A -> bitvec n (astate x) /\ exists i, i < k /\ amode x = Z.of_nat i.
  Proof. intros x Hx. destruct (b_wf _ _ _ _ _ _ _ HB x Hx) as (H1 & i & H2 & H3). rewrite (kL _ _ _ _ _ HG) in H2. eauto. Qed.
  Lemma c_key : forall x y, In x A -> In y A -> astate x = astate y -> amode x = amode y -> x = y.
  Proof. apply HB. Qed.
  (** the transitions of a node, in the order of the environment moves *)
  Lemma c_node : forall x, In x A -> exists i j mv, i < k /\ amode x = Z.of_nat i /\
    argrad x = Z.of_nat j /\ sfin W K Y i (astate x) j /\ smvs (astate x) mv /\
    Forall2 (fun e t => exists y i', In y A /\ aid y = t /\ amode y = Z.of_nat i' /\
                step (astate x) i e (astate y) i') mv (atrans x).
  Proof.
    intros x Hx. destruct (proj2 HI x Hx) as [(mv & Hm & (i & j & Hi & Hj & Hf & Hall))|Hp].
    - exists i, j, mv. destruct (c_wf x Hx) as (_ & i' & Hi' & E). assert (i = i') by lia. subst i'.
      auto 10.
    - exfalso. destruct Hp as (_ & i & _ & []).
  Qed.
  Lemma c_closed : closed A.
  Proof.
    intros x t Hx Ht. destruct (c_node x Hx) as (i & j & mv & _ & _ & _ & _ & _ & Hall).
    destruct (Forall2_in_r _ _ _ _ _ _ Hall Ht) as (e & _ & (y & _ & Hy & <- & _)).
    apply in_map. auto.
  Qed.
  Lemma c_edge : forall a b, edge A a b -> exists x y i i', In x A /\ aid x = a /\ In y A /\ aid y = b /\
    i < k /\ i' < k /\ amode x = Z.of_nat i /\ amode y = Z.of_nat i' /\
    step (astate x) i (firstn ne (astate y)) (astate y) i' /\
    (0 < ne -> legal_env G (astate x) (firstn ne (astate y))).
  Proof.
    intros a b (x & Hx & Ha & Hb).
    destruct (c_node x Hx) as (i & j & mv & Hi & Hm & _ & _ & (Hnd & Hbv & Hmv) & Hall).
    destruct (Forall2_in_r _ _ _ _ _ _ Hall Hb) as (e & He & (y & i' & Hy & Hid & Hmy & Hst)).
    destruct Hst as (j1 & Hf & Hp & Hbm).
    destruct (spick_base _ _ _ _ _ _ _ _ _ Hp) as (H1 & H2 & H3 & H4).
    destruct (c_wf y Hy) as (_ & i2 & Hi2 & E2). assert (i2 = i') by lia. subst i2.
    exists x, y, i, i'. rewrite H2. do 8 (split; [auto|]). split; [exists j1; auto|].
    intros Hne. replace (0 <? ne) with true in Hmv by (symmetry; apply Nat.ltb_lt; auto).
    apply Hmv; auto.
  Qed.

  (** every node is winning *)
  Lemma c_W : forall x, In x A -> den W (astate x) = true.
  Proof.
    intros x Hx. destruct (c_wf x Hx) as (Hbx & _).
    destruct (c_node x Hx) as (i & j & mv & Hi & Hm & _ & _ & (Hnd & Hbv & Hmv) & Hall).
    assert (Hs : In (astate x) states) by (apply all_vecs_spec; auto).
    rewrite (gl_win _ _ _ _ _ HG) by auto.
    apply (EX_W _ _ G vec_eqb vec_eqb_eq); auto.
    { unfold ngoals. simpl. rewrite map_length. auto. }
    { simpl. intros E. apply (f_equal (@length _)) in E. rewrite map_length in E. simpl in E. lia. }
    apply (EX_spec G vec_eqb vec_eqb_eq). intros e He.
    assert (Hin : In e mv).
    { destruct (Nat.ltb_spec 0 ne) as [Hne|Hne].
      - apply Hmv. auto.
      - subst mv. left. destruct He as (He & _). apply all_vecs_spec in He. destruct He as (Hl & _).
        destruct e; auto. simpl in Hl. lia. }
    destruct (Forall2_in_l _ _ _ _ _ _ Hall Hin) as (t & Ht & (y & i' & Hy & Hid & Hmy & (j1 & _ & Hp & _))).
    destruct (chosen_base _ _ _ _ _ _ _ _ _ _ _ Hp) as (Hl & HW). exists (astate y). split; auto.
    rewrite <- (gl_win _ _ _ _ _ HG); auto. apply Hl.
  Qed.

  (** *** modes along a transition *)
  Lemma step_mode : forall s i e s' i', i < k -> step s i e s' i' ->
    exists c, i' = iter c (nx k) i /\ (forall d, d < c -> gw W (iter d (nx k) i) s' = true) /\
      (0 < c <-> gw W i s' = true).
  Proof.
    intros s i e s' i' Hi (j & _ & _ & (c & Hc & Hg)). unfold nextmode in *.
    rewrite (kL _ _ _ _ _ HG) in *. change (SynthBdd.g0 goal (den W)) with (gw W) in *.
    destruct (gw W i s') eqn:E.
    - exists (S c). split; [|split].
      + rewrite Hc. replace (S c) with (c + 1) by lia. rewrite iter_add. auto.
      + intros d Hd. destruct d as [|d]; auto.
        replace (S d) with (d + 1) by lia. rewrite iter_add. apply Hg. lia.
      + split; auto. lia.
    - destruct c as [|c].
      + exists 0. split; auto. split; [intros; lia|]. split; [lia|discriminate].
      + exfalso. specialize (Hg 0 ltac:(lia)). simpl in Hg. change (gw W i s' = true) in Hg. congruence.
  Qed.

  (** *** infinite paths *)
  Lemma live : forall (s : nat -> vec) (md : nat -> nat),
    (forall t, In (s t) states /\ den W (s t) = true /\ md t < k) ->
    (forall t, legal_env G (s t) (firstn ne (s (S t)))) ->
    (forall t, step (s t) (md t) (firstn ne (s (S t))) (s (S t)) (md (S t))) ->
    (forall r, r < neg -> forall t, exists t', t <= t' /\ egoal r (s t') = true) ->
    forall q, q < k -> forall t, exists t', t <= t' /\ goal q (s t') = true.
  Proof.
    intros s md Hs Hle Hst Heg q Hq.
    set (Ev := fun t => (forall i, i < k -> gw W i (s t) = true) \/ gw W (md t) (s (S t)) = true).
    assert (Hsame : forall t, ~ gw W (md t) (s (S t)) = true -> md (S t) = md t).
    { intros t Hn. destruct (step_mode _ _ _ _ _ (proj2 (proj2 (Hs t))) (Hst t)) as (c & Hc & _ & Hz).
      destruct c; auto. exfalso. apply Hn. apply Hz. lia. }
    assert (Hprog : forall t, exists t', t <= t' /\ Ev t' /\ forall u, t <= u < t' -> md (S u) = md u).
    { apply (rank_progress Ev (fun t => md (S t) = md t)
        (fun t => rJ (K (md t)) (Y (md t)) (s t))
        (fun t => rR neg (K (md t)) (Y (md t)) (X (md t)) (s t))
        (fun r t => egoal r (s t)) neg); auto.
      - intros t. destruct (Hs t) as (H1 & H2 & H3).
        apply (rR_spec G (goal (md t)) (den W) egoal neg (K (md t)) (Y (md t)) (X (md t)));
          auto; apply (gl_lad _ _ _ _ _ HG) || apply (gl_K _ _ _ _ _ HG); auto.
      - intros t. destruct (Hs t) as (H1 & H2 & H3). destruct (Hs (S t)) as (H4 & H5 & H6).
        destruct (Hst t) as (j & (Hj & Hj0) & Hp & _).
        destruct (chosen_lower G (goal (md t)) (den W) egoal neg (K (md t)) (Y (md t)) (X (md t))
          (gl_lad _ _ _ _ _ HG _ H3) (gl_K _ _ _ _ _ HG _ H3) (s t) j _ (s (S t)) H1 H2 (Hle t) Hj Hp)
          as [(E & _)|[Hg|Hlow]].
        + left. left. auto.
        + left. right. unfold gw. rewrite Hg, H5. auto.
        + destruct (gw W (md t) (s (S t))) eqn:Eg; [left; right; auto|].
          right. rewrite (Hsame t) by congruence. split; auto. }
    assert (Hconst : forall t t', t <= t' -> (forall u, t <= u < t' -> md (S u) = md u) -> md t' = md t).
    { intros t t' Hle'. induction Hle'; intros Hu; auto.
      rewrite Hu by lia. apply IHHle'. intros; apply Hu; lia. }
    assert (Main : forall d t, iter d (nx k) (md t) = q -> exists t', t <= t' /\ goal q (s t') = true).
    { induction d as [d IH] using lt_wf_ind. intros t Hd.
      destruct (Hprog t) as (t1 & Ht1 & HE & Hu). pose proof (Hconst t t1 Ht1 Hu) as Hm.
      destruct HE as [Hall|Hg].
      - exists t1. split; auto. specialize (Hall q Hq). apply andb_true_iff in Hall. apply Hall.
      - destruct (step_mode _ _ _ _ _ (proj2 (proj2 (Hs t1))) (Hst t1)) as (c & Hc & Hgs & Hz).
        apply Hz in Hg. rewrite Hm in Hc, Hgs.
        destruct (le_lt_dec c d) as [Hcd|Hcd].
        + destruct (IH (d - c) ltac:(lia) (S t1)) as (t' & H1 & H2).
          { rewrite Hc, <- iter_add. replace (d - c + c) with d by lia. auto. }
          exists t'. split; auto. lia.
        + exists (S t1). split; [lia|]. specialize (Hgs d Hcd). rewrite Hd in Hgs.
          apply andb_true_iff in Hgs. apply Hgs. }
    intros t. apply (Main ((q + k - md t) mod k)).
    destruct (Hs t) as (_ & _ & Hm).
    rewrite iter_nx by auto. rewrite Nat.add_mod_idemp_r by lia.
    replace (md t + (q + k - md t)) with (q + 1 * k) by lia.
    rewrite Nat.mod_add by lia. apply Nat.mod_small. auto.
  Qed.

  (** *** the reach annotation *)
  Lemma rgrad_step : forall x y i i' j j', In x A -> In y A -> i < k ->
    amode x = Z.of_nat i -> amode y = Z.of_nat i -> i' = i ->
    argrad x = Z.of_nat j -> argrad y = Z.of_nat j' -> 0 < j ->
    step (astate x) i (firstn ne (astate y)) (astate y) i' -> j' <= j.
  Proof.
    intros x y i i' j j' Hx Hy Hi Hmx Hmy -> Hjx Hjy Hj Hst.
    destruct (c_node x Hx) as (i1 & j1 & mv1 & _ & E1 & E2 & (Hf1 & _) & _).
    destruct (c_node y Hy) as (i2 & j2 & mv2 & _ & E3 & E4 & (Hf2 & Hf0) & _).
    assert (i1 = i) by lia. assert (j1 = j) by lia. assert (i2 = i) by lia. assert (j2 = j') by lia.
    subst i1 j1 i2 j2. destruct Hst as (j3 & (Hl3 & _) & Hp & _).
    assert (j3 = j).
    { exact (jspec_fun (goal i) (den W) (K i) (Y i) (gl_K _ _ _ _ _ HG i Hi) (astate x) j3 j Hl3 Hf1). }
    subst j3.
    apply (chosen_j G (goal i) (den W) egoal neg (K i) (Y i) (X i) (gl_lad _ _ _ _ _ HG i Hi)
             (gl_K _ _ _ _ _ HG i Hi) (astate x) j (firstn ne (astate y)) (astate y) j'); auto.
    split; auto. apply Hf1.
  Qed.

  (** *** initial nodes *)
  Lemma c_init : forall x, In x A -> ainit x = true -> In (astate x) ss.
  Proof. apply HB. Qed.
  Lemma c_cover : forall s, In s ss -> exists x c, In x A /\ astate x = s /\
    amode x = Z.of_nat (c mod k) /\ forall d, d < c -> goal (d mod k) s = true.
  Proof.
    intros s Hs. destruct (b_cover _ _ _ _ _ _ _ HB s Hs) as (x & i & Hx & E1 & E2 & (c & Ec & Hg)).
    rewrite (kL _ _ _ _ _ HG) in *. exists x, c. split; auto. split; auto.
    rewrite iter_nx in Ec by auto. simpl in Ec. split; [congruence|].
    intros d Hd. specialize (Hg d Hd). rewrite iter_nx in Hg by auto. simpl in Hg.
    unfold SynthBdd.g0 in Hg. apply andb_true_iff in Hg. apply Hg.
  Qed.
  End Consequences.
End Cert.
