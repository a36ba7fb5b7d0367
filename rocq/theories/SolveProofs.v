(** Proofs about compute_winning_set and check_realizable on specifications. *)
From Coq Require Import List ZArith Lia Bool Arith String.
From Verif Require Import Base Fix Game GameTheory GameComplete Bdd BGame Support SupportProofs
  EnumProofs Ops OpsProofs SubProofs Strs Ptree Form PtreeProofs Solve FSpec.
Import ListNotations.
Open Scope string_scope.
Open Scope list_scope.
Open Scope nat_scope.

(** ** Games that agree on their states have the same winner *)
Lemma prefix_cons' : forall S (p : nat -> S) t, exists l, prefix p t = p t :: l.
Proof. destruct t; simpl; eauto. Qed.
Section Ext.
  Context {S E : Type}.
  Variables G G' : game S E.
  Hypothesis Hst : g_states G' = g_states G.
  Hypothesis Hen : g_envs G' = g_envs G.
  Hypothesis Hev : forall s, In s (g_states G) -> g_env G' s = g_env G s.
  Hypothesis Het : forall s e, In s (g_states G) -> In e (g_envs G) -> g_etr G' s e = g_etr G s e.
  Hypothesis Hsr : forall s s', In s (g_states G) -> In s' (g_states G) ->
    g_str G' s s' = g_str G s s'.
  Hypothesis Hgr : forall p, (forall t, In (p t) (g_states G)) -> gr1 G p -> gr1 G' p.

  Lemma legal_env_ext : forall s e, In s (g_states G) -> (legal_env G' s e <-> legal_env G s e).
  Proof.
    intros s e Hs. unfold legal_env. rewrite Hen. split; intros [H1 H2]; split; auto.
    - rewrite <- Het; auto.
    - rewrite Het; auto.
  Qed.
  Lemma legal_sys_ext : forall s e s', In s (g_states G) ->
    (legal_sys G' s e s' <-> legal_sys G s e s').
  Proof.
    intros s e s' Hs. unfold legal_sys. rewrite Hst. split; intros (H1 & H2 & H3);
      (split; [auto|]); split.
    - rewrite <- Hev; auto.
    - rewrite <- Hsr; auto.
    - rewrite Hev; auto.
    - rewrite Hsr; auto.
  Qed.

  Lemma sys_wins_ext1 : forall s0, In s0 (g_states G) -> sys_wins G s0 -> sys_wins G' s0.
  Proof.
    intros s0 Hs0 (sg & Hl & Hp). exists sg.
    assert (Hh : forall h, hist G' sg s0 h -> hist G sg s0 h /\
              forall s h', h = s :: h' -> In s (g_states G)).
    { intros h Hh. induction Hh as [|s h e Hh [IH1 IH2] He].
      - split; [constructor|]. intros s h' Heq. inversion Heq; subst; auto.
      - specialize (IH2 s h eq_refl). apply legal_env_ext in He; auto.
        pose proof (Hl s h e IH1 He) as HL.
        split; [constructor; auto|]. intros s1 h1 Heq. inversion Heq; subst. apply HL. }
    split.
    - intros s h e Hhist He. destruct (Hh _ Hhist) as [H1 H2]. specialize (H2 s h eq_refl).
      apply legal_sys_ext; auto. apply Hl; auto. apply legal_env_ext; auto.
    - intros p Hpl. assert (Hin : forall t, In (p t) (g_states G)).
      { intros t. destruct (prefix_cons' S p t) as (l & Hpl').
        destruct (Hh (prefix p t)) as [_ H2]; [|eapply H2; eauto].
        clear - Hpl. destruct Hpl as [H0 Hp]. induction t; simpl.
        - rewrite H0. constructor.
        - destruct (Hp t) as (e & He & Heq). rewrite Heq.
          destruct (prefix_cons' S p t) as (l & Hl). rewrite Hl in *. constructor; auto. }
      apply Hgr; auto. apply Hp. destruct Hpl as [H0 Hpl]. split; auto.
      intros t. destruct (Hpl t) as (e & He & Heq). exists e. split; auto.
      apply legal_env_ext; auto.
  Qed.
End Ext.

(** ** Vectors over domains *)
Lemma dvecs_bool : forall ds, (forall d, In d ds -> d = (-1)%Z) -> dvecs ds = all_vecs (List.length ds).
Proof.
  induction ds as [|d ds IH]; intros H; auto.
  rewrite (H d) by (left; auto). simpl. rewrite app_nil_r, IH by (intros; apply H; right; auto).
  reflexivity.
Qed.

Lemma link_vlist : forall a b, link (vlist a) (vlist b) = vlist (a ++ b).
Proof. induction a as [|[x d] a IH]; intros b; simpl; auto. rewrite IH. reflexivity. Qed.

Lemma sem_ext : forall f c c' n n', (forall x, In x (fvars f) -> c x = c' x) ->
  (forall x, In x (fnexts f) -> n x = n' x) -> sem c n f = sem c' n' f.
Proof.
  induction f; intros c c' n n' Hc Hn; simpl in *; auto.
  - rewrite Hc; auto.
  - rewrite Hn; auto.
  - destruct primed; [rewrite Hn|rewrite Hc]; simpl; auto.
  - rewrite (IHf c c' n n'); auto.
  - rewrite (IHf1 c c' n n'), (IHf2 c c' n n'); auto; intros; (apply Hc || apply Hn); apply in_or_app; auto.
  - rewrite (IHf1 c c' n n'), (IHf2 c c' n n'); auto; intros; (apply Hc || apply Hn); apply in_or_app; auto.
  - rewrite (IHf1 c c' n n'), (IHf2 c c' n n'); auto; intros; (apply Hc || apply Hn); apply in_or_app; auto.
  - rewrite (IHf1 c c' n n'), (IHf2 c c' n n'); auto; intros; (apply Hc || apply Hn); apply in_or_app; auto.
Qed.

Lemma lookup_app_l : forall xs ys (s t : vec) x, List.length s = List.length xs -> In x xs ->
  lookup (xs ++ ys) (s ++ t) x = lookup xs s x.
Proof.
  induction xs as [|y xs IH]; intros ys s t x Hl Hx; [destruct Hx|].
  destruct s as [|b s]; [discriminate|]. simpl in *.
  destruct (String.eqb_spec y x); auto. destruct Hx as [->|Hx]; [congruence|]. apply IH; auto.
Qed.
Lemma lookup_app_r : forall xs ys (s t : vec) x, List.length s = List.length xs -> ~ In x xs ->
  lookup (xs ++ ys) (s ++ t) x = lookup ys t x.
Proof.
  induction xs as [|y xs IH]; intros ys s t x Hl Hx; destruct s as [|b s]; try discriminate; auto.
  simpl in *. destruct (String.eqb_spec y x); [tauto|]. apply IH; auto.
Qed.

Section Spec.
  Variable F : fspec.
  Hypothesis Hws : well_scoped F.
  Hypothesis Hbool : all_boolean F.
  Let ne := List.length (fs_evars F).
  Let ns := List.length (fs_svars F).
  Let n := ne + ns.
  Let m := 2 * (ne + ns).
  Notation sp := (spec_of F).

  Lemma num_env_eq : num_env sp = ne.
  Proof. apply tree_size_vlist. Qed.
  Lemma num_sys_eq : num_sys sp = ns.
  Proof. apply tree_size_vlist. Qed.
  Lemma nvars_eq : nvars sp = m.
  Proof. unfold nvars. rewrite num_env_eq, num_sys_eq. reflexivity. Qed.
  Lemma all_vars_eq : all_vars sp = vlist (fs_vars F).
  Proof. apply link_vlist. Qed.
  Lemma vars_len : List.length (fs_vars F) = n.
  Proof. unfold fs_vars. apply app_length. Qed.

  Lemma states_eq : fs_states F = all_vecs n.
  Proof.
    unfold fs_states. rewrite dvecs_bool. unfold doms. rewrite map_length. f_equal. exact vars_len.
    intros d Hd. unfold doms in Hd. apply in_map_iff in Hd. destruct Hd as (v & <- & Hv).
    apply (proj1 Hbool); auto.
  Qed.
  Lemma envs_eq : fs_envs F = all_vecs ne.
  Proof.
    unfold fs_envs. rewrite dvecs_bool. unfold doms. rewrite map_length. reflexivity.
    intros d Hd. unfold doms in Hd. apply in_map_iff in Hd. destruct Hd as (v & <- & Hv).
    apply (proj1 Hbool). apply in_or_app; auto.
  Qed.

  (** translation of one formula *)
  Lemma to_BDD_ok : forall f, boolean f = true -> incl (fvars f) (names (fs_vars F)) ->
    incl (fnexts f) (names (fs_vars F)) ->
    exists d, to_BDD sp (tree_of f) = Ok d /\ wf m d /\
      forall s s', bitvec n s -> bitvec n s' -> ev d (s ++ s') = sem (val F s) (val F s') f.
  Proof.
    intros f Hb Hv Hn. unfold to_BDD. rewrite all_vars_eq, nvars_eq.
    destruct (ptree_BDD_ok (fs_vars F) m) with (f := f) as (d & Hd & Hw & He); auto.
    { rewrite vars_len. reflexivity. }
    exists d. split; auto. split; auto. intros s s' Hs Hs'. apply He; rewrite vars_len; auto.
  Qed.
  Lemma state_form_BDD : forall f, boolean f = true -> state_form F f ->
    exists d, to_BDD sp (tree_of f) = Ok d /\ Good ne ns d /\
      forall s, bitvec n s -> evS n d s = holds F f s.
  Proof.
    intros f Hb [Hv Hn]. destruct (to_BDD_ok f Hb Hv) as (d & Hd & Hw & He).
    { rewrite Hn. intros x []. }
    assert (H : forall s s', bitvec n s -> bitvec n s' -> ev d (s ++ s') = holds F f s).
    { intros s s' Hs Hs'. rewrite He by auto. apply sem_ext; auto. rewrite Hn. intros x []. }
    exists d. split; auto. split; [split; auto|].
    - intros s p q Hs Hp Hq. rewrite !H; auto.
    - intros s Hs. apply H; auto using bitvec_zeros.
  Qed.
  Lemma goals_BDD : forall l, (forall f, In f l -> boolean f = true) ->
    (forall f, In f l -> state_form F f) ->
    exists ds, map_out (to_BDD sp) (map tree_of l) = Ok ds /\ Forall (Good ne ns) ds /\
      List.length ds = List.length l /\
      Forall2 (fun f d => forall s, bitvec n s -> evS n d s = holds F f s) l ds.
  Proof.
    induction l as [|f l IH]; intros Hb Hs; simpl.
    - exists []. auto.
    - destruct (state_form_BDD f) as (d & Hd & Hg & He); try (apply Hb || apply Hs; left; auto).
      rewrite Hd. cbn [bind]. destruct IH as (ds & Hds & Hgs & Hl & Hf);
        try (intros; apply Hb || apply Hs; right; auto).
      rewrite Hds. cbn [bind]. exists (d :: ds). simpl. repeat split; auto.
  Qed.
  Lemma init_BDD_ok : forall f, opt_form (fun g => boolean g = true) f -> opt_form (state_form F) f ->
    exists d, init_BDD sp (opt_tree f) = Ok d /\ Good ne ns d /\
      forall s, bitvec n s -> evS n d s = holds_opt F f s.
  Proof.
    intros [f|] Hb Hs; unfold opt_tree, init_BDD.
    - destruct (state_form_BDD f Hb Hs) as (d & Hd & Hg & He). exists d. split; auto.
      destruct f; exact Hd.
    - rewrite nvars_eq. exists (bOne m). split; auto. destruct (good_One ne ns) as [H1 H2].
      split; auto.
  Qed.

  (** the four groups of BDDs *)
  Definition egoals1 : list form := match fs_egoals F with [] => [FTrue] | l => l end.
  Lemma spec_BDDs_ok : exists et st eg sg, spec_BDDs sp = Ok (et, st, eg, sg) /\
    no_primed_sys ne ns et /\ Forall (Good ne ns) eg /\ Forall (Good ne ns) sg /\
    wf m st /\
    List.length sg = List.length (fs_sgoals F) /\
    0 < List.length eg /\
    (forall s e w, bitvec n s -> bitvec ne e -> bitvec ns w ->
       ev et (s ++ e ++ w) = sem (val F s) (eval F e) (fs_etrans F)) /\
    (forall s s', bitvec n s -> bitvec n s' ->
       ev st (s ++ s') = sem (val F s) (val F s') (fs_strans F)) /\
    Forall2 (fun f d => forall s, bitvec n s -> evS n d s = holds F f s) egoals1 eg /\
    Forall2 (fun f d => forall s, bitvec n s -> evS n d s = holds F f s) (fs_sgoals F) sg.
  Proof.
    destruct Hws as (_ & _ & (He1 & He2) & (Hs1 & Hs2) & Heg & Hsg).
    destruct Hbool as (_ & _ & _ & Hbe & Hbs & Hbeg & Hbsg).
    destruct (to_BDD_ok (fs_etrans F) Hbe He1) as (et & Het & Hwe & Hee).
    { intros x Hx. apply He2 in Hx. unfold names, fs_vars in *. rewrite map_app.
      apply in_or_app; auto. }
    destruct (to_BDD_ok (fs_strans F) Hbs Hs1 Hs2) as (st & Hst & Hwst & Hes).
    assert (Htree : env_goals' sp = map tree_of egoals1).
    { unfold env_goals', egoals1. simpl. destruct (fs_egoals F); reflexivity. }
    destruct (goals_BDD egoals1) as (eg & Heg' & Hgeg & Hleg & Hfeg).
    { unfold egoals1. intros f Hf. destruct (fs_egoals F); auto.
      destruct Hf as [<-|[]]. reflexivity. }
    { unfold egoals1. intros f Hf. destruct (fs_egoals F); auto.
      destruct Hf as [<-|[]]. split; auto. intros x []. }
    destruct (goals_BDD (fs_sgoals F) Hbsg Hsg) as (sg & Hsg' & Hgsg & Hlsg & Hfsg).
    exists et, st, eg, sg. unfold spec_BDDs. rewrite Htree.
    change (env_trans sp) with (tree_of (fs_etrans F)).
    change (sys_trans sp) with (tree_of (fs_strans F)).
    change (sys_goals sp) with (map tree_of (fs_sgoals F)).
    rewrite Het. cbn [bind]. rewrite Hst. cbn [bind]. rewrite Heg'. cbn [bind].
    rewrite Hsg'. cbn [bind]. split; auto.
    assert (Hetr : forall s e w, bitvec n s -> bitvec ne e -> bitvec ns w ->
       ev et (s ++ e ++ w) = sem (val F s) (eval F e) (fs_etrans F)).
    { intros s e w Hs He Hw. rewrite Hee by (auto; apply bitvec_app; auto).
      apply sem_ext; auto. intros x Hx. apply He2 in Hx. unfold val, eval, fs_vars, names.
      rewrite map_app. apply lookup_app_l; auto. rewrite map_length. apply He. }
    repeat split; auto.
    - intros s e w w' Hs He Hw Hw'. rewrite !Hetr; auto.
    - rewrite Hleg. unfold egoals1. destruct (fs_egoals F); simpl; lia.
  Qed.

  Lemma game_agree : forall et st eg sg,
    (forall s e w, bitvec n s -> bitvec ne e -> bitvec ns w ->
       ev et (s ++ e ++ w) = sem (val F s) (eval F e) (fs_etrans F)) ->
    (forall s s', bitvec n s -> bitvec n s' ->
       ev st (s ++ s') = sem (val F s) (val F s') (fs_strans F)) ->
    Forall2 (fun f d => forall s, bitvec n s -> evS n d s = holds F f s) egoals1 eg ->
    Forall2 (fun f d => forall s, bitvec n s -> evS n d s = holds F f s) (fs_sgoals F) sg ->
    forall s, In s (all_vecs n) ->
      (sys_wins (bgame ne ns et st eg sg) s <-> sys_wins (game_of F) s).
  Proof.
    intros et st eg sg Het Hst Heg Hsg s Hs.
    assert (Hinf : forall l ds, Forall2 (fun f d => forall s, bitvec n s -> evS n d s = holds F f s) l ds ->
      forall p, (forall t, In (p t) (all_vecs n)) ->
      ((forall g, In g (map (evS n) ds) -> infinitely_often g p) <->
       (forall g, In g (map (holds F) l) -> infinitely_often g p))).
    { intros l ds H p Hp. induction H as [|f d l ds Hfd H IH]; simpl; [tauto|].
      assert (Hone : infinitely_often (evS n d) p <-> infinitely_often (holds F f) p).
      { unfold infinitely_often. split; intros Hi t; destruct (Hi t) as (t' & Ht & Hx);
          exists t'; (split; [auto|]).
        - rewrite <- Hfd; auto. apply all_vecs_spec; auto.
        - rewrite Hfd; auto. apply all_vecs_spec; auto. }
      split; intros Ha g [<-|Hg].
      - apply Hone. apply Ha; auto.
      - apply (proj1 IH); auto.
      - apply Hone. apply Ha; auto.
      - apply (proj2 IH); auto. }
    assert (Hgr : forall p, (forall t, In (p t) (all_vecs n)) ->
              (gr1 (bgame ne ns et st eg sg) p <-> gr1 (game_of F) p)).
    { intros p Hp. unfold gr1. simpl.
      pose proof (Hinf _ _ Heg p Hp) as H1. pose proof (Hinf _ _ Hsg p Hp) as H2.
      fold n. rewrite H1, H2.
      assert (H3 : (forall g, In g (map (holds F) egoals1) -> infinitely_often g p) <->
                   (forall g, In g (map (holds F) (fs_egoals F)) -> infinitely_often g p)).
      { unfold egoals1. destruct (fs_egoals F); [|tauto]. simpl. split; [tauto|].
        intros _ g [<-|[]] t. exists t. split; auto. }
      rewrite H3. tauto. }
    split; apply sys_wins_ext1; simpl; auto; rewrite ?states_eq, ?envs_eq; auto.
    - intros s1 e H1 H2. apply all_vecs_spec in H1, H2. symmetry. apply Het; auto using bitvec_zeros.
    - intros s1 s2 H1 H2. apply all_vecs_spec in H1, H2. symmetry. apply Hst; auto.
    - intros p Hp Hg. apply Hgr; auto.
    - intros s1 e H1 H2. apply all_vecs_spec in H1, H2. apply Het; auto using bitvec_zeros.
    - intros s1 s2 H1 H2. apply all_vecs_spec in H1, H2. apply Hst; auto.
    - intros p Hp Hg. apply Hgr; auto.
  Qed.

  (** C01/C02 on specifications *)
  Lemma winning_set_spec : fs_sgoals F <> [] ->
    exists N, forall fuel, N <= fuel ->
    exists W, compute_winning_set sp fuel = Ok W /\ Good ne ns W /\
      forall s, In s (fs_states F) -> (evS n W s = true <-> sys_wins (game_of F) s).
  Proof.
    intros Hne. destruct spec_BDDs_ok as
      (et & st & eg & sg & Hb & Hnp & Hgeg & Hgsg & _ & Hlsg & Hleg & Het & Hst & Heg & Hsg).
    assert (Hk : 0 < List.length sg).
    { rewrite Hlsg. destruct (fs_sgoals F); simpl; [congruence|lia]. }
    set (G := bgame ne ns et st eg sg).
    exists (S (List.length (domZ G) + List.length (all_vecs n))). intros fuel Hf.
    destruct (winning_set_ok ne ns et st Hnp eg sg Hgeg Hgsg Hk fuel) as (W & HW & HG & He).
    { fold G. lia. } { fold n. lia. }
    exists W. unfold compute_winning_set. rewrite Hb. cbn [bind].
    rewrite num_env_eq, num_sys_eq. split; auto. split; auto.
    intros s Hs. rewrite states_eq in Hs.
    change (evS n W s) with (den ne ns W s). rewrite (He s Hs).
    rewrite <- (game_agree et st eg sg Het Hst Heg Hsg s Hs).
    apply W_exact; auto.
    - apply vec_eqb_eq.
    - simpl. rewrite map_length. auto.
    - unfold ngoals. simpl. rewrite map_length. auto.
  Qed.
  Lemma winning_set_any : forall fuel fuel' W, compute_winning_set sp fuel = Ok W ->
    fuel <= fuel' -> compute_winning_set sp fuel' = Ok W.
  Proof.
    intros fuel fuel' W H Hf. unfold compute_winning_set in *.
    destruct (spec_BDDs sp) as [[[[et st] eg] sg]| |]; cbn [bind] in *; try discriminate.
    eapply winning_set_mono; eauto.
  Qed.
  Lemma winning_set_exact : fs_sgoals F <> [] ->
    forall fuel W, compute_winning_set sp fuel = Ok W ->
    Good ne ns W /\
    forall s, In s (fs_states F) -> (evS n W s = true <-> sys_wins (game_of F) s).
  Proof.
    intros Hne fuel W HW. destruct (winning_set_spec Hne) as (N & HN).
    destruct (HN (Nat.max N fuel)) as (W' & HW' & H); [lia|].
    assert (W' = W); [|subst; auto].
    pose proof (winning_set_any fuel (Nat.max N fuel) W HW ltac:(lia)). congruence.
  Qed.
End Spec.
