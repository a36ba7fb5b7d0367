(** Specifications whose transition rules mean the same have the same strategies; for a
    specification without integer variables, what gr1c-patch makes of its rules means the
    same. *)
From Coq Require Import List ZArith Bool Arith String Lia.
From Verif Require Import Base Game Strs Ptree Form Support EnumProofs Solve FSpec Automaton AutProofs SynthSpec Nonbool NonboolProofs RSpec PtreeProofs
  PipeProofs NbStateProofs MainSpec InteractSpec HotSpec PatchSpec GrPatchSpec.
Import ListNotations.
Open Scope list_scope.

Definition with_rules (F : fspec) (et st : form) : fspec := {|
  fs_evars := fs_evars F; fs_svars := fs_svars F; fs_einit := fs_einit F; fs_sinit := fs_sinit F;
  fs_etrans := et; fs_strans := st; fs_egoals := fs_egoals F; fs_sgoals := fs_sgoals F |}.
Definition same_rules (r r' : rules) : Prop :=
  (forall s e, may_env r s e = may_env r' s e) /\ (forall s t, may_sys r s t = may_sys r' s t).
Section Same.
  Variables (F : fspec) (et st : form).
  Let F' := with_rules F et st.
  Hypothesis He : forall c n, sem c n et = sem c n (fs_etrans F).
  Hypothesis Hs : forall c n, sem c n st = sem c n (fs_strans F).
  Lemma same_etr : forall s e, g_etr (game_of F') s e = g_etr (game_of F) s e.
  Proof. intros s e. exact (He (val F s) (eval F e)). Qed.
  Lemma same_str : forall s t, g_str (game_of F') s t = g_str (game_of F) s t.
  Proof. intros s t. exact (Hs (val F s) (val F t)). Qed.
  Lemma correct_same : forall A, correct F A -> correct F' A.
  Proof.
    intros A H. constructor.
    - exact (co_ids _ _ H).
    - exact (co_closed _ _ H).
    - exact (co_states _ _ H).
    - intros x y Hx Hy Ht. destruct (co_safe _ _ H x y Hx Hy Ht) as [A1 A2]. split; [rewrite same_str; exact A1|].
      intros Hne. rewrite same_etr. exact (A2 Hne).
    - intros x e Hx [L1 L2]. apply (co_answer _ _ H x e Hx). split; [exact L1|]. rewrite <- same_etr. exact L2.
    - intros p Hp Hm. apply (co_live _ _ H p Hp). intros E t. rewrite <- same_etr. exact (Hm E t).
  Qed.
  Lemma patchable_same : forall N l A, patchable F N l A -> patchable F' N l A.
  Proof. intros N l A [H1 H2 H3 H4]. constructor; [exact H1|exact H2|exact H3|exact H4]. Qed.
  Lemma edit_same : forall c r r', is_change c = true -> same_rules r r' -> same_rules (edit F' c r) (edit F c r').
  Proof.
    intros c r r' Hc [H1 H2]. destruct c; try discriminate Hc; (split; intros; cbn; rewrite ?H1, ?H2; auto).
  Qed.
  Lemma changed_same : forall l, forallb is_change l = true -> same_rules (changed F' l) (changed F l).
  Proof.
    intros l H. unfold changed.
    assert (K : forall r r', same_rules r r' -> same_rules (fold_left (fun r c => edit F' c r) l r) (fold_left (fun r c => edit F c r) l r')).
    { induction l as [|c l IH]; intros r r' Hr; auto. cbn in H. apply andb_true_iff in H. destruct H as [Hc H].
      cbn [fold_left]. apply (IH H). apply edit_same; auto. }
    apply K. split; [exact same_etr|exact same_str].
  Qed.
  Lemma moves_same : forall r r', same_rules r' r -> env_moves_in F r -> env_moves_in F' r'.
  Proof.
    intros r r' [H1 _] H s Hs'. destruct (H s Hs') as (e & L1 & L2). exists e. split; [exact L1|]. cbn. rewrite H1. exact L2.
  Qed.
  Lemma serves_same : forall r r' A, same_rules r' r -> serves F' r' A -> serves F r A.
  Proof.
    intros r r' A [H1 H2] H. constructor.
    - exact (sv_ids _ _ _ H).
    - exact (sv_closed _ _ _ H).
    - exact (sv_states _ _ _ H).
    - intros x y Hx Hy Ht. destruct (sv_safe _ _ _ H x y Hx Hy Ht) as [A1 A2]. split; [rewrite <- H2; exact A1|].
      intros Hne. destruct (A2 Hne) as [A3|A3]; [left; rewrite <- H1; exact A3|right].
      cbn [loaded may_env]. rewrite <- same_etr. exact A3.
    - intros x e Hx [L1 L2]. apply (sv_answer _ _ _ H x e Hx). split; [exact L1|]. cbn. rewrite H1. exact L2.
    - intros p Hp Hm. apply (sv_live _ _ _ H p Hp). intros E t. rewrite H1. exact (Hm E t).
  Qed.
End Same.

Section Boolean.
  Variables (flags : init_flags_t) (R : rspec).
  Hypothesis HR : no_ints R.
  Hypothesis HG : rs_sgoals R <> [].
  Lemma expandS_none : forall vs, (forall x d, In (x, d) vs -> d = (-1)%Z) -> forall f, expandS vs f = f.
  Proof.
    induction vs as [|[x d] vs IH]; intros H f; auto. unfold expandS. cbn [fold_left snd fst].
    rewrite (H x d (or_introl eq_refl)). cbn. apply IH. intros y e Hy. apply (H y e). right. auto.
  Qed.
  Lemma fblock_none : forall blk vs X, (forall x d, In (x, d) vs -> d = (-1)%Z) -> fblock_all blk vs X = X.
  Proof.
    intros blk. induction vs as [|[x d] vs IH]; intros X H; auto. unfold fblock_all. cbn [fold_left snd fst].
    rewrite (H x d (or_introl eq_refl)). cbn. apply IH. intros y e Hy. apply (H y e). right. auto.
  Qed.
  Lemma decls_none : forall b vs, (forall x d, In (x, d) vs -> d = (-1)%Z) -> bit_decls b vs = vs.
  Proof.
    intros b. induction vs as [|[x d] vs IH]; intros H; auto. rewrite NbStateProofs.bit_decls_cons. rewrite IH by (intros y e Hy; apply (H y e); right; auto).
    rewrite (H x d (or_introl eq_refl)). reflexivity.
  Qed.
  Lemma ints_none : NbStateProofs.ints (rs_vars R) = [].
  Proof.
    unfold NbStateProofs.ints. assert (K : forall vs, (forall x d, In (x, d) vs -> d = (-1)%Z) -> filter (fun v : vdecl => (0 <=? snd v)%Z) vs = []).
    { induction vs as [|[x d] vs IH]; intros H; auto. cbn [filter snd]. rewrite (H x d (or_introl eq_refl)). cbn. apply IH. intros y e Hy. apply (H y e). right. auto. }
    exact (K _ HR).
  Qed.
  Let He : forall x d, In (x, d) (rs_evars R) -> d = (-1)%Z.
  Proof. intros x d H. apply (HR x d). unfold rs_vars. apply in_or_app. auto. Qed.
  Let Hs : forall x d, In (x, d) (rs_svars R) -> d = (-1)%Z.
  Proof. intros x d H. apply (HR x d). unfold rs_vars. apply in_or_app. auto. Qed.
  Lemma forms_same : map_forms (expandS (rs_vars R)) (fblocked flags (fdefaults R)) = fdefaults R.
  Proof.
    unfold fblocked. rewrite !fblock_none by (first [exact He|exact Hs]).
    assert (K : forall f, expandS (rs_vars R) f = f) by (apply expandS_none; exact HR).
    assert (M : forall l, map (expandS (rs_vars R)) l = l) by (intros l; rewrite (map_ext _ (fun f => f)) by auto; apply map_id).
    assert (O : forall o, option_map (expandS (rs_vars R)) o = o) by (intros [f|]; cbn; rewrite ?K; reflexivity).
    unfold map_forms. rewrite !M, !O. reflexivity.
  Qed.
  Lemma solver_same : forall b, solver_spec b flags R = with_rules (fspec_of R) (and_all (rs_etrans (fdefaults R))) (and_all (rs_strans (fdefaults R))).
  Proof.
    intros b. unfold solver_spec. rewrite forms_same. rewrite (decls_none b (rs_evars R) He), (decls_none b (rs_svars R) Hs).
    unfold with_rules, fspec_of. cbn. destruct (rs_sgoals R); [congruence|reflexivity].
  Qed.
  Lemma conj_sem : forall c n l, sem c n (conj l) = forallb (sem c n) l.
  Proof. intros c n. induction l as [|f l IH]; auto. cbn [forallb]. rewrite <- IH. reflexivity. Qed.
  Lemma erule_same : forall c n, sem c n (and_all (rs_etrans (fdefaults R))) = sem c n (fs_etrans (fspec_of R)).
  Proof. intros c n. rewrite and_all_sem. cbn [fspec_of fs_etrans fdefaults rs_etrans]. rewrite conj_sem. destruct (rs_etrans R); reflexivity. Qed.
  Lemma srule_same : forall c n, sem c n (and_all (rs_strans (fdefaults R))) = sem c n (fs_strans (fspec_of R)).
  Proof. intros c n. rewrite and_all_sem. cbn [fspec_of fs_strans fdefaults rs_strans]. rewrite conj_sem. destruct (rs_strans R); reflexivity. Qed.
  Lemma parts_all : forall l, l <> [] -> parts_of (and_all l) l.
  Proof.
    intros [|f l] H; [congruence|]. unfold and_all, chain. clear H.
    assert (K : forall acc la, parts_of acc la -> parts_of (fold_left FAnd l acc) (la ++ l)).
    { induction l as [|g l IH]; intros acc la Ha; [rewrite app_nil_r; exact Ha|]. cbn [fold_left].
      replace (la ++ g :: l) with ((la ++ [g]) ++ l) by (rewrite <- app_assoc; reflexivity). apply IH. apply parts_and; [exact Ha|apply parts_one]. }
    exact (K f [f] (parts_one f)).
  Qed.
End Boolean.
