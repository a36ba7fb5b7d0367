(** Lemmas: the parser accepts exactly the files spelled by sections, with the
    specification they mean. *)
From Coq Require Import List ZArith Bool Arith Ascii String Lia.
From Verif Require Import Base Strs Ptree Form PtreeProofs FSpec Nonbool ExpProofs RSpec Lex Parse Syntax ParseProofs FileSpec.
Import ListNotations.
Open Scope list_scope.
Open Scope nat_scope.

(** ** Variables *)
Lemma declared_ok : forall x R, declared x (raw_of R) = existsb (String.eqb x) (names (rs_vars R)).
Proof.
  intros x R. unfold declared, raw_of, rs_vars. cbn [r_evars r_svars]. rewrite !find_vlist.
  assert (H : forall vs, negb (match pos_of x (names vs) with Some i => Z.of_nat i | None => -1 end =? -1)%Z =
              existsb (String.eqb x) (names vs)).
  { intros vs. induction vs as [|[y d] vs IH]; auto. simpl. rewrite String.eqb_sym.
    destruct (String.eqb x y) eqn:E; auto. simpl. rewrite <- IH.
    destruct (pos_of x (names vs)); auto. simpl option_map. cbv iota beta.
    f_equal. destruct (Z.of_nat n =? -1)%Z eqn:E1; [apply Z.eqb_eq in E1; lia|].
    apply Z.eqb_neq. lia. }
  rewrite !H. unfold names. rewrite map_app, existsb_app. reflexivity.
Qed.
Lemma declare_ok : forall env x d R, declare env x d (raw_of R) =
  if existsb (String.eqb x) (names (rs_vars R)) then None
  else Some (raw_of (set_vars env (the_vars env R ++ [(x, d)]) R)).
Proof.
  intros env x d R. unfold declare. rewrite declared_ok. destruct (existsb _ _); auto.
  f_equal. destruct env; unfold with_evars, with_svars, raw_of, set_vars, the_vars; simpl; rewrite append_vlist; reflexivity.
Qed.
Lemma pvars_sound : forall n env ts R c r, List.length ts <= n -> pvars env (raw_of R) ts = Some (c, r) ->
  exists ds a R', ts = a ++ YSemi :: r /\ spelled_decls ds a /\ add_vars env ds R = Some R' /\ c = raw_of R'.
Proof.
  induction n as [|n IH]; intros env ts R c r Hn E; [destruct ts; [discriminate|simpl in Hn; lia]|].
  destruct ts as [|k ts]; [discriminate|]. simpl in Hn.
  destruct k; try discriminate E.
  - assert (Go : forall d a ts' , YVar x :: ts = a ++ ts' -> spelled_decl (x, d) a ->
       match declare env x d (raw_of R) with Some c' => pvars env c' ts' | None => None end = Some (c, r) ->
       exists ds a R', YVar x :: ts = a ++ YSemi :: r /\ spelled_decls ds a /\ add_vars env ds R = Some R' /\ c = raw_of R').
    { intros d a ts' Et Hd E'. rewrite declare_ok in E'. destruct (existsb _ _) eqn:Ex; [discriminate|].
      apply IH in E'.
      - destruct E' as (ds & a' & R' & -> & Hs & Ha & ->). exists ((x, d) :: ds), (a ++ a'), R'.
        split; [rewrite <- app_assoc; auto|]. split; [constructor; auto|]. split; auto. simpl. rewrite Ex. auto.
      - apply (f_equal (@List.length ysym)) in Et. rewrite app_length in Et. simpl in Et.
        inversion Hd; subst; simpl in Et; lia. }
    cbn [pvars] in E. destruct ts as [|k ts].
    { apply (Go (-1)%Z [YVar x] [] eq_refl); [constructor|auto]. }
    destruct k; try (apply (Go (-1)%Z [YVar x] _ eq_refl); [constructor|exact E]).
    destruct ts as [|k1 ts]; [discriminate E|]. destruct k1; try discriminate E.
    destruct ts as [|k2 ts]; [discriminate E|]. destruct k2; try discriminate E.
    destruct ts as [|k3 ts]; [discriminate E|]. destruct k3; try discriminate E.
    destruct ts as [|k4 ts]; [discriminate E|]. destruct k4; try discriminate E.
    destruct (z =? 0)%Z eqn:Ez; [|discriminate E]. apply Z.eqb_eq in Ez. subst z. cbn [negb] in E.
    destruct (z0 <? 0)%Z eqn:Ez0; [discriminate E|]. apply Z.ltb_ge in Ez0.
    apply (Go z0 [YVar x; YLbr; YNum 0; YComma; YNum z0; YRbr] ts eq_refl); [constructor; auto|exact E].
  - cbn [pvars] in E. injection E as <- <-. exists [], [], R. repeat split; auto. constructor.
Qed.
Lemma pvars_complete : forall env ds a, spelled_decls ds a -> forall R R' r, add_vars env ds R = Some R' ->
  pvars env (raw_of R) (a ++ YSemi :: r) = Some (raw_of R', r).
Proof.
  intros env ds a H. induction H; intros R R' r E.
  - simpl in E. injection E as <-. reflexivity.
  - simpl in E. destruct (existsb _ _) eqn:Ex; [discriminate|]. rewrite <- app_assoc.
    destruct H; simpl in Ex.
    + assert (Hh : exists k t, b ++ YSemi :: r = k :: t /\ k <> YLbr).
      { destruct H0; [exists YSemi, r; split; [reflexivity|discriminate]|].
        destruct H; eexists _, _; (split; [reflexivity|discriminate]). }
      destruct Hh as (k & tt & Ek & Hk). specialize (IHspelled_decls _ _ r E). rewrite Ek in *.
      cbn [app pvars]. rewrite declare_ok, Ex. destruct k; try congruence; exact IHspelled_decls.
    + cbn [app pvars]. rewrite declare_ok, Ex. replace (hi <? 0)%Z with false by (symmetry; apply Z.ltb_ge; lia).
      cbn [Z.eqb negb]. auto.
Qed.

(** ** Lists of formulas *)
Lemma reads_ne : forall t l ts f, reads t l ts f -> ts <> [].
Proof.
  intros t l ts f H. induction H; try discriminate; auto.
  - destruct H; discriminate.
  - destruct a; discriminate.
  - destruct a; discriminate.
  - destruct a; discriminate.
  - destruct a; discriminate.
Qed.
Definition joiner (j : ysym) (p : ysym -> bool) : Prop :=
  (forall k, p k = true <-> k = j) /\ (forall r, ends (j :: r)).
Lemma joiner_safety : joiner YAndSafety is_and_safety.
Proof.
  split; [intros k; split; [destruct k; try discriminate; auto|intros ->; auto]|].
  intros r. repeat split. discriminate.
Qed.
Lemma joiner_liveness : joiner YAndLiveness is_and_liveness.
Proof.
  split; [intros k; split; [destruct k; try discriminate; auto|intros ->; auto]|].
  intros r. repeat split. discriminate.
Qed.
Lemma ends_semi : forall r, ends (YSemi :: r).
Proof. intros r. repeat split. discriminate. Qed.

Section Forms.
  Variables (t : bool) (j : ysym) (p : ysym -> bool).
  Hypothesis Hj : joiner j p.
  Hypothesis Hs : p YSemi = false.
  Lemma plist_sound : forall n acc ts l r, plist n t p NULL acc ts = Ok (Some (l, r)) ->
    exists fs a, ts = a ++ YSemi :: r /\ spelled_forms t j fs a /\ l = acc ++ map tree_of fs.
  Proof.
    induction n as [|n IH]; intros acc ts l r E; [discriminate|]. cbn [plist] in E.
    destruct (formula t NULL ts) as [[tr rest]|] eqn:Ef; [|discriminate].
    destruct (formula_sound _ _ _ _ _ Ef) as (a & f & -> & Hr & Ht). rewrite attach_nil in Ht. subst tr.
    destruct rest as [|k rest]; [discriminate|]. destruct (p k) eqn:Ep.
    - apply Hj in Ep. subst k. apply IH in E. destruct E as (fs & b & -> & Hf & ->).
      exists (f :: fs), (a ++ j :: b). split; [rewrite <- app_assoc; reflexivity|].
      split; [constructor; auto|]. rewrite <- app_assoc. reflexivity.
    - destruct k; try discriminate E. injection E as <- <-. exists [f], a. split; auto. split; [constructor; auto|]. reflexivity.
  Qed.
  Lemma plist_complete : forall fs a, spelled_forms t j fs a -> forall n acc r, List.length a < n ->
    plist n t p NULL acc (a ++ YSemi :: r) = Ok (Some (acc ++ map tree_of fs, r)).
  Proof.
    intros fs a H. induction H; intros n acc r Hn; (destruct n as [|n]; [lia|]); cbn [plist].
    - rewrite (formula_complete _ _ _ _ NULL _ H (ends_semi r)), attach_nil, Hs. reflexivity.
    - rewrite <- app_assoc. cbn [app].
      rewrite (formula_complete _ _ _ _ NULL _ H (proj2 Hj _)), attach_nil.
      rewrite (proj2 (proj1 Hj j) eq_refl). rewrite app_length in Hn. simpl in Hn.
      rewrite IHspelled_forms by lia. rewrite <- app_assoc. reflexivity.
  Qed.
  Lemma plist_total : forall n acc ts, List.length ts < n -> exists o, plist n t p NULL acc ts = Ok o.
  Proof.
    induction n as [|n IH]; intros acc ts Hn; [lia|]. cbn [plist].
    destruct (formula t NULL ts) as [[tr rest]|] eqn:Ef; [|eauto].
    destruct (formula_sound _ _ _ _ _ Ef) as (a & f & -> & Hr & Ht).
    destruct rest as [|k rest]; [eauto|]. destruct (p k); [|destruct k; eauto].
    apply IH. rewrite app_length in Hn. simpl in Hn. lia.
  Qed.
End Forms.

(** ** Sections *)
Definition ps (R : rspec) : pstate := {| p_spc := raw_of R; p_gen := NULL |}.
Lemma opt_tree_null : forall f, is_null_tree (opt_tree f) = match f with None => true | Some _ => false end.
Proof. intros [[]|]; reflexivity. Qed.
Definition get_init (env : bool) : raw_t -> ptree := if env then r_einit else r_sinit.
Definition put_init (env : bool) : ptree -> raw_t -> raw_t := if env then with_einit else with_sinit.
Definition get_trans (env : bool) : raw_t -> list ptree := if env then r_etrans else r_strans.
Definition put_trans (env : bool) : list ptree -> raw_t -> raw_t := if env then with_etrans else with_strans.
Definition get_goals (env : bool) : raw_t -> list ptree := if env then r_egoals else r_sgoals.
Definition put_goals (env : bool) : list ptree -> raw_t -> raw_t := if env then with_egoals else with_sgoals.
Lemma get_init_ok : forall env R, get_init env (raw_of R) = opt_tree (the_init env R).
Proof. intros [] R; reflexivity. Qed.
Lemma put_init_ok : forall env f R, put_init env (opt_tree f) (raw_of R) = raw_of (set_init env f R).
Proof. intros [] f R; reflexivity. Qed.
Lemma get_trans_ok : forall env R, get_trans env (raw_of R) = map tree_of (the_trans env R).
Proof. intros [] R; reflexivity. Qed.
Lemma put_trans_ok : forall env l R, put_trans env (map tree_of l) (raw_of R) = raw_of (set_trans env l R).
Proof. intros [] f R; reflexivity. Qed.
Lemma get_goals_ok : forall env R, get_goals env (raw_of R) = map tree_of (the_goals env R).
Proof. intros [] R; reflexivity. Qed.
Lemma put_goals_ok : forall env l R, put_goals env (map tree_of l) (raw_of R) = raw_of (set_goals env l R).
Proof. intros [] f R; reflexivity. Qed.
Lemma set_init_none : forall env R, the_init env R = None -> set_init env None R = R.
Proof. intros [] [] H; simpl in H; subst; reflexivity. Qed.

(** the tokens of one section after its keyword *)
Definition body (n : nat) (s : pstate) (k : ysym) (r : list ysym) : out (option (pstate * list ysym)) :=
  match k with
  | Y_E_VARS => Ok (option_map (fun p => ({| p_spc := fst p; p_gen := p_gen s |}, snd p)) (pvars true (p_spc s) r))
  | Y_S_VARS => Ok (option_map (fun p => ({| p_spc := fst p; p_gen := p_gen s |}, snd p)) (pvars false (p_spc s) r))
  | Y_E_INIT => Ok (pinit r_einit with_einit s r)
  | Y_S_INIT => Ok (pinit r_sinit with_sinit s r)
  | Y_E_TRANS => ptrans n r_etrans with_etrans s r
  | Y_S_TRANS => ptrans n r_strans with_strans s r
  | Y_E_GOAL => pgoals n true r_egoals with_egoals s r
  | Y_S_GOAL => pgoals n false r_sgoals with_sgoals s r
  | _ => Ok None
  end.
Lemma pexps_body : forall n s k r, pexps (S n) s (k :: r) =
  (p <- body n s k r ;; match p with None => Ok None | Some (s', r') => pexps n s' r' end).
Proof. reflexivity. Qed.

Definition becomes (k : ysym) (R : rspec) (ts : list ysym) (s : pstate) (r : list ysym) : Prop :=
  exists sec a R', spelled sec a /\ k :: ts = a ++ r /\ add_section sec R = Some R' /\ s = ps R'.

Lemma vars_sound : forall (env : bool) R ts s r,
  option_map (fun p => ({| p_spc := fst p; p_gen := NULL |}, snd p)) (pvars env (raw_of R) ts) = Some (s, r) ->
  becomes (if env then Y_E_VARS else Y_S_VARS) R ts s r.
Proof.
  intros env R ts s r E. destruct (pvars env (raw_of R) ts) as [[c r0]|] eqn:Ep; [|discriminate].
  simpl in E. injection E as <- <-.
  destruct (pvars_sound (List.length ts) _ _ _ _ _ (le_n _) Ep) as (ds & a & R' & -> & Hd & Ha & ->).
  exists (SVars env ds), ((if env then Y_E_VARS else Y_S_VARS) :: a ++ [YSemi]), R'.
  split; [constructor; auto|]. split; [simpl; rewrite <- app_assoc; reflexivity|]. auto.
Qed.
Lemma init_sound : forall (env : bool) R ts s r, pinit (get_init env) (put_init env) (ps R) ts = Some (s, r) ->
  becomes (if env then Y_E_INIT else Y_S_INIT) R ts s r.
Proof.
  intros env R ts s r E. unfold pinit in E. cbn [ps p_spc p_gen] in E.
  rewrite get_init_ok, opt_tree_null in E.
  assert (F : match formula false NULL ts with
              | Some (tr, YSemi :: r) => if match the_init env R with None => true | Some _ => false end
                  then Some ({| p_spc := put_init env tr (raw_of R); p_gen := NULL |}, r) else None
              | _ => None end = Some (s, r) -> becomes (if env then Y_E_INIT else Y_S_INIT) R ts s r).
  { intros E'. destruct (formula false NULL ts) as [[tr rest]|] eqn:Ef; [|discriminate].
    destruct (formula_sound _ _ _ _ _ Ef) as (a & f & -> & Hr & Ht). rewrite attach_nil in Ht. subst tr.
    destruct rest as [|[] rest]; try discriminate E'. destruct (the_init env R) eqn:Ei; [discriminate|].
    injection E' as <- <-.
    exists (SInit env (Some f)), ((if env then Y_E_INIT else Y_S_INIT) :: a ++ [YSemi]), (set_init env (Some f) R).
    split; [constructor; auto|]. split; [simpl; rewrite <- app_assoc; reflexivity|]. split; [simpl; rewrite Ei; auto|].
    unfold ps. rewrite <- put_init_ok. reflexivity. }
  destruct ts as [|k ts]; [exact (F E)|]. destruct k; try exact (F E).
  destruct (the_init env R) eqn:Ei; [discriminate|]. injection E as <- <-.
  exists (SInit env None), [if env then Y_E_INIT else Y_S_INIT; YSemi], R.
  split; [constructor|]. split; auto. split; auto. simpl. rewrite Ei, set_init_none; auto.
Qed.
Lemma forms_ne : forall t j fs a, spelled_forms t j fs a -> fs <> [].
Proof. intros t j fs a H. destruct H; discriminate. Qed.
Lemma add_trans : forall env fs R, fs <> [] -> add_section (STrans env fs) R = Some (set_trans env (the_trans env R ++ fs) R).
Proof. intros env [|f fs] R H; [congruence|reflexivity]. Qed.
Lemma add_goals : forall env fs R, fs <> [] -> add_section (SGoal env fs) R = Some (set_goals env (the_goals env R ++ fs) R).
Proof. intros [] [|f fs] R H; try congruence; reflexivity. Qed.
Lemma trans_sound : forall n (env : bool) R ts s r, ptrans n (get_trans env) (put_trans env) (ps R) ts = Ok (Some (s, r)) ->
  becomes (if env then Y_E_TRANS else Y_S_TRANS) R ts s r.
Proof.
  intros n env R ts s r E. unfold ptrans in E. cbn [ps p_spc p_gen] in E. rewrite get_trans_ok in E.
  destruct ts as [|k ts]; [discriminate|]. destruct k; try discriminate E.
  - apply bind_ok in E. destruct E as ([[l r']|] & Ep & E); [|discriminate]. injection E as <- <-.
    destruct (plist_sound true _ _ joiner_safety _ _ _ _ _ Ep) as (fs & a & -> & Hf & ->).
    rewrite <- map_app.
    exists (STrans env fs), ((if env then Y_E_TRANS else Y_S_TRANS) :: YSafety :: a ++ [YSemi]), (set_trans env (the_trans env R ++ fs) R).
    split; [constructor; auto|]. split; [simpl; rewrite <- app_assoc; reflexivity|].
    split; [apply add_trans; eapply forms_ne; eauto|]. unfold ps. rewrite <- put_trans_ok. reflexivity.
  - exists (STrans env []), [if env then Y_E_TRANS else Y_S_TRANS; YSemi].
    destruct (the_trans env R) eqn:Et; simpl in E; injection E as <- <-.
    + exists (set_trans env [FTrue] R). split; [constructor|]. split; auto. simpl. rewrite Et. split; auto.
      unfold ps. rewrite <- put_trans_ok. reflexivity.
    + exists R. split; [constructor|]. split; auto. simpl. rewrite Et. auto.
Qed.
Lemma goals_sound : forall n (env : bool) R ts s r, pgoals n env (get_goals env) (put_goals env) (ps R) ts = Ok (Some (s, r)) ->
  becomes (if env then Y_E_GOAL else Y_S_GOAL) R ts s r.
Proof.
  intros n env R ts s r E. unfold pgoals in E. cbn [ps p_spc p_gen] in E. rewrite get_goals_ok in E.
  destruct ts as [|k ts]; [discriminate|]. destruct k; try discriminate E.
  - apply bind_ok in E. destruct E as ([[l r']|] & Ep & E); [|discriminate]. injection E as <- <-.
    destruct (plist_sound false _ _ joiner_liveness _ _ _ _ _ Ep) as (fs & a & -> & Hf & ->).
    rewrite <- map_app.
    exists (SGoal env fs), ((if env then Y_E_GOAL else Y_S_GOAL) :: YLiveness :: a ++ [YSemi]), (set_goals env (the_goals env R ++ fs) R).
    split; [constructor; auto|]. split; [simpl; rewrite <- app_assoc; reflexivity|].
    split; [apply add_goals; eapply forms_ne; eauto|]. unfold ps. rewrite <- put_goals_ok. reflexivity.
  - exists (SGoal env []), [if env then Y_E_GOAL else Y_S_GOAL; YSemi].
    injection E as <- <-. destruct env.
    + exists R. split; [apply (sp_goal0 true)|]. auto.
    + exists (set_goals false [FTrue] R). split; [apply (sp_goal0 false)|]. auto.
Qed.
Lemma body_sound : forall n R k ts s r, body n (ps R) k ts = Ok (Some (s, r)) -> becomes k R ts s r.
Proof.
  intros n R k ts s r E. destruct k; try discriminate E; cbn [body] in E.
  - injection E as E. apply (vars_sound true); auto.
  - injection E as E. apply (vars_sound false); auto.
  - injection E as E. apply (init_sound true); auto.
  - apply (trans_sound n true); auto.
  - apply (goals_sound n true); auto.
  - injection E as E. apply (init_sound false); auto.
  - apply (trans_sound n false); auto.
  - apply (goals_sound n false); auto.
Qed.
Lemma spelled_head : forall s a, spelled s a -> exists k r, a = k :: r /\ starts_formula k = false.
Proof. intros s a H. destruct H; destruct env; eexists _, _; split; reflexivity. Qed.
Lemma body_complete : forall sec a, spelled sec a -> forall R R' r k a' n, a = k :: a' -> List.length a <= n ->
  add_section sec R = Some R' -> body n (ps R) k (a' ++ r) = Ok (Some (ps R', r)).
Proof.
  intros sec a H R R' r k a' n Ea Hn E. destruct H; injection Ea as <- <-.
  - simpl in E. pose proof (pvars_complete _ _ _ H _ _ r E) as P.
    rewrite <- app_assoc. destruct env; cbn [body ps p_spc p_gen app]; rewrite P; reflexivity.
  - simpl in E. destruct (the_init env R) eqn:Ei; [discriminate|]. injection E as <-.
    rewrite set_init_none by auto.
    assert (G : pinit (get_init env) (put_init env) (ps R) (YSemi :: r) = Some (ps R, r)).
    { unfold pinit. cbn [ps p_spc p_gen]. rewrite get_init_ok, opt_tree_null, Ei. reflexivity. }
    destruct env; cbn [body app]; rewrite <- G; reflexivity.
  - simpl in E. destruct (the_init env R) eqn:Ei; [discriminate|]. injection E as <-.
    assert (G : pinit (get_init env) (put_init env) (ps R) ((a ++ [YSemi]) ++ r) = Some (ps (set_init env (Some f) R), r)).
    { unfold pinit. cbn [ps p_spc p_gen]. rewrite get_init_ok, opt_tree_null, Ei. rewrite <- app_assoc. cbn [app].
      rewrite (formula_complete _ _ _ _ NULL _ H (ends_semi r)), attach_nil.
      unfold ps. rewrite <- put_init_ok. simpl opt_tree.
      pose proof (reads_ne _ _ _ _ H). destruct a as [|k0 a]; [congruence|]. cbn [app].
      destruct k0; try reflexivity. exfalso.
      pose proof (formula_complete _ _ _ _ NULL [] H I) as X. discriminate X. }
    destruct env; cbn [body]; rewrite <- G; reflexivity.
  - assert (G : ptrans n (get_trans env) (put_trans env) (ps R) (YSemi :: r) = Ok (Some (ps R', r))).
    { unfold ptrans. cbn [ps p_spc p_gen]. rewrite get_trans_ok. simpl in E.
      destruct (the_trans env R); injection E as <-; simpl; auto. unfold ps. rewrite <- put_trans_ok. reflexivity. }
    destruct env; cbn [body app]; rewrite <- G; reflexivity.
  - rewrite add_trans in E by (eapply forms_ne; eauto). injection E as <-.
    assert (G : ptrans n (get_trans env) (put_trans env) (ps R) ((YSafety :: a ++ [YSemi]) ++ r) =
                Ok (Some (ps (set_trans env (the_trans env R ++ fs) R), r))).
    { unfold ptrans. cbn [ps p_spc p_gen app]. rewrite <- app_assoc. cbn [app].
      rewrite (plist_complete true _ _ joiner_safety eq_refl _ _ H).
      - simpl. rewrite get_trans_ok, <- map_app. unfold ps. rewrite <- put_trans_ok. reflexivity.
      - simpl in Hn. rewrite app_length in Hn. simpl in Hn. lia. }
    destruct env; cbn [body]; rewrite <- G; reflexivity.
  - assert (G : pgoals n env (get_goals env) (put_goals env) (ps R) (YSemi :: r) = Ok (Some (ps R', r))).
    { unfold pgoals. cbn [ps p_spc p_gen]. destruct env; simpl in E; injection E as <-; reflexivity. }
    destruct env; cbn [body app]; rewrite <- G; reflexivity.
  - rewrite add_goals in E by (eapply forms_ne; eauto). injection E as <-.
    assert (G : pgoals n env (get_goals env) (put_goals env) (ps R) ((YLiveness :: a ++ [YSemi]) ++ r) =
                Ok (Some (ps (set_goals env (the_goals env R ++ fs) R), r))).
    { unfold pgoals. cbn [ps p_spc p_gen app]. rewrite <- app_assoc. cbn [app].
      rewrite (plist_complete false _ _ joiner_liveness eq_refl _ _ H).
      - simpl. rewrite get_goals_ok, <- map_app. unfold ps. rewrite <- put_goals_ok. reflexivity.
      - simpl in Hn. rewrite app_length in Hn. simpl in Hn. lia. }
    destruct env; cbn [body]; rewrite <- G; reflexivity.
Qed.
Lemma body_total : forall n R k ts, List.length ts < n -> exists o, body n (ps R) k ts = Ok o.
Proof.
  intros n R k ts Hn.
  assert (T : forall get set, exists o, ptrans n get set (ps R) ts = Ok o).
  { intros get set. unfold ptrans. destruct ts as [|k0 ts]; [eauto|]. destruct k0; eauto.
    - destruct (plist_total true is_and_safety n (get (p_spc (ps R))) ts) as [o Ho]; [simpl in Hn; lia|].
      change (p_gen (ps R)) with NULL. rewrite Ho. destruct o as [[]|]; simpl; eauto.
    - destruct (get (p_spc (ps R))); eauto. }
  assert (G : forall env get set, exists o, pgoals n env get set (ps R) ts = Ok o).
  { intros env get set. unfold pgoals. destruct ts as [|k0 ts]; [eauto|]. destruct k0; eauto.
    destruct (plist_total false is_and_liveness n (get (p_spc (ps R))) ts) as [o Ho]; [simpl in Hn; lia|].
    change (p_gen (ps R)) with NULL. rewrite Ho. destruct o as [[]|]; simpl; eauto. }
  destruct k; simpl; eauto.
Qed.

(** ** Files *)
Lemma pexps_sound : forall n ts R s, pexps n (ps R) ts = Ok (Some s) ->
  exists ss R', spelled_file ss ts /\ add_sections ss R = Some R' /\ s = ps R'.
Proof.
  induction n as [|n IH]; intros ts R s E; [discriminate|]. destruct ts as [|k ts].
  - simpl in E. injection E as <-. exists [], R. split; [constructor|]. auto.
  - rewrite pexps_body in E. apply bind_ok in E. destruct E as ([[s' r]|] & Eb & E); [|discriminate].
    destruct (body_sound _ _ _ _ _ _ Eb) as (sec & a & R1 & Hs & Ea & Hadd & ->).
    apply IH in E. destruct E as (ss & R' & Hf & Ha & ->).
    exists (sec :: ss), R'. split; [rewrite Ea; constructor; auto|]. split; auto. simpl. rewrite Hadd. auto.
Qed.
Lemma pexps_complete : forall ss ts, spelled_file ss ts -> forall n R R', List.length ts < n ->
  add_sections ss R = Some R' -> pexps n (ps R) ts = Ok (Some (ps R')).
Proof.
  intros ss ts H. induction H; intros n R R' Hn E.
  - destruct n; [simpl in Hn; lia|]. simpl in E. injection E as <-. reflexivity.
  - simpl in E. destruct (add_section s R) as [R1|] eqn:Ea; [|discriminate].
    destruct (spelled_head _ _ H) as (k & a' & -> & _). destruct n as [|n]; [lia|].
    rewrite app_length in Hn. simpl in Hn.
    cbn [app]. rewrite pexps_body. rewrite (body_complete _ _ H R R1 b k a' n eq_refl); auto; [|simpl; lia].
    simpl. apply IHspelled_file; auto. lia.
Qed.
Lemma pexps_total : forall n ts R, List.length ts < n -> exists o, pexps n (ps R) ts = Ok o.
Proof.
  induction n as [|n IH]; intros ts R Hn; [lia|]. destruct ts as [|k ts]; [simpl; eauto|].
  rewrite pexps_body. simpl in Hn.
  destruct (body_total n R k ts) as [o Ho]; [lia|]. rewrite Ho. simpl. destruct o as [[s r]|]; [|eauto].
  destruct (body_sound _ _ _ _ _ _ Ho) as (sec & a & R1 & Hs & Ea & _ & ->). apply IH.
  destruct (spelled_head _ _ Hs) as (k0 & a0 & -> & _). apply (f_equal (@List.length ysym)) in Ea.
  simpl in Ea. rewrite app_length in Ea. lia.
Qed.
Lemma yyparse_start : forall ts, no_formula ts ->
  yyparse_tokens ts = (r <- pexps (S (List.length ts)) (ps no_spec) ts ;; Ok (option_map p_spc r)).
Proof.
  intros ts H. unfold yyparse_tokens. destruct ts as [|k ts]; [reflexivity|]. simpl in H. rewrite H. reflexivity.
Qed.
Lemma yyparse_exact : forall ts, no_formula ts -> forall raw,
  yyparse_tokens ts = Ok (Some raw) <->
  exists ss R, spelled_file ss ts /\ file_means ss = Some R /\ raw = raw_of R.
Proof.
  intros ts H raw. rewrite yyparse_start by auto. split.
  - intros E. apply bind_ok in E. destruct E as ([s|] & Ep & E); [|discriminate].
    simpl in E. injection E as <-. apply pexps_sound in Ep. destruct Ep as (ss & R & H1 & H2 & ->).
    exists ss, R. auto.
  - intros (ss & R & H1 & H2 & ->). rewrite (pexps_complete _ _ H1 _ _ _ (le_n _) H2). reflexivity.
Qed.
Lemma yyparse_ends : forall ts, no_formula ts -> exists o, yyparse_tokens ts = Ok o.
Proof.
  intros ts H. rewrite yyparse_start by auto.
  destruct (pexps_total (S (List.length ts)) ts no_spec (le_n _)) as [o Ho]. rewrite Ho. simpl. eauto.
Qed.
