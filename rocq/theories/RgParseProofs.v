(** Lemmas: the parser of gr1c-rg accepts exactly the texts of its format (RgParse.v). *)
From Coq Require Import List ZArith Bool Arith Ascii String Lia.
From Verif Require Import Base Strs Ptree Form PtreeProofs FSpec Nonbool ExpProofs RSpec Lex LexSpec Parse Syntax ParseProofs FileSpec FileProofs
  ListSpec AutIO TextSpec TextProofs JsonSpec JsonWrite FormatSpec Options OptSpec Program ProgramSpec ProgramProofs RgParse.
Import ListNotations.
Open Scope list_scope.
Open Scope nat_scope.

Definition rbody (n : nat) (s : pstate) (k : ysym) (r : list ysym) : out (option (pstate * list ysym)) :=
  match k with Y_S_GOAL => Ok (rg_sgoal s r) | _ => body n s k r end.
Lemma rg_exps_body : forall n s k r, rg_exps (S n) s (k :: r) =
  (p <- rbody n s k r ;; match p with None => Ok None | Some (s', r') => rg_exps n s' r' end).
Proof. intros n s k r. destruct k; reflexivity. Qed.
Definition rbecomes (k : ysym) (R : rspec) (ts : list ysym) (s : pstate) (r : list ysym) : Prop :=
  exists sec a R', rg_spelled sec a /\ k :: ts = a ++ r /\ add_section sec R = Some R' /\ s = ps R'.
Lemma spelled_same : forall sec a k a', spelled sec a -> a = k :: a' -> k <> Y_S_GOAL -> forall fs, sec <> SGoal false fs.
Proof.
  intros sec a k a' H E Hk fs ->. inversion H; subst; match goal with X : _ :: _ = _ :: _ |- _ => injection X as X _ end; congruence.
Qed.
Lemma rg_sgoal_sound : forall R ts s r, rg_sgoal (ps R) ts = Some (s, r) -> rbecomes Y_S_GOAL R ts s r.
Proof.
  intros R ts s r E. destruct ts as [|k ts]; [discriminate|]. destruct k; try discriminate E; cbn [rg_sgoal ps p_gen p_spc] in E.
  - destruct (formula false NULL ts) as [[tr rest]|] eqn:Ef; [|discriminate].
    destruct (formula_sound _ _ _ _ _ Ef) as (a & f & -> & Hr & Ht). rewrite attach_nil in Ht. subst tr.
    destruct rest as [|[] rest]; try discriminate E. injection E as <- <-.
    exists (SGoal false [f]), (Y_S_GOAL :: YEventually :: a ++ [YSemi]), (set_goals false (rs_sgoals R ++ [f]) R).
    split; [apply rgs_goal; auto|]. split; [simpl; rewrite <- app_assoc; reflexivity|]. split; [reflexivity|].
    unfold ps. f_equal. pose proof (put_goals_ok false (rs_sgoals R ++ [f]) R) as P. rewrite map_app in P. exact P.
  - injection E as <- <-. exists (SGoal false []), [Y_S_GOAL; YSemi], (set_goals false [FTrue] R).
    split; [apply rgs_goal0|]. auto.
Qed.
Lemma rbody_sound : forall n R k ts s r, rbody n (ps R) k ts = Ok (Some (s, r)) -> rbecomes k R ts s r.
Proof.
  intros n R k ts s r E.
  assert (D : k = Y_S_GOAL \/ k <> Y_S_GOAL) by (destruct k; auto; right; discriminate).
  destruct D as [->|D]; [injection E as E; apply rg_sgoal_sound; auto|].
  assert (E' : body n (ps R) k ts = Ok (Some (s, r))) by (destruct k; try exact E; congruence).
  destruct (body_sound _ _ _ _ _ _ E') as (sec & a & R' & Hs & Ea & Ha & Hp).
  exists sec, a, R'. split; [|auto]. apply rgs_same; auto.
  destruct (spelled_head _ _ Hs) as (k0 & a0 & E0 & _). apply (spelled_same sec a k0 a0); auto.
  rewrite E0 in Ea. injection Ea as <- _. exact D.
Qed.
Lemma rg_head : forall s a, rg_spelled s a -> exists k r, a = k :: r /\ starts_formula k = false.
Proof. intros s a H. destruct H; [eapply spelled_head; eauto|..]; eexists _, _; split; reflexivity. Qed.
Lemma rbody_complete : forall sec a, rg_spelled sec a -> forall R R' r k a' n, a = k :: a' -> List.length a <= n ->
  add_section sec R = Some R' -> rbody n (ps R) k (a' ++ r) = Ok (Some (ps R', r)).
Proof.
  intros sec a H R R' r k a' n Ea Hn E. destruct H as [sec a Hf Hs| |f a Hr].
  - pose proof (body_complete sec a Hs R R' r k a' n Ea Hn E) as B.
    assert (D : k <> Y_S_GOAL).
    { intros ->. destruct Hs; injection Ea as Ea _; destruct env; try discriminate Ea; eapply Hf; reflexivity. }
    destruct k; try exact B. congruence.
  - injection Ea as <- <-. injection E as <-. reflexivity.
  - injection Ea as <- <-. injection E as <-. cbn [rbody rg_sgoal app ps p_gen p_spc]. rewrite <- app_assoc. cbn [app].
    rewrite (formula_complete _ _ _ _ NULL _ Hr (ends_semi r)), attach_nil. unfold ps. do 4 f_equal.
    pose proof (put_goals_ok false (rs_sgoals R ++ [f]) R) as P. rewrite map_app in P. exact P.
Qed.
Lemma rg_exps_sound : forall n ts R s, rg_exps n (ps R) ts = Ok (Some s) ->
  exists ss R', rg_spelled_file ss ts /\ add_sections ss R = Some R' /\ s = ps R'.
Proof.
  induction n as [|n IH]; intros ts R s E; [discriminate|]. destruct ts as [|k ts].
  - simpl in E. injection E as <-. exists [], R. split; [constructor|]. auto.
  - rewrite rg_exps_body in E. apply bind_ok in E. destruct E as ([[s' r]|] & Eb & E); [|discriminate].
    destruct (rbody_sound _ _ _ _ _ _ Eb) as (sec & a & R1 & Hs & Ea & Hadd & ->).
    apply IH in E. destruct E as (ss & R' & Hf & Ha & ->).
    exists (sec :: ss), R'. split; [rewrite Ea; constructor; auto|]. split; auto. simpl. rewrite Hadd. auto.
Qed.
Lemma rg_exps_complete : forall ss ts, rg_spelled_file ss ts -> forall n R R', List.length ts < n ->
  add_sections ss R = Some R' -> rg_exps n (ps R) ts = Ok (Some (ps R')).
Proof.
  intros ss ts H. induction H as [|s ss a b H Hb IH]; intros n R R' Hn E.
  - destruct n; [simpl in Hn; lia|]. simpl in E. injection E as <-. reflexivity.
  - simpl in E. destruct (add_section s R) as [R1|] eqn:Ea; [|discriminate].
    destruct (rg_head _ _ H) as (k & a' & -> & _). destruct n as [|n]; [lia|].
    rewrite app_length in Hn. simpl in Hn.
    cbn [app]. rewrite rg_exps_body. rewrite (rbody_complete _ _ H R R1 b k a' n eq_refl); auto; [|simpl; lia].
    simpl. apply IH; auto. lia.
Qed.
Lemma rbody_ends : forall n s k ts, List.length ts < n ->
  exists o, rbody n s k ts = Ok o /\ forall s' r, o = Some (s', r) -> List.length r < List.length ts.
Proof.
  intros n s k ts Hn.
  assert (D : k = Y_S_GOAL \/ k <> Y_S_GOAL) by (destruct k; auto; right; discriminate).
  destruct D as [->|D].
  - eexists. split; [reflexivity|]. intros s' r E. destruct ts as [|y ts]; [discriminate E|].
    destruct y; try discriminate E; cbn [rg_sgoal] in E.
    + destruct (formula false (p_gen s) ts) as [[tr rest]|] eqn:Ef; [|discriminate E].
      apply formula_shorter in Ef. destruct rest as [|[] rest]; try discriminate E. injection E as _ <-. cbn in *. lia.
    + injection E as _ <-. cbn. lia.
  - destruct (body_ends n s k ts Hn) as (o & E & H). exists o. split; [destruct k; try exact E; congruence|exact H].
Qed.
Lemma rg_exps_ends : forall n ts s, List.length ts < n -> exists o, rg_exps n s ts = Ok o.
Proof.
  induction n as [|n IH]; intros ts s Hn; [lia|]. destruct ts as [|k ts]; [cbn; eauto|]. rewrite rg_exps_body. cbn in Hn.
  destruct (rbody_ends n s k ts ltac:(lia)) as (o & E & H). rewrite E. cbn [bind].
  destruct o as [[s' r]|]; [|eauto]. apply IH. specialize (H s' r eq_refl). lia.
Qed.
Lemma rg_parse_total : forall text, exists o, rg_yyparse text = Ok o.
Proof.
  intros text. unfold rg_yyparse.
  assert (L : exists ts, yylex text = Ok ts).
  { destruct (yyparse_total text) as (o & E). unfold yyparse in E. apply bind_ok in E. destruct E as (ts & E & _). eauto. }
  destruct L as (l & El). rewrite El. cbn [bind]. unfold rg_yyparse_tokens.
  destruct (symbols l) as [|k ts]; [cbn; eauto|].
  destruct (starts_formula k) eqn:Ek.
  - destruct (formula false NULL (k :: ts)) as [[tr r]|] eqn:Ef; [|cbn; eauto].
    apply formula_shorter in Ef.
    destruct (rg_exps_ends (S (List.length (k :: ts))) r {| p_spc := spc_init; p_gen := tr |} ltac:(lia)) as [o Ho].
    rewrite Ho. cbn; eauto.
  - destruct (rg_exps_ends (S (List.length (k :: ts))) (k :: ts) pstate0 (le_n _)) as [o Ho]. rewrite Ho. cbn; eauto.
Qed.
Lemma rg_start : forall ts, no_formula ts ->
  rg_yyparse_tokens ts = (r <- rg_exps (S (List.length ts)) (ps no_spec) ts ;; Ok (option_map p_spc r)).
Proof. intros ts H. unfold rg_yyparse_tokens. destruct ts as [|k ts]; [reflexivity|]. simpl in H. rewrite H. reflexivity. Qed.
Lemma rg_exact : forall ts, no_formula ts -> forall raw,
  rg_yyparse_tokens ts = Ok (Some raw) <->
  exists ss R, rg_spelled_file ss ts /\ file_means ss = Some R /\ raw = raw_of R.
Proof.
  intros ts H raw. rewrite rg_start by auto. split.
  - intros E. apply bind_ok in E. destruct E as ([s|] & Ep & E); [|discriminate].
    simpl in E. injection E as <-. apply rg_exps_sound in Ep. destruct Ep as (ss & R & H1 & H2 & ->).
    exists ss, R. auto.
  - intros (ss & R & H1 & H2 & ->). rewrite (rg_exps_complete _ _ H1 _ _ _ (le_n _) H2). reflexivity.
Qed.
Lemma rg_no_formula : forall ss ts, rg_spelled_file ss ts -> no_formula ts.
Proof.
  intros ss ts H. destruct H as [|s ss a b H Hb]; cbn; auto. destruct (rg_head _ _ H) as (k & r & -> & Hk). exact Hk.
Qed.
Lemma rg_text_parse : forall text R, rg_text_means text R -> rg_yyparse text = Ok (Some (raw_of R)).
Proof.
  intros text R (ys & ss & Hy & Hs & Hm). apply text_symbols_iff in Hy. destruct Hy as (ts & E & <-).
  unfold rg_yyparse. rewrite E. cbn [bind]. apply rg_exact; eauto using rg_no_formula.
Qed.
Lemma rg_text_parse_only : forall text raw, text_no_formula text -> rg_yyparse text = Ok (Some raw) ->
  exists R, rg_text_means text R /\ raw = raw_of R.
Proof.
  intros text raw Hn E. unfold rg_yyparse in E. apply bind_ok in E. destruct E as (ts & Et & E).
  assert (Hy : text_symbols text (symbols ts)) by (apply text_symbols_iff; eauto).
  apply rg_exact in E; [|apply Hn; auto]. destruct E as (ss & R & H1 & H2 & ->). exists R. split; auto. exists (symbols ts), ss. auto.
Qed.
Lemma rg_text_rejected : forall text, text_no_formula text -> (~ exists R, rg_text_means text R) <-> rg_yyparse text = Ok None.
Proof.
  intros text Hn. split.
  - intros H. destruct (rg_parse_total text) as [[raw|] E]; auto.
    destruct (rg_text_parse_only _ _ Hn E) as (R & HR & _). exfalso. eauto.
  - intros E (R & HR). apply rg_text_parse in HR. congruence.
Qed.
Lemma rg_means_by_parse : forall text R, text_no_formula text -> rg_yyparse text = Ok (Some (raw_of R)) -> rg_text_means text R.
Proof.
  intros text R H E. destruct (rg_text_parse_only _ _ H E) as (R' & HR & E'). apply raw_of_inj in E'. subst. auto.
Qed.
Lemma rg_file_in : forall ss ys, rg_spelled_file ss ys -> forall R R', add_sections ss R = Some R' ->
  forall d, In d (rs_vars R') -> In d (rs_vars R) \/ decl_in ys d.
Proof.
  induction 1 as [|s ss a b Hs Hss IH]; intros R R' E d Hd; cbn [add_sections] in E; [injection E as <-; auto|].
  destruct (add_section s R) as [R1|] eqn:E1; [|discriminate E]. destruct (IH _ _ E d Hd) as [H|[H1 H2]].
  - assert (X : In d (rs_vars R) \/ decl_in a d).
    { destruct Hs as [s a _ Hs| |f a _]; [eapply add_section_in; eauto|..]; injection E1 as <-; left; exact H. }
    destruct X as [X|[X1 X2]]; auto. right. split; auto. apply in_or_app. auto.
  - right. split; auto. apply in_or_app. auto.
Qed.
Lemma rg_text_decls : forall text R, rg_text_means text R -> forall d, In d (rs_vars R) ->
  fst d <> ""%string /\ chars word_char (fst d) /\ domain_ok d.
Proof.
  intros text R (ys & ss & (ts & Ht & Hy) & Hs & Hm) d Hd. destruct (rg_file_in _ _ Hs _ _ Hm d Hd) as [H|[H1 H2]]; [destruct H|].
  destruct (tokens_words _ _ _ Ht _ (symbols_words _ _ Hy _ H1)). auto.
Qed.
