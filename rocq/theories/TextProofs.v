(** Lemmas: texts of specifications are read as the specifications they mean. *)
From Coq Require Import List ZArith Bool Arith Ascii String Lia.
From Verif Require Import Base Strs Ptree Form PtreeProofs Support Solve FSpec Automaton Nonbool RSpec RealProofs NbExamples MainExamples EnumProofs Game Main FormCheck ListSpec
  FormPrint AutIO Lex LexSpec Parse Syntax LexProofs LexRegex ParseProofs PrintProofs SynthSpec Synth FileSpec FileProofs ListProofs MainSpec MainProofs PipeVerdict TextSpec.
Import ListNotations.
Open Scope string_scope.
Open Scope list_scope.
Open Scope nat_scope.

Lemma yylex_sx : forall s l, sx true s = Ok l <-> exists ts, yylex s = Ok ts /\ symbols ts = l.
Proof.
  intros s l. unfold sx, lx, yylex. split.
  - intros H. apply bind_ok in H. destruct H as (ts & H & E). injection E as <-. eauto.
  - intros (ts & H & <-). rewrite H. reflexivity.
Qed.

(** ** The symbols of a text *)
Lemma symbol_iff : forall t y, yytranslate t = y -> y <> YEOF <-> symbol_of t y.
Proof.
  intros t y <-. destruct t as [| | | | | | | |x|z| | | | | | | | | | | | |c];
    cbn [yytranslate];
    try (split; [intros _; apply so_word; unfold word_symbols; cbn [In]; tauto|intros _; discriminate]);
    try (split; [intros _; first [apply so_variable|apply so_number]|intros _; discriminate]).
  cbn [yytranslate]. destruct (128 <=? nat_of_ascii c)%nat eqn:E.
  - assert (X : ychar c = YEOF) by (unfold ychar; rewrite E; reflexivity). rewrite X. split; [congruence|].
    apply Nat.leb_le in E. intros H. exfalso. inversion H as [t y HI| | |d y HI|d HL HN]; subst.
    + unfold word_symbols in HI. cbn [In] in HI. intuition discriminate.
    + unfold char_symbols in HI. cbn [In] in HI. intuition discriminate.
  - apply Nat.leb_gt in E. assert (X : ychar c <> YEOF).
    { unfold ychar. rewrite (proj2 (Nat.leb_gt _ _) E).
      repeat match goal with |- context [if ?b then _ else _] => destruct b; [discriminate|] end. discriminate. }
    split; [intros _|intros _; exact X].
    destruct (in_dec ascii_dec c (map fst char_symbols)) as [Y|N].
    + apply so_char. apply in_map_iff in Y. destruct Y as ([d y] & <- & HI). cbn [fst] in *. clear E X.
      unfold char_symbols in HI. cbn [In] in HI.
      repeat (destruct HI as [E|HI]; [injection E as <- <-; unfold char_symbols; cbn; tauto|]). destruct HI.
    + assert (Z : ychar c = YUNDEF).
      { unfold ychar. rewrite (proj2 (Nat.leb_gt _ _) E). cbn [char_symbols map fst In] in N.
        repeat match goal with |- context [Ascii.eqb c ?d] =>
          let H := fresh in destruct (Ascii.eqb c d) eqn:H; [apply Ascii.eqb_eq in H; subst c; exfalso; tauto|clear H] end.
        reflexivity. }
      rewrite Z. apply so_other; assumption.
Qed.
Lemma symbol_fun : forall t y, symbol_of t y -> y = yytranslate t /\ y <> YEOF.
Proof.
  intros t y H. destruct H as [t y HI| | |c y HI|c HL HN].
  - unfold word_symbols in HI. cbn [In] in HI.
    repeat (destruct HI as [E|HI]; [injection E as <- <-; split; [reflexivity|discriminate]|]). destruct HI.
  - split; [reflexivity|discriminate].
  - split; [reflexivity|discriminate].
  - unfold char_symbols in HI. cbn [In] in HI.
    repeat (destruct HI as [E|HI]; [injection E as <- <-; split; [reflexivity|discriminate]|]). destruct HI.
  - split; [|discriminate]. cbn [yytranslate]. unfold ychar. rewrite (proj2 (Nat.leb_gt _ _) HL).
    cbn [char_symbols map fst In] in HN.
    repeat match goal with |- context [Ascii.eqb c ?d] =>
      let H := fresh in destruct (Ascii.eqb c d) eqn:H; [apply Ascii.eqb_eq in H; subst c; exfalso; tauto|clear H] end.
    reflexivity.
Qed.
Lemma ychar_eof : forall c, ychar c = YEOF <-> 128 <= nat_of_ascii c.
Proof.
  intros c. unfold ychar. destruct (128 <=? nat_of_ascii c) eqn:E; [apply Nat.leb_le in E; tauto|].
  apply Nat.leb_gt in E. split; [|lia].
  repeat match goal with |- context [if ?b then _ else _] => destruct b; [discriminate|] end. discriminate.
Qed.
Lemma symbols_exact : forall ts ys, as_symbols ts ys <-> symbols ts = ys.
Proof.
  induction ts as [|t ts IH]; intros ys.
  - split; [intros H; inversion H; reflexivity|intros <-; constructor].
  - cbn [symbols]. split.
    + intros H. inversion H as [|c r HL|t' y r ys' Hy Hr]; subst.
      * cbn [yytranslate]. rewrite (proj2 (ychar_eof c) HL). reflexivity.
      * destruct (symbol_fun _ _ Hy) as [-> N]. apply IH in Hr. subst ys'. destruct (yytranslate t); congruence.
    + intros <-. destruct (yytranslate t) eqn:E.
      all: try (apply as_cons; [apply (symbol_iff t _ E); discriminate|now apply IH]).
      destruct t; try discriminate E. apply as_end. now apply ychar_eof.
Qed.
Lemma text_symbols_iff : forall s ys, text_symbols s ys <-> exists ts, yylex s = Ok ts /\ symbols ts = ys.
Proof.
  intros s ys. unfold text_symbols. split; intros (ts & H1 & H2); exists ts.
  - split; [now apply scanner_exact|now apply symbols_exact].
  - split; [now apply scanner_exact|now apply symbols_exact].
Qed.
Lemma sx_symbols : forall s l, sx true s = Ok l <-> text_symbols s l.
Proof. intros s l. rewrite yylex_sx, text_symbols_iff. reflexivity. Qed.

(** ** Further tokens *)
Lemma sx_newline : forall b s, sx b (nl ++ s)%string = sx true s.
Proof. intros. unfold sx, nl. cbn [String.append]. rewrite lx_newline. reflexivity. Qed.
Lemma sx_keyword : forall l k y s, In (l, k) keywords -> yytranslate k = y -> y <> YEOF ->
  sx true (l ++ s)%string = pre [y] (sx false s).
Proof. intros l k y s H H1 H2. eapply sx_tok; [apply lx_keyword; eauto|auto|auto]. Qed.
Lemma lx_space : forall s, head_is wspace s = false -> lx false (" " ++ s) = lx false s.
Proof.
  intros s H. rewrite (lx_ignore false _ 1).
  - destruct s; reflexivity.
  - discriminate.
  - destruct s as [|c s]; [reflexivity|]. cbn [head_is] in H. cbn [String.append].
    change (rules false) with (firstn 25 (rules false) ++ (m_spaces, Ignore) :: skipn 26 (rules false)).
    apply best_split.
    + cbn [m_spaces span]. unfold m_spaces. cbn [span]. rewrite H. reflexivity.
    + intros q a j Hi Hq. exfalso. cbn [rules firstn In] in Hi.
      repeat (destruct Hi as [Hi|Hi]; [injection Hi as <- <-; discriminate Hq|]). destruct Hi.
    + intros q a j Hi Hq. cbn [rules skipn In] in Hi. destruct Hi as [Hi|[]]. injection Hi as <- <-.
      simpl in Hq. injection Hq as <-. lia.
Qed.
Lemma sx_space : forall s, head_is wspace s = false -> sx false (" " ++ s)%string = sx false s.
Proof. intros s H. unfold sx. rewrite lx_space by auto. reflexivity. Qed.
Lemma lx_lbr : forall b s, head_is (fun c => Ascii.eqb c "]") s = false ->
  lx b ("[" ++ s) = (l <- lx false s ;; Ok (CH "[" :: l)).
Proof.
  intros b s H. rewrite (lx_return b _ 1 (fun t => CH (first_char t))).
  - destruct s; reflexivity.
  - discriminate.
  - destruct s as [|c s]; [destruct b; reflexivity|]. cbn [head_is] in H.
    destruct b; char_cases c H; reflexivity.
Qed.
Lemma lx_rbr : forall b s, lx b ("]" ++ s) = (l <- lx false s ;; Ok (CH "]" :: l)).
Proof.
  intros b s. rewrite (lx_return b _ 1 (fun t => CH (first_char t))); [destruct s; reflexivity|discriminate|].
  destruct b, s; reflexivity.
Qed.
Lemma lx_and_safety : forall b s, head_is (fun c => Ascii.eqb c "<") s = false ->
  lx b ("&[]" ++ s) = (l <- lx false s ;; Ok (AND_SAFETY_OP :: l)).
Proof.
  intros b s H. rewrite (lx_return b _ 3 (fun _ => AND_SAFETY_OP)).
  - destruct s; reflexivity.
  - discriminate.
  - destruct s as [|c s]; [destruct b; reflexivity|]. cbn [head_is] in H.
    destruct b; char_cases c H; reflexivity.
Qed.
Lemma lx_and_liveness : forall b s, lx b ("&[]<>" ++ s) = (l <- lx false s ;; Ok (AND_LIVENESS_OP :: l)).
Proof.
  intros b s. rewrite (lx_return b _ 5 (fun _ => AND_LIVENESS_OP)); [destruct s; reflexivity|discriminate|].
  destruct b, s; reflexivity.
Qed.

(** ** Sections *)
Lemma fprint_text : forall f, fprint f = text f.
Proof. intros f. unfold fprint. rewrite print_text. reflexivity. Qed.
Lemma opens_not : forall q f s, writable f -> (forall c, opens c = true -> negb (q c) = true) ->
  head_is q (text f ++ s)%string = false.
Proof.
  intros q f s H Hq. pose proof (text_opens f H) as Ho. rewrite head_app by (eapply head_ne; eauto).
  eapply head_neg; eauto.
Qed.
Lemma sep_semi : forall s, sep (";" ++ s)%string.
Proof. intros. apply sep_char; reflexivity. Qed.
Definition decl_toks (d : vdecl) : list ysym :=
  if (snd d <? 0)%Z then [YVar (fst d)] else [YVar (fst d); YLbr; YNum 0; YComma; YNum (snd d); YRbr].
Definition gap_next (s : string) : Prop := head_is ident_char s = false /\ head_is (fun c => Ascii.eqb c ":") s = false.
Lemma sx_decl : forall d s, writable_decl d -> sep s ->
  sx false (decl_text d ++ s)%string = pre (decl_toks d) (sx false s).
Proof.
  intros [x d] s [Hx Hd] Hs. simpl in Hx, Hd. unfold decl_text, decl_toks. cbn [fst snd].
  rewrite !str_assoc. rewrite sx_space.
  2: { destruct (identifier_is x Hx) as (Hi & _). destruct x as [|c x]; [discriminate|]. simpl.
       simpl in Hi. apply andb_true_iff in Hi. destruct Hi as [Hi _]. apply ident_plain in Hi.
       unfold plain in Hi. apply andb_true_iff in Hi. destruct Hi as [_ Hi]. apply negb_true_iff in Hi. auto. }
  destruct (d <? 0)%Z eqn:Ed.
  - simpl. apply sx_ident; auto.
  - apply Z.ltb_ge in Ed. rewrite !str_assoc. rewrite sx_ident by (auto; apply sep_char; reflexivity).
    change ("[0," ++ zdec d ++ "]" ++ s)%string with ("[" ++ zdec 0 ++ "," ++ zdec d ++ "]" ++ s)%string.
    rewrite (sx_tok false false ("[" ++ zdec 0 ++ "," ++ zdec d ++ "]" ++ s) (zdec 0 ++ "," ++ zdec d ++ "]" ++ s) (CH "[") YLbr (lx_lbr false (zdec 0 ++ "," ++ zdec d ++ "]" ++ s) eq_refl) eq_refl ltac:(discriminate)).
    rewrite sx_number by (try (unfold int_number; lia); apply sep_char; reflexivity).
    rewrite (sx_tok false false ("," ++ zdec d ++ "]" ++ s) (zdec d ++ "]" ++ s) (CH ",") YComma (lx_char "," _ _ eq_refl) eq_refl ltac:(discriminate)).
    rewrite sx_number by (try (unfold int_number; lia); apply sep_char; reflexivity).
    rewrite (sx_tok false false ("]" ++ s) s (CH "]") YRbr (lx_rbr _ _) eq_refl ltac:(discriminate)).
    rewrite !pre_app. reflexivity.
Qed.
Lemma concat_cons : forall x l, String.concat "" (x :: l) = (x ++ String.concat "" l)%string.
Proof.
  intros x [|y l]; simpl; auto. induction x; simpl; congruence.
Qed.
Lemma sx_decls : forall ds s, (forall d, In d ds -> writable_decl d) ->
  sx false (String.concat "" (map decl_text ds) ++ ";" ++ s)%string = pre (List.concat (map decl_toks ds) ++ [YSemi]) (sx false s).
Proof.
  induction ds as [|d ds IH]; intros s H.
  - simpl. apply sx_semi.
  - cbn [map]. rewrite concat_cons, str_assoc. rewrite sx_decl.
    + rewrite IH by (intros; apply H; right; auto). rewrite pre_app. cbn [map List.concat]. rewrite app_assoc. reflexivity.
    + apply H. left. auto.
    + destruct ds as [|d' ds]; [apply sep_semi|]. cbn [map]. rewrite concat_cons, str_assoc. unfold decl_text at 1.
      apply sep_char; reflexivity.
Qed.
Lemma decls_spelled : forall ds, (forall d, In d ds -> writable_decl d) -> spelled_decls ds (List.concat (map decl_toks ds)).
Proof.
  induction ds as [|[x d] ds IH]; intros H; [constructor|]. cbn [map List.concat]. constructor.
  - destruct (H (x, d) (or_introl eq_refl)) as [_ Hd]. simpl in Hd. unfold decl_toks. cbn [fst snd].
    destruct (d <? 0)%Z eqn:E.
    + apply Z.ltb_lt in E. replace d with (-1)%Z by lia. constructor.
    + apply Z.ltb_ge in E. constructor. auto.
  - apply IH. intros; apply H; right; auto.
Qed.
Fixpoint joined_toks (j : ysym) (fs : list form) : list ysym :=
  match fs with
  | [] => []
  | [f] => toks f
  | f :: r => toks f ++ j :: joined_toks j r
  end.
Lemma sx_joined : forall j y, (forall b s, head_is (fun c => Ascii.eqb c "<") s = false -> sx b (j ++ s)%string = pre [y] (sx false s)) ->
  (forall s, sep (j ++ s)%string) ->
  forall fs s, fs <> [] -> (forall f, In f fs -> writable f) ->
  sx false (joined_text j fs ++ ";" ++ s)%string = pre (joined_toks y fs ++ [YSemi]) (sx false s).
Proof.
  intros j y Hj Hsep. induction fs as [|f fs IH]; intros s Hn H; [congruence|].
  destruct fs as [|g fs].
  - cbn [joined_text joined_toks]. rewrite fprint_text. rewrite text_lexes by (try apply sep_semi; apply H; left; auto).
    rewrite sx_semi, pre_app. reflexivity.
  - change (joined_text j (f :: g :: fs)) with (fprint f ++ j ++ joined_text j (g :: fs))%string.
    change (joined_toks y (f :: g :: fs)) with (toks f ++ y :: joined_toks y (g :: fs)).
    rewrite !str_assoc, fprint_text. rewrite text_lexes; [|apply H; left; auto|apply Hsep].
    rewrite Hj.
    + rewrite IH; [|discriminate|intros; apply H; right; auto]. rewrite !pre_app. f_equal.
      rewrite <- !app_assoc. reflexivity.
    + assert (Hg : writable g) by (apply H; right; left; auto).
      destruct fs as [|g' fs]; cbn [joined_text]; rewrite ?str_assoc, fprint_text; apply opens_not; auto; apply opens_lt.
Qed.
Lemma joined_spelled : forall t y fs, fs <> [] -> (forall f, In f fs -> writable_form t f) ->
  spelled_forms t y fs (joined_toks y fs).
Proof.
  intros t y. induction fs as [|f fs IH]; intros Hn H; [congruence|].
  assert (Hf : reads t LIff (toks f) f).
  { destruct (H f (or_introl eq_refl)) as (H1 & H2 & H3). apply (rd_iff_any t LUnit). apply toks_reads; auto. }
  destruct fs as [|g fs].
  - apply sf_one. auto.
  - change (joined_toks y (f :: g :: fs)) with (toks f ++ y :: joined_toks y (g :: fs)).
    apply sf_more; auto. apply IH; [discriminate|]. intros; apply H; right; auto.
Qed.

Definition sec_toks (s : section) : list ysym :=
  match s with
  | SVars env ds => (if env then Y_E_VARS else Y_S_VARS) :: List.concat (map decl_toks ds) ++ [YSemi]
  | SInit env None => [if env then Y_E_INIT else Y_S_INIT; YSemi]
  | SInit env (Some f) => (if env then Y_E_INIT else Y_S_INIT) :: toks f ++ [YSemi]
  | STrans env [] => [if env then Y_E_TRANS else Y_S_TRANS; YSemi]
  | STrans env fs => (if env then Y_E_TRANS else Y_S_TRANS) :: YSafety :: joined_toks YAndSafety fs ++ [YSemi]
  | SGoal env [] => [if env then Y_E_GOAL else Y_S_GOAL; YSemi]
  | SGoal env fs => (if env then Y_E_GOAL else Y_S_GOAL) :: YLiveness :: joined_toks YAndLiveness fs ++ [YSemi]
  end.
Lemma sec_spelled : forall s, writable_section s -> spelled s (sec_toks s).
Proof.
  intros s H. destruct s as [env ds|env [f|]|env fs|env fs]; cbn [sec_toks].
  - constructor. apply decls_spelled; auto.
  - constructor. destruct H as (H1 & H2 & H3). apply (rd_iff_any false LUnit). apply toks_reads; auto.
  - constructor.
  - destruct fs as [|f fs]; [constructor|]. constructor. apply joined_spelled; [discriminate|auto].
  - destruct fs as [|f fs]; [constructor|]. constructor. apply joined_spelled; [discriminate|auto].
Qed.
Lemma sx_semi_nl : forall b s, sx b (";" ++ nl ++ s)%string = pre [YSemi] (sx true s).
Proof. intros. rewrite sx_semi, sx_newline. reflexivity. Qed.
Lemma sx_and_safety : forall b s, head_is (fun c => Ascii.eqb c "<") s = false ->
  sx b ("&[]" ++ s)%string = pre [YAndSafety] (sx false s).
Proof. intros. eapply sx_tok; [apply lx_and_safety; auto|reflexivity|discriminate]. Qed.
Lemma sx_and_liveness : forall b s, sx b ("&[]<>" ++ s)%string = pre [YAndLiveness] (sx false s).
Proof. intros. eapply sx_tok; [apply lx_and_liveness; auto|reflexivity|discriminate]. Qed.
Lemma sx_section : forall sec s, writable_section sec ->
  sx true (section_text sec ++ s)%string = pre (sec_toks sec) (sx true s).
Proof.
  assert (K : forall l k s r, In (l, k) keywords -> yytranslate k <> YEOF ->
     forall x, x = (l ++ s)%string -> sx false s = r -> sx true x = pre [yytranslate k] r).
  { intros l k s r Hi Hk x -> <-. apply (sx_keyword l k); auto. }
  assert (SN : forall x s, sx false (x ++ ";" ++ s)%string = pre [YSemi] (sx false s) -> True) by auto.
  intros sec s H. destruct sec as [env ds|env [f|]|env fs|env fs]; cbn [section_text sec_toks].
  - transitivity (pre [if env then Y_E_VARS else Y_S_VARS] (pre (List.concat (map decl_toks ds) ++ [YSemi]) (sx true s))).
    + rewrite !str_assoc. assert (E : sx false (String.concat "" (map decl_text ds) ++ ";" ++ nl ++ s)%string =
         pre (List.concat (map decl_toks ds) ++ [YSemi]) (sx true s)).
      { rewrite sx_decls by auto. rewrite sx_newline. reflexivity. }
      destruct env.
      * eapply (K "ENV:" E_VARS); [simpl; tauto|discriminate|reflexivity|exact E].
      * eapply (K "SYS:" S_VARS); [simpl; tauto|discriminate|reflexivity|exact E].
    + rewrite pre_app. reflexivity.
  - transitivity (pre [if env then Y_E_INIT else Y_S_INIT] (pre (toks f ++ [YSemi]) (sx true s))).
    + rewrite !str_assoc. destruct H as (H1 & _ & _).
      assert (E : sx false (fprint f ++ ";" ++ nl ++ s)%string = pre (toks f ++ [YSemi]) (sx true s)).
      { rewrite fprint_text, text_lexes by (auto; apply sep_semi). rewrite sx_semi_nl, pre_app. reflexivity. }
      destruct env.
      * eapply (K "ENVINIT:" E_INIT); [simpl; tauto|discriminate|reflexivity|exact E].
      * eapply (K "SYSINIT:" S_INIT); [simpl; tauto|discriminate|reflexivity|exact E].
    + rewrite pre_app. reflexivity.
  - transitivity (pre [if env then Y_E_INIT else Y_S_INIT] (pre [YSemi] (sx true s))).
    + rewrite !str_assoc. pose proof (sx_semi_nl false s) as E. destruct env.
      * eapply (K "ENVINIT:" E_INIT); [simpl; tauto|discriminate|reflexivity|exact E].
      * eapply (K "SYSINIT:" S_INIT); [simpl; tauto|discriminate|reflexivity|exact E].
    + rewrite pre_app. reflexivity.
  - destruct fs as [|f fs].
    + transitivity (pre [if env then Y_E_TRANS else Y_S_TRANS] (pre [YSemi] (sx true s))).
      * rewrite !str_assoc. pose proof (sx_semi_nl false s) as E. destruct env.
        -- eapply (K "ENVTRANS:" E_TRANS); [simpl; tauto|discriminate|reflexivity|exact E].
        -- eapply (K "SYSTRANS:" S_TRANS); [simpl; tauto|discriminate|reflexivity|exact E].
      * rewrite pre_app. reflexivity.
    + set (l := f :: fs) in *.
      transitivity (pre [if env then Y_E_TRANS else Y_S_TRANS] (pre (YSafety :: joined_toks YAndSafety l ++ [YSemi]) (sx true s))).
      * rewrite !str_assoc.
        assert (E : sx false ("[]" ++ joined_text "&[]" l ++ ";" ++ nl ++ s)%string =
                    pre (YSafety :: joined_toks YAndSafety l ++ [YSemi]) (sx true s)).
        { rewrite (sx_tok false false _ (joined_text "&[]" l ++ ";" ++ nl ++ s)%string SAFETY_OP YSafety);
            [|apply lx_safety|reflexivity|discriminate].
          - rewrite (sx_joined "&[]" YAndSafety sx_and_safety).
            + rewrite sx_newline, pre_app. reflexivity.
            + intros s0. apply sep_char; reflexivity.
            + discriminate.
            + intros g Hg. apply (H g Hg).
          - assert (Hf : writable f) by (apply (H f); left; auto). unfold l.
            destruct fs as [|g fs]; cbn [joined_text]; rewrite ?str_assoc, fprint_text; apply opens_not; auto; apply opens_lt. }
        destruct env.
        -- eapply (K "ENVTRANS:" E_TRANS); [simpl; tauto|discriminate|reflexivity|exact E].
        -- eapply (K "SYSTRANS:" S_TRANS); [simpl; tauto|discriminate|reflexivity|exact E].
      * rewrite pre_app. reflexivity.
  - destruct fs as [|f fs].
    + transitivity (pre [if env then Y_E_GOAL else Y_S_GOAL] (pre [YSemi] (sx true s))).
      * rewrite !str_assoc. pose proof (sx_semi_nl false s) as E. destruct env.
        -- eapply (K "ENVGOAL:" E_GOAL); [simpl; tauto|discriminate|reflexivity|exact E].
        -- eapply (K "SYSGOAL:" S_GOAL); [simpl; tauto|discriminate|reflexivity|exact E].
      * rewrite pre_app. reflexivity.
    + set (l := f :: fs) in *.
      transitivity (pre [if env then Y_E_GOAL else Y_S_GOAL] (pre (YLiveness :: joined_toks YAndLiveness l ++ [YSemi]) (sx true s))).
      * rewrite !str_assoc.
        assert (E : sx false ("[]<>" ++ joined_text "&[]<>" l ++ ";" ++ nl ++ s)%string =
                    pre (YLiveness :: joined_toks YAndLiveness l ++ [YSemi]) (sx true s)).
        { rewrite (sx_tok false false _ (joined_text "&[]<>" l ++ ";" ++ nl ++ s)%string LIVENESS_OP YLiveness);
            [|apply lx_liveness|reflexivity|discriminate].
          rewrite (sx_joined "&[]<>" YAndLiveness).
          + rewrite sx_newline, pre_app. reflexivity.
          + intros b s0 _. apply sx_and_liveness.
          + intros s0. apply sep_char; reflexivity.
          + discriminate.
          + intros g Hg. apply (H g Hg). }
        destruct env.
        -- eapply (K "ENVGOAL:" E_GOAL); [simpl; tauto|discriminate|reflexivity|exact E].
        -- eapply (K "SYSGOAL:" S_GOAL); [simpl; tauto|discriminate|reflexivity|exact E].
      * rewrite pre_app. reflexivity.
Qed.
Lemma sx_file : forall ss, (forall s, In s ss -> writable_section s) -> sx true (file_text ss) = Ok (List.concat (map sec_toks ss)).
Proof.
  unfold file_text. induction ss as [|sec ss IH]; intros H; [reflexivity|].
  cbn [map]. rewrite concat_cons. rewrite sx_section by (apply H; left; auto).
  rewrite IH by (intros; apply H; right; auto). reflexivity.
Qed.
Lemma file_spelled : forall ss, (forall s, In s ss -> writable_section s) -> spelled_file ss (List.concat (map sec_toks ss)).
Proof.
  induction ss as [|sec ss IH]; intros H; [constructor|]. cbn [map List.concat]. constructor.
  - apply sec_spelled. apply H. left. auto.
  - apply IH. intros; apply H; right; auto.
Qed.
Lemma file_text_means : forall ss R, (forall s, In s ss -> writable_section s) -> file_means ss = Some R ->
  text_means (file_text ss) R.
Proof.
  intros ss R H E. pose proof (sx_file ss H) as Hx. apply sx_symbols in Hx.
  eexists. exists ss. split; [exact Hx|]. split; [apply file_spelled; auto|exact E].
Qed.

(** ** The sections of a specification *)
Lemma existsb_false : forall x l, ~ In x l -> existsb (String.eqb x) l = false.
Proof.
  intros x l H. destruct (existsb (String.eqb x) l) eqn:E; auto. exfalso. apply H.
  apply existsb_exists in E. destruct E as (y & Hy & E). apply String.eqb_eq in E. subst. auto.
Qed.
Lemma add_evars : forall ds R, NoDup (names (rs_evars R ++ ds ++ rs_svars R)) ->
  add_vars true ds R = Some (set_vars true (rs_evars R ++ ds) R).
Proof.
  induction ds as [|d ds IH]; intros R H.
  - simpl. rewrite app_nil_r. destruct R; reflexivity.
  - cbn [add_vars]. rewrite existsb_false.
    + rewrite IH; [unfold set_vars, the_vars; simpl; rewrite <- app_assoc; reflexivity|].
      unfold set_vars, the_vars. simpl. rewrite <- app_assoc. exact H.
    + unfold names in *. rewrite map_app in H. simpl in H. apply NoDup_remove_2 in H.
      unfold rs_vars. rewrite map_app in *. intros Hi. apply H. apply in_app_or in Hi. apply in_or_app.
      destruct Hi; auto. right. apply in_or_app. auto.
Qed.
Lemma add_svars : forall ds R, NoDup (names (rs_evars R ++ rs_svars R ++ ds)) ->
  add_vars false ds R = Some (set_vars false (rs_svars R ++ ds) R).
Proof.
  induction ds as [|d ds IH]; intros R H.
  - simpl. rewrite app_nil_r. destruct R; reflexivity.
  - cbn [add_vars]. rewrite existsb_false.
    + rewrite IH; [unfold set_vars, the_vars; simpl; rewrite <- app_assoc; reflexivity|].
      unfold set_vars, the_vars. simpl. rewrite <- app_assoc. exact H.
    + unfold names in *. rewrite app_assoc, map_app in H. simpl in H. apply NoDup_remove_2 in H.
      unfold rs_vars. intros Hi. apply H. apply in_or_app. auto.
Qed.
Lemma add_sections_app : forall a b R, add_sections (a ++ b) R =
  match add_sections a R with Some R' => add_sections b R' | None => None end.
Proof.
  induction a as [|s a IH]; intros b R; [reflexivity|]. simpl. destruct (add_section s R); auto.
Qed.
Lemma add_opt : forall env f R, the_init env R = None ->
  add_sections (opt_section f env) R = Some (set_init env f R).
Proof.
  intros env [f|] R H; simpl.
  - rewrite H. reflexivity.
  - rewrite set_init_none by auto. reflexivity.
Qed.
Lemma add_tlist : forall env fs R, the_trans env R = [] ->
  add_sections (list_section (STrans env) fs) R = Some (set_trans env fs R).
Proof.
  intros env [|f fs] R H; simpl.
  - destruct env, R; simpl in *; subst; reflexivity.
  - rewrite H. reflexivity.
Qed.
Lemma add_glist : forall env fs R, the_goals env R = [] ->
  add_sections (list_section (SGoal env) fs) R = Some (set_goals env fs R).
Proof.
  intros env [|f fs] R H; simpl.
  - destruct env, R; simpl in *; subst; reflexivity.
  - destruct env; simpl; simpl in H; rewrite H; reflexivity.
Qed.
Lemma NoDup_app_left : forall A (a b : list A), NoDup (a ++ b) -> NoDup a.
Proof.
  induction a as [|x a IH]; intros b H; [constructor|]. inversion H; subst. constructor; eauto.
  intros Hi. apply H2. apply in_or_app. auto.
Qed.
Lemma sections_mean : forall R, NoDup (names (rs_vars R)) -> file_means (sections_of R) = Some R.
Proof.
  intros R H. unfold file_means, sections_of. cbn [app add_sections add_section].
  rewrite add_evars by (simpl; unfold rs_vars, names in H; rewrite map_app in H; rewrite app_nil_r;
    apply NoDup_app_left in H; exact H).
  rewrite add_svars by (simpl; exact H).
  rewrite add_sections_app, add_opt by reflexivity.
  rewrite add_sections_app, add_opt by reflexivity.
  rewrite add_sections_app, add_tlist by reflexivity.
  rewrite add_sections_app, add_tlist by reflexivity.
  rewrite add_sections_app, add_glist by reflexivity.
  rewrite add_glist by reflexivity.
  destruct R; reflexivity.
Qed.
Lemma spec_text_means : forall R, writable_spec R -> text_means (file_text (sections_of R)) R.
Proof. intros R [H1 H2]. apply file_text_means; auto. apply sections_mean; auto. Qed.

(** ** The parser on texts *)
Lemma spelled_no_formula : forall ss ts, spelled_file ss ts -> no_formula ts.
Proof.
  intros ss ts H. destruct H; [exact I|]. destruct (spelled_head _ _ H) as (k & r & -> & Hk). exact Hk.
Qed.
Lemma text_parse : forall text R, text_means text R -> yyparse text = Ok (Some (raw_of R)).
Proof.
  intros text R (ys & ss & H1 & H2 & H3). apply text_symbols_iff in H1. destruct H1 as (ts & H1 & <-).
  unfold yyparse. rewrite H1. simpl.
  apply yyparse_exact; [eapply spelled_no_formula; eauto|]. eauto.
Qed.
Lemma text_parse_only : forall text raw, text_no_formula text -> yyparse text = Ok (Some raw) ->
  exists R, text_means text R /\ raw = raw_of R.
Proof.
  intros text raw H E. unfold yyparse in E. apply bind_ok in E. destruct E as (ts & El & E).
  assert (Hs : text_symbols text (symbols ts)) by (apply text_symbols_iff; eauto).
  apply yyparse_exact in E; [|apply H; exact Hs]. destruct E as (ss & R & H1 & H2 & ->).
  exists R. split; auto. exists (symbols ts), ss. auto.
Qed.
Lemma raw_of_inj : forall R R', raw_of R = raw_of R' -> R = R'.
Proof.
  assert (V : forall a b, vlist a = vlist b -> a = b).
  { induction a as [|[x d] a IH]; intros [|[y e] b] H; auto; try discriminate. simpl in H. injection H as -> -> H. f_equal. auto. }
  assert (O : forall a b, opt_tree a = opt_tree b -> a = b).
  { intros [a|] [b|] H; auto; simpl in H.
    - f_equal. apply tree_of_inj; auto.
    - destruct a; discriminate.
    - destruct b; discriminate. }
  assert (L : forall a b, map tree_of a = map tree_of b -> a = b).
  { induction a as [|x a IH]; intros [|y b] H; auto; try discriminate. simpl in H. injection H as H1 H2. f_equal; auto. apply tree_of_inj; auto. }
  intros [] [] H. unfold raw_of in H. simpl in H. injection H as H1 H2 H3 H4 H5 H6 H7 H8.
  f_equal; auto.
Qed.
Lemma text_means_unique : forall text R R', text_means text R -> text_means text R' -> R = R'.
Proof.
  intros text R R' H H'. apply text_parse in H, H'. apply raw_of_inj. congruence.
Qed.

(** ** Parsing ends, whatever the text *)
Lemma formula_shorter : forall t gen ts tr rest, formula t gen ts = Some (tr, rest) -> List.length rest < List.length ts.
Proof.
  intros t gen ts tr rest E. destruct (formula_sound _ _ _ _ _ E) as (a & f & -> & Hr & _).
  apply reads_ne in Hr. rewrite app_length. destruct a; [congruence|]. simpl. lia.
Qed.
Lemma plist_ends : forall n t p gen acc ts, List.length ts < n ->
  exists o, plist n t p gen acc ts = Ok o /\ forall l r, o = Some (l, r) -> List.length r < List.length ts.
Proof.
  induction n as [|n IH]; intros t p gen acc ts Hn; [lia|]. cbn [plist].
  destruct (formula t gen ts) as [[tr rest]|] eqn:Ef; [|eexists; split; [reflexivity|discriminate]].
  apply formula_shorter in Ef.
  destruct rest as [|k rest]; [eexists; split; [reflexivity|discriminate]|]. simpl in Ef. destruct (p k).
  - destruct (IH t p NULL (acc ++ [tr]) rest) as (o & Ho & Hl); [lia|]. exists o. split; auto.
    intros l r E. apply Hl in E. lia.
  - destruct k; eexists; (split; [reflexivity|]); try discriminate. intros l r E. injection E as _ <-. lia.
Qed.
Lemma pvars_shorter : forall n env c ts c' r, List.length ts <= n -> pvars env c ts = Some (c', r) -> List.length r < List.length ts.
Proof.
  induction n as [|n IH]; intros env c ts c' r Hn E.
  - destruct ts; [discriminate|simpl in Hn; lia].
  - destruct ts as [|k ts]; [discriminate|]. simpl in Hn. destruct k; try discriminate E.
    + assert (G : forall d, match declare env x d c with Some c1 => pvars env c1 ts | None => None end = Some (c', r) ->
        List.length r < S (List.length ts)).
      { intros d H. destruct (declare env x d c); [|discriminate]. apply IH in H; [lia|lia]. }
      destruct ts as [|k1 ts]; [eapply (G (-1)%Z); exact E|].
      destruct k1; try (eapply (G (-1)%Z); exact E).
      cbn [pvars] in E. destruct ts as [|[] ts]; try discriminate E. destruct ts as [|[] ts]; try discriminate E.
      destruct ts as [|[] ts]; try discriminate E. destruct ts as [|[] ts]; try discriminate E.
      destruct (negb (z =? 0)%Z); [discriminate|]. destruct (z0 <? 0)%Z; [discriminate|].
      destruct (declare env x z0 c); [|discriminate]. simpl in Hn. apply IH in E; [simpl; lia|lia].
    + simpl in E. injection E as <- <-. simpl. lia.
Qed.
Lemma pinit_shorter : forall get set s ts s' r, pinit get set s ts = Some (s', r) -> List.length r < List.length ts.
Proof.
  intros get set s ts s' r E. unfold pinit in E. destruct ts as [|k ts].
  - destruct (formula false (p_gen s) []) as [[tr [|[] rest]]|] eqn:Ef; try discriminate E.
    apply formula_shorter in Ef. simpl in Ef. lia.
  - assert (G : match formula false (p_gen s) (k :: ts) with
      | Some (tr, YSemi :: r0) => if is_null_tree (get (p_spc s)) then Some ({| p_spc := set tr (p_spc s); p_gen := NULL |}, r0) else None
      | _ => None end = Some (s', r) -> List.length r < List.length (k :: ts)).
    { clear E. intros E. destruct (formula false (p_gen s) (k :: ts)) as [[tr [|k' rest]]|] eqn:Ef; try discriminate E.
      apply formula_shorter in Ef. destruct k'; try discriminate E. destruct (is_null_tree _); [|discriminate].
      injection E as _ <-. simpl in *. lia. }
    destruct k; try (apply G; exact E). destruct (is_null_tree _); [|discriminate]. injection E as _ <-. simpl. lia.
Qed.
Lemma body_ends : forall n s k ts, List.length ts < n ->
  exists o, body n s k ts = Ok o /\ forall s' r, o = Some (s', r) -> List.length r < List.length ts.
Proof.
  intros n s k ts Hn.
  assert (T : forall get set, exists o, ptrans n get set s ts = Ok o /\ forall s' r, o = Some (s', r) -> List.length r < List.length ts).
  { intros get set. unfold ptrans. destruct ts as [|k0 ts]; [eexists; split; [reflexivity|discriminate]|].
    destruct k0; try (eexists; split; [reflexivity|discriminate]).
    - simpl in Hn. destruct (plist_ends n true is_and_safety (p_gen s) (get (p_spc s)) ts) as (o & Ho & Hl); [lia|].
      rewrite Ho. destruct o as [[l r]|]; eexists; (split; [reflexivity|]); try discriminate.
      intros s' r' E. injection E as _ <-. specialize (Hl _ _ eq_refl). simpl. lia.
    - destruct (get (p_spc s)); eexists; (split; [reflexivity|]); intros s' r' E; injection E as _ <-; simpl; lia. }
  assert (G : forall env get set, exists o, pgoals n env get set s ts = Ok o /\ forall s' r, o = Some (s', r) -> List.length r < List.length ts).
  { intros env get set. unfold pgoals. destruct ts as [|k0 ts]; [eexists; split; [reflexivity|discriminate]|].
    destruct k0; try (eexists; split; [reflexivity|discriminate]).
    - simpl in Hn. destruct (plist_ends n false is_and_liveness (p_gen s) (get (p_spc s)) ts) as (o & Ho & Hl); [lia|].
      rewrite Ho. destruct o as [[l r]|]; eexists; (split; [reflexivity|]); try discriminate.
      intros s' r' E. injection E as _ <-. specialize (Hl _ _ eq_refl). simpl. lia.
    - eexists; (split; [reflexivity|]); intros s' r' E; injection E as _ <-; simpl; lia. }
  assert (V : forall env, exists o : option (pstate * list ysym), Ok (option_map (fun p : raw_t * list ysym => ({| p_spc := fst p; p_gen := p_gen s |}, snd p)) (pvars env (p_spc s) ts)) = Ok o /\ forall s' r, o = Some (s', r) -> List.length r < List.length ts).
  { intros env. eexists. split; [reflexivity|]. intros s' r E.
    destruct (pvars env (p_spc s) ts) as [[c r0]|] eqn:Ev; [|discriminate]. simpl in E. injection E as _ <-.
    eapply pvars_shorter; eauto. }
  assert (I : forall get set, exists o : option (pstate * list ysym), Ok (pinit get set s ts) = Ok o /\ forall s' r, o = Some (s', r) -> List.length r < List.length ts).
  { intros get set. eexists. split; [reflexivity|]. intros s' r E. eapply pinit_shorter; eauto. }
  destruct k; simpl; auto; eexists; (split; [reflexivity|discriminate]).
Qed.
Lemma pexps_ends : forall n ts s, List.length ts < n -> exists o, pexps n s ts = Ok o.
Proof.
  induction n as [|n IH]; intros ts s Hn; [lia|]. destruct ts as [|k ts]; [simpl; eauto|].
  rewrite pexps_body. simpl in Hn. destruct (body_ends n s k ts) as (o & Ho & Hl); [lia|]. rewrite Ho. simpl.
  destruct o as [[s' r]|]; [|eauto]. apply IH. specialize (Hl _ _ eq_refl). lia.
Qed.
Lemma yyparse_total : forall text, exists o, yyparse text = Ok o.
Proof.
  intros text. unfold yyparse, yylex. destruct (lex_total (S (String.length text)) true text (le_S _ _ (le_n _))) as [ts Ht]. rewrite Ht. simpl. unfold yyparse_tokens.
  set (l := symbols ts). clearbody l. clear.
  assert (G : forall s r, List.length r <= List.length l -> exists o, (r0 <- pexps (S (List.length l)) s r ;; Ok (option_map p_spc r0)) = Ok o).
  { intros s r Hr. destruct (pexps_ends (S (List.length l)) r s) as [o Ho]; [lia|]. rewrite Ho. simpl. eauto. }
  destruct l as [|k l']; [apply G; auto|]. destruct (starts_formula k); [|apply G; auto].
  destruct (formula false NULL (k :: l')) as [[tr r]|] eqn:E; [|simpl; eauto].
  apply G. apply formula_shorter in E. lia.
Qed.
Lemma text_rejected : forall text, text_no_formula text -> (~ exists R, text_means text R) <-> yyparse text = Ok None.
Proof.
  intros text H. split.
  - intros Hn. destruct (yyparse_total text) as [[raw|] Ho]; auto. exfalso. apply Hn.
    destruct (text_parse_only _ _ H Ho) as (R & HR & _). eauto.
  - intros E (R & HR). apply text_parse in HR. congruence.
Qed.

(** ** The program on texts *)
Section Run.
  Variables (orc : oracle) (alloc : nat -> aut -> nat).
  Lemma text_run : forall fuel mode flags text R, text_means text R -> form_ok flags R ->
    gr1c_text orc alloc fuel mode flags text = (r <- gr1c_main orc alloc fuel mode flags (raw_of R) ;; Ok (Ran r)).
  Proof.
    intros fuel mode flags text R H HF. unfold gr1c_text. rewrite (text_parse _ _ H). cbn [bind].
    destruct (form_check_ok flags R) as [[_ E]|[Hn _]]; [|tauto]. rewrite E. reflexivity.
  Qed.
  Lemma text_bad_form : forall fuel mode flags text R, text_means text R -> ~ form_ok flags R ->
    gr1c_text orc alloc fuel mode flags text = Ok FormError.
  Proof.
    intros fuel mode flags text R H HF. unfold gr1c_text. rewrite (text_parse _ _ H). cbn [bind].
    destruct (form_check_ok flags R) as [[Hn _]|(_ & s & E & _)]; [tauto|]. rewrite E. reflexivity.
  Qed.
  Lemma text_bad : forall fuel mode flags text, text_no_formula text -> (~ exists R, text_means text R) ->
    gr1c_text orc alloc fuel mode flags text = Ok SyntaxError.
  Proof.
    intros fuel mode flags text H HF. unfold gr1c_text. apply text_rejected in HF; auto. rewrite HF. reflexivity.
  Qed.
End Run.

(** ** Printed formulas *)
Lemma str_nil_r : forall s, (s ++ "")%string = s.
Proof. induction s; simpl; congruence. Qed.
Lemma sep_nil : sep "".
Proof. split; reflexivity. Qed.
Lemma printed_tokens : forall f, writable f -> exists s,
  print_formula FORMULA_SYNTAX_GR1C (tree_of f) = Ok s /\ text_symbols s (toks f).
Proof.
  intros f H. exists (text f). assert (E : sx true (text f) = Ok (toks f)).
  { rewrite <- (str_nil_r (text f)). rewrite text_lexes by (auto; apply sep_nil). simpl. rewrite app_nil_r. reflexivity. }
  split; [apply print_text|]. now apply sx_symbols.
Qed.
Lemma read_symbols : forall t s ys, text_symbols s ys ->
  read_formula t s = Ok (match formula t NULL ys with Some (tr, []) => Some tr | _ => None end).
Proof.
  intros t s ys H. apply text_symbols_iff in H. destruct H as (ts & H & <-). unfold read_formula. rewrite H. reflexivity.
Qed.
Lemma printed_reads_back : forall t f, writable f -> clash_free f = true -> (t = false -> fnexts f = []) ->
  exists s ys, print_formula FORMULA_SYNTAX_GR1C (tree_of f) = Ok s /\ text_symbols s ys /\
    derives t ys f /\ (forall g, derives t ys g -> g = f) /\
    read_formula t s = Ok (Some (tree_of f)).
Proof.
  intros t f H1 H2 H3. destruct (printed_tokens f H1) as (s & E1 & E2). exists s, (toks f).
  pose proof (toks_reads t f H2 H3) as HR.
  split; [auto|]. split; [auto|]. split; [eapply reads_derives; eauto|].
  split; [intros g; apply toks_unique; auto|]. rewrite (read_symbols t s _ E2).
  rewrite <- (app_nil_r (toks f)). rewrite (formula_complete t LUnit (toks f) f NULL []); auto.
  - rewrite attach_nil. reflexivity.
  - exact I.
Qed.
Lemma printed_clash : forall t f, writable f -> clash_free f = false ->
  exists s ys, print_formula FORMULA_SYNTAX_GR1C (tree_of f) = Ok s /\ text_symbols s ys /\
    (forall g, ~ derives t ys g) /\ read_formula t s = Ok None.
Proof.
  intros t f H1 H2. destruct (printed_tokens f H1) as (s & E1 & E2). exists s, (toks f).
  split; [auto|]. split; [auto|].
  assert (HN : forall g, ~ derives t (toks f) g) by (intros g; apply toks_clash; auto).
  split; auto. rewrite (read_symbols t s _ E2).
  destruct (formula t NULL (toks f)) as [[tr [|k r]]|] eqn:E; auto.
  apply formula_sound in E. destruct E as (p & g & E & Hr & _). rewrite app_nil_r in E. subst p.
  apply reads_derives in Hr. exfalso. eapply HN; eauto.
Qed.
Lemma formula_accepts : forall t ts tr, formula t NULL ts = Some (tr, []) <-> exists f, reads t LIff ts f /\ tr = tree_of f.
Proof.
  intros t ts tr. split.
  - intros E. apply formula_sound in E. destruct E as (p & f & E & Hr & Ht). rewrite app_nil_r in E. subst p.
    rewrite attach_nil in Ht. eauto.
  - intros (f & Hr & ->). rewrite <- (app_nil_r ts) at 1. rewrite (formula_complete t LIff ts f NULL []); auto.
    + rewrite attach_nil. reflexivity.
    + exact I.
Qed.
Lemma formula_derivable : forall t ts, (exists f, derives t ts f) <-> exists tr, formula t NULL ts = Some (tr, []).
Proof.
  intros t ts. split.
  - intros (f & H). apply derives_reads in H. destruct H as (g & Hg). exists (tree_of g). apply formula_accepts. eauto.
  - intros (tr & E). apply formula_accepts in E. destruct E as (f & Hr & _). exists f. eapply reads_derives; eauto.
Qed.

(** ** The program answers right *)
Section Right.
  Variables (orc : oracle) (alloc : nat -> aut -> nat) (R : rspec) (flags : init_flags_t) (text : string).
  Hypothesis HM : text_means text R.
  Hypothesis HF : form_ok flags R.
  Lemma text_right : forall P, synth_right R orc alloc flags P ->
    exists N, forall fuel, (N <= fuel)%nat -> forall r,
    gr1c_text orc alloc fuel MODE_SYNTHESIS flags text = Ok r -> exists r', r = Ran r' /\ right_answer R flags P r'.
  Proof.
    intros P (N & H). exists N. intros fuel Hn r E. rewrite (text_run orc alloc fuel MODE_SYNTHESIS flags text R HM HF) in E.
    apply bind_ok in E. destruct E as (r' & E & Er). injection Er as <-. eauto.
  Qed.
  Lemma text_ends : synth_ends R orc alloc flags ->
    rs_evars R <> [] \/ rs_etrans R = [] ->
    exists N, forall fuel, (N <= fuel)%nat -> exists r,
      gr1c_text orc alloc fuel MODE_SYNTHESIS flags text = Ok (Ran r) /\ r <> SynthFailed.
  Proof.
    intros H He. destruct (H He) as (N & HN). exists N. intros fuel Hn. destruct (HN fuel Hn) as (r & E & Hr).
    exists r. split; auto. rewrite (text_run orc alloc fuel MODE_SYNTHESIS flags text R HM HF), E. reflexivity.
  Qed.
  Lemma text_verdict : forall P, usable R -> chain_gives R flags P ->
    exists N, forall fuel, (N <= fuel)%nat -> exists r,
      gr1c_text orc alloc fuel MODE_REALIZABLE flags text = Ok (Ran r) /\ right_verdict P r.
  Proof.
    intros P HU HC. destruct (run_realizable R orc alloc flags P HU HC) as (N & HN). exists N. intros fuel Hn.
    destruct (HN fuel Hn) as (r & E & Hr). exists r. split; auto.
    rewrite (text_run orc alloc fuel MODE_REALIZABLE flags text R HM HF), E. reflexivity.
  Qed.
End Right.

Lemma text_aes : forall orc alloc text R,
  text_means text R -> form_ok ALL_ENV_EXIST_SYS_INIT R -> usable R -> tools R orc alloc ->
  (exists s, In s (fs_states (fspec_of R)) /\ holds_opt (fspec_of R) (rs_sinit R) s = true) ->
  (exists N, forall fuel, (N <= fuel)%nat -> forall r,
     gr1c_text orc alloc fuel MODE_SYNTHESIS ALL_ENV_EXIST_SYS_INIT text = Ok r -> exists r', r = Ran r' /\
     right_answer R ALL_ENV_EXIST_SYS_INIT
       (forall e, In e (fs_envs (fspec_of R)) -> holds_env (fspec_of R) (rs_einit R) e = true ->
         exists s, In s (fs_states (fspec_of R)) /\ g_env (game_of (fspec_of R)) s = e /\
           holds_opt (fspec_of R) (rs_sinit R) s = true /\ sys_wins (game_of (fspec_of R)) s) r') /\
  ((exists s, initial (fspec_of R) s) -> rs_evars R <> [] \/ rs_etrans R = [] ->
   exists N, forall fuel, (N <= fuel)%nat -> exists r,
     gr1c_text orc alloc fuel MODE_SYNTHESIS ALL_ENV_EXIST_SYS_INIT text = Ok (Ran r) /\ r <> SynthFailed).
Proof.
  intros orc alloc text R HM HF HU HT Hs. pose proof HF as HF'. destruct HF' as (_ & Ha & _).
  destruct (Ha eq_refl) as [Hi1 Hi2].
  destruct (run_aes R orc alloc HU HT) as [H1 H2]; auto.
  - destruct (rs_einit R); simpl in *; auto. apply Hi1.
  - destruct (rs_sinit R); simpl in *; auto. apply Hi2.
  - split; [apply text_right; auto|]. intros He. apply text_ends; auto.
Qed.

(** ** Examples *)
Lemma ex_int_written : writable_spec ex_int /\ file_text (sections_of ex_int) =
"ENV: x[0,2];
SYS: b;
ENVINIT:(x=0);
SYSINIT:(!b);
ENVTRANS:[]((x=1)->(x'=2));
SYSTRANS:[]((x'<1)->(!b'))&[](b->((x'!=2)|(!b')));
ENVGOAL:[]<>(x=2);
SYSGOAL:[]<>b&[]<>(!b);
".
Proof.
  split; [|vm_compute; reflexivity]. split.
  - repeat constructor; simpl; intuition discriminate.
  - intros s H. cbn in H.
    repeat match goal with H : _ \/ _ |- _ => destruct H as [<-|H] end; [..|destruct H]; cbn;
      unfold writable_form, writable_decl, identifier, int_number; cbn;
      intros; repeat match goal with H : _ \/ _ |- _ => destruct H as [<-|H] end; try contradiction;
      repeat split; try discriminate; try lia; auto.
Qed.

Lemma means_by_parse : forall text R, text_no_formula text -> yyparse text = Ok (Some (raw_of R)) -> text_means text R.
Proof.
  intros text R H E. destruct (text_parse_only _ _ H E) as (R' & HR & E'). apply raw_of_inj in E'. subst. auto.
Qed.
Definition ex_text : string :=
"# a room and a lamp
ENV: x[0,2];
SYS: b;
ENVINIT: x = 0;
SYSINIT: !b;

ENVTRANS: [](x = 1 -> x' = 2);
SYSTRANS:  # two rules
  [](x' < 1 -> !b')
  & [](b -> x' != 2 | !b');
ENVGOAL: []<>(x=2);
SYSGOAL: []<>b & []<>!b;
".
Lemma ex_text_means : text_means ex_text ex_int.
Proof.
  apply means_by_parse.
  - intros ys H. apply text_symbols_iff in H. destruct H as (ts & H & <-). assert (E : exists l, yylex ex_text = Ok l /\ no_formula (symbols l)) by (eexists; split; [vm_compute; reflexivity|reflexivity]).
    destruct E as (l & E & Hl). rewrite E in H. injection H as <-. exact Hl.
  - vm_compute. reflexivity.
Qed.
Lemma ex_int_form : forall flags, flags <> ONE_SIDE_INIT -> form_ok flags ex_int.
Proof.
  intros flags Hf. destruct (form_check_ok flags ex_int) as [[H _]|(_ & s & H & _)]; [auto|].
  exfalso. destruct flags; try congruence; vm_compute in H; discriminate H.
Qed.
Lemma ex_text_run : text_means ex_text ex_int /\ form_ok ALL_INIT ex_int /\ form_ok ALL_ENV_EXIST_SYS_INIT ex_int /\
  usable ex_int /\ tools ex_int robdd_oracle alloc_max /\
  exists A, gr1c_text robdd_oracle alloc_max 40 MODE_SYNTHESIS ALL_INIT ex_text =
     Ok (Ran (Strategy A (vlist [("x", 2%Z)]) (vlist [("b", (-1)%Z)]))) /\ List.length A = 5.
Proof.
  destruct main_instance as (H1 & H2 & _ & _ & _ & _ & A & E & HA).
  split; [apply ex_text_means|]. split; [apply ex_int_form; discriminate|]. split; [apply ex_int_form; discriminate|].
  split; auto. split; auto. exists A.
  rewrite (text_run robdd_oracle alloc_max 40 MODE_SYNTHESIS ALL_INIT ex_text ex_int ex_text_means)
    by (apply ex_int_form; discriminate).
  rewrite E. split; [reflexivity|]. apply (f_equal (@List.length _)) in HA. rewrite map_length in HA. exact HA.
Qed.
