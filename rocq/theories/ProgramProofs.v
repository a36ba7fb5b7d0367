(** Proofs about whole runs (Program.v). *)
From Coq Require Import List ZArith Bool Arith Ascii String Lia.
From Verif Require Import Base Game Strs Ptree Form Support EnumProofs Solve SolveProofs FSpec RealProofs EncProofs Automaton AutProofs
  SynthSpec Synth Nonbool NonboolProofs RSpec Main MainSpec PipeVerdict MainProofs FormCheck ListSpec ListProofs AutIO AutIOSpec AutIOProofs
  Lex LexSpec Parse Syntax FileSpec TextSpec TextProofs AutWrite Output JsonSpec JsonWrite FormatSpec WriteProofs DotProofs FormatProofs
  Options OptSpec OptProofs Program ProgramSpec.
Import ListNotations.
Open Scope string_scope.
Open Scope list_scope.
Open Scope Z_scope.

(** ** Names in texts *)
Lemma star_word : forall r t, matches r t -> forall p, r = Star (Chr p) -> (forall c, p c -> word_char c) -> chars word_char t.
Proof.
  induction 1; intros p0 E Hp; try discriminate E; cbn; auto.
  injection E as ->. inversion H; subst. cbn. split; auto. eapply IHmatches2; eauto.
Qed.
Lemma identifier_word : forall t, matches identifier_re t -> t <> "" /\ chars word_char t.
Proof.
  intros t H. unfold identifier_re in H. inversion H; subst. inversion H2; subst. cbn. split; [discriminate|].
  split; [left; auto|]. eapply star_word; eauto.
Qed.
Lemma tokens_words : forall b s ts, tokens b s ts -> forall x, In (VARIABLE x) ts -> x <> "" /\ chars word_char x.
Proof.
  induction 1; intros x Hx; auto; [destruct Hx|]. destruct Hx as [Hx|Hx]; auto.
  destruct H as [(w' & r' & e & E & _ & _ & Hm & _) _]. rewrite H0 in E. injection E as <- <- <-.
  clear - Hx Hm H0.
  assert (V : In (w, r, Gives f) flex_rules) by (eapply nth_error_In; eauto). clear H0.
  assert (K : forall q, In q flex_rules -> q = (w, r, Gives f) -> x <> "" /\ chars word_char x); [|eapply K; eauto].
  intros q Hq Eq. cbn in Hq.
  repeat (destruct Hq as [<-|Hq]; [try discriminate Eq; inversion Eq; subst; first [discriminate Hx | injection Hx as ->; apply identifier_word; exact Hm]|]).
  destruct Hq.
Qed.
Lemma symbols_words : forall ts ys, as_symbols ts ys -> forall x, In (YVar x) ys -> In (VARIABLE x) ts.
Proof.
  induction 1; intros x Hx; [destruct Hx|destruct Hx|]. destruct Hx as [->|Hx]; [|right; auto].
  left. inversion H; subst; auto.
  - cbn in H1. repeat destruct H1 as [H1|H1]; try discriminate H1. destruct H1.
  - cbn in H1. repeat destruct H1 as [H1|H1]; try discriminate H1. destruct H1.
Qed.
Definition decl_in (ys : list ysym) (d : vdecl) : Prop := In (YVar (fst d)) ys /\ domain_ok d.
Lemma decls_in : forall ds a, spelled_decls ds a -> forall d, In d ds -> decl_in a d.
Proof.
  induction 1 as [|d0 ds a b Hd Hds IH]; intros d Hi; [destruct Hi|]. destruct Hi as [<-|Hi].
  - unfold decl_in, domain_ok. inversion Hd; subst; cbn; auto.
  - destruct (IH d Hi) as [H1 H2]. split; auto. apply in_or_app. auto.
Qed.
Lemma add_vars_in : forall env ds R R', add_vars env ds R = Some R' ->
  forall d, In d (rs_vars R') -> In d (rs_vars R) \/ In d ds.
Proof.
  intros env. induction ds as [|d0 ds IH]; intros R R' E d Hd; cbn [add_vars] in E; [injection E as <-; auto|].
  destruct (existsb _ _); [discriminate E|]. destruct (IH _ _ E d Hd) as [H|H]; [|right; right; auto].
  unfold rs_vars, set_vars, the_vars in H. destruct env; cbn in H; rewrite ?in_app_iff in H;
    unfold rs_vars; rewrite in_app_iff; cbn in *; intuition subst; auto.
Qed.
Lemma add_section_in : forall s R R' a, spelled s a -> add_section s R = Some R' ->
  forall d, In d (rs_vars R') -> In d (rs_vars R) \/ decl_in a d.
Proof.
  intros s R R' a Hs E d Hd. destruct Hs; cbn [add_section] in E.
  1: { destruct (add_vars_in _ _ _ _ E d Hd) as [X|X]; auto. right. destruct (decls_in _ _ H d X) as [H1 H2]. split; auto.
       right. apply in_or_app. auto. }
  all: left; repeat match type of E with context [match ?x with _ => _ end] => destruct x end;
    try discriminate E; injection E as <-; exact Hd.
Qed.
Lemma file_in : forall ss ys, spelled_file ss ys -> forall R R', add_sections ss R = Some R' ->
  forall d, In d (rs_vars R') -> In d (rs_vars R) \/ decl_in ys d.
Proof.
  induction 1 as [|s ss a b Hs Hss IH]; intros R R' E d Hd; cbn [add_sections] in E; [injection E as <-; auto|].
  destruct (add_section s R) as [R1|] eqn:E1; [|discriminate E]. destruct (IH _ _ E d Hd) as [H|[H1 H2]].
  - destruct (add_section_in _ _ _ _ Hs E1 d H) as [X|[X1 X2]]; auto. right. split; auto. apply in_or_app. auto.
  - right. split; auto. apply in_or_app. auto.
Qed.
Lemma text_decls : forall text R, text_means text R -> forall d, In d (rs_vars R) ->
  fst d <> "" /\ chars word_char (fst d) /\ domain_ok d.
Proof.
  intros text R (ys & ss & (ts & Ht & Hy) & Hs & Hm) d Hd. destruct (file_in _ _ Hs _ _ Hm d Hd) as [H|[H1 H2]]; [destruct H|].
  destruct (tokens_words _ _ _ Ht _ (symbols_words _ _ Hy _ H1)). auto.
Qed.
Lemma chars_imp : forall (p q : ascii -> Prop) s, (forall c, p c -> q c) -> chars p s -> chars q s.
Proof. intros p q. induction s; cbn; intuition. Qed.
Lemma word_name : forall c, word_char c -> name_char c.
Proof.
  intros c H. unfold name_char. cbn zeta.
  change (((97 <= nat_of_ascii c <= 122 \/ 65 <= nat_of_ascii c <= 90 \/ c = "_"%char) \/ 48 <= nat_of_ascii c <= 57 \/ c = "."%char)%nat) in H.
  assert (X : c = "_"%char -> nat_of_ascii c = 95%nat) by (intros ->; reflexivity).
  assert (Y : c = "."%char -> nat_of_ascii c = 46%nat) by (intros ->; reflexivity). intuition.
Qed.
Lemma name_plain : forall c, name_char c -> plain c.
Proof. unfold name_char, plain. intros c H. cbn zeta in H. lia. Qed.

(** ** The description of a strategy *)
Lemma implements_closed : forall R A, implements R A -> closed_aut A.
Proof.
  intros R A H x Hx t Ht. destruct (im_closed R A H x t Hx Ht) as (y & Hy & <-). apply in_map. auto.
Qed.
Lemma implements_fit : forall R A, implements R A -> states_fit (List.length (rs_evars R ++ rs_svars R)) A.
Proof.
  intros R A H x Hx. pose proof (im_states R A H x Hx) as S1. unfold fs_states in S1. apply dvecs_In in S1.
  apply Forall2_len in S1. rewrite <- S1. unfold doms. rewrite map_length. reflexivity.
Qed.
Lemma filter_none : forall (A : Type) (p : A -> bool) l, filter p l = [] <-> forall x, In x l -> p x = false.
Proof.
  intros A p. induction l as [|x l IH]; cbn; [intuition|]. destruct (p x) eqn:E.
  - split; [discriminate|]. intros H. rewrite (H x) in E; auto. discriminate E.
  - rewrite IH. split; [intros H y [<-|Hy]; auto|intros H y Hy; auto].
Qed.
Lemma nonbool_null : forall R, (forall d, In d (rs_vars R) -> domain_ok d) ->
  (is_null (nonbool_items (link (r_evars (raw_of R)) (r_svars (raw_of R)))) = true <->
   forall d, In d (rs_evars R ++ rs_svars R) -> snd d = -1).
Proof.
  intros R H. cbn [raw_of r_evars r_svars]. rewrite SolveProofs.link_vlist, nonbool_items_ok.
  set (l := filter _ _). assert (E : is_null (vlist l) = true <-> l = []).
  { destruct l as [|[x d] l]; cbn; intuition discriminate. }
  rewrite E. unfold l. rewrite filter_none. fold (rs_vars R). split; intros H1 d Hd.
  - specialize (H1 d Hd). apply Z.leb_gt in H1. destruct (H d Hd); lia.
  - rewrite (H1 d Hd). reflexivity.
Qed.
Lemma written_fit : forall key date fmt R A, keys_ok key -> chars plain date ->
  (forall d, In d (rs_vars R) -> fst d <> "" /\ chars word_char (fst d) /\ domain_ok d) ->
  closed_aut A -> states_fit (List.length (rs_evars R ++ rs_svars R)) A ->
  exists text, write_strategy key date fmt
      (negb (is_null (nonbool_items (link (r_evars (raw_of R)) (r_svars (raw_of R)))))) A (vlist (rs_evars R)) (vlist (rs_svars R)) = Ok text /\
    describes key date fmt R A text.
Proof.
  intros key date fmt R A Hk Hd Hn HC HF.
  assert (Hx : good_names (rs_evars R ++ rs_svars R)).
  { intros d Hi. destruct (Hn d Hi) as (X1 & X2 & _). split; auto. eapply chars_imp; [apply word_name|auto]. }
  assert (Hl : Z.of_nat (tree_size (vlist (rs_evars R)) + tree_size (vlist (rs_svars R))) = Z.of_nat (List.length (rs_evars R ++ rs_svars R))).
  { rewrite !JsonWrite.vlist_size, app_length. reflexivity. }
  destruct fmt; cbn [write_strategy describes]; rewrite ?Hl.
  - destruct (list_shape A _ HF HC) as (rows & H1 & H2). rewrite H2. eauto.
  - destruct (tulip_shape _ _ A Hx HF HC) as (text & rows & H1 & H2 & H3). rewrite H1. cbn. eauto.
  - set (nb := is_null _).
    assert (Hnb : nb = true <-> forall d, In d (rs_evars R ++ rs_svars R) -> snd d = -1) by (apply nonbool_null; intros; apply Hn; auto).
    destruct (dot_shape (if negb nb then DotFlags false false true else DotFlags true false true) _ _ A HC HF) as (rows & H1 & H2 & H3).
    assert (HL : dot_look R (style_of (if negb nb then DotFlags false false true else DotFlags true false true))).
    { destruct nb; (split; [reflexivity|]; split; [reflexivity|]); exact Hnb. }
    assert (HT : exists text c, (if negb nb then dot_aut_dump (DotFlags false false true) A (vlist (rs_evars R)) (vlist (rs_svars R))
            else dot_aut_dump (DotFlags true false true) A (vlist (rs_evars R)) (vlist (rs_svars R))) = Ok (text, c) /\
          ((forall r, In r rows -> dot_short (style_of (if negb nb then DotFlags false false true else DotFlags true false true)) (rs_evars R) (rs_svars R) r) ->
            text = dot_file (dot_statements (style_of (if negb nb then DotFlags false false true else DotFlags true false true)) (rs_evars R) (rs_svars R) rows))).
    { set (s := style_of _) in *.
      destruct (forallb (fun r => Z.of_nat (String.length (in_quotes (dot_id s (rs_evars R) (rs_svars R) r))) <? 4096) rows) eqn:X.
      - assert (Y : forall r, In r rows -> dot_short s (rs_evars R) (rs_svars R) r).
        { rewrite forallb_forall in X. intros r Hr. specialize (X r Hr). apply Z.ltb_lt in X. exact X. }
        specialize (H2 Y). exists (dot_file (dot_statements s (rs_evars R) (rs_svars R) rows)), 0. split; auto. destruct nb; exact H2.
      - assert (Y : exists r, In r rows /\ ~ dot_short s (rs_evars R) (rs_svars R) r).
        { clear - X. induction rows as [|r rows IH]; cbn [forallb] in X; [discriminate X|]. apply andb_false_iff in X. destruct X as [X|X].
          - exists r. split; [left; auto|]. unfold dot_short. apply Z.ltb_ge in X. lia.
          - destruct (IH X) as (r' & H1 & H2). exists r'. split; [right|]; auto. }
        destruct (H3 Y) as (text & H4). exists text, (-1). split; [destruct nb; exact H4|]. intros Z. exfalso.
        destruct Y as (r & Y1 & Y2). apply Y2, Z, Y1. }
    destruct HT as (text & c & HT1 & HT2). rewrite HT1. cbn [bind fst]. exists text. split; auto.
    eexists rows, _. split; [exact H1|]. split; [exact HL|]. exact HT2.
  - unfold aut_aut_dump, aut_aut_dumpver. change ((1 =? 0) || (1 =? 1)) with true. cbn [bind]. rewrite Nat2Z.id.
    change (1 =? 1) with true. change 0 with (Z.of_nat 0) at 1. rewrite (dump_nodes_ok A _ true A 0 HF). cbn [bind fst]. eexists. split; [reflexivity|]. exists (rows_aut A).
    split; [apply rows_numbered; auto|]. rewrite lines_text_v1. reflexivity.
  - assert (HP : printable (rs_evars R) (rs_svars R) A).
    { split; [|exact HF]. intros d Hi. destruct (Hx d Hi) as [_ X]. eapply chars_imp; [apply name_plain|exact X]. }
    destruct (json_written key date _ _ A Hk Hd HP) as (text & H1 & H2). rewrite H1. cbn [bind fst]. eauto.
Qed.
Lemma written : forall key date fmt R A, keys_ok key -> chars plain date ->
  (forall d, In d (rs_vars R) -> fst d <> "" /\ chars word_char (fst d) /\ domain_ok d) -> implements R A ->
  exists text, write_strategy key date fmt
      (negb (is_null (nonbool_items (link (r_evars (raw_of R)) (r_svars (raw_of R)))))) A (vlist (rs_evars R)) (vlist (rs_svars R)) = Ok text /\
    describes key date fmt R A text.
Proof. intros. apply written_fit; auto; [eapply implements_closed|apply implements_fit]; eauto. Qed.

(** ** Runs *)
Section Runs.
  Variables (orc : oracle) (alloc : nat -> aut -> nat) (key : nat -> string) (date : string) (W : world).
  Let program fuel := gr1c_program orc alloc key date fuel W.
  Lemma program_go : forall fuel args l file, asked args l file -> exists P,
    (P = true <-> In OPromela l) /\
    program fuel args =
      match open_input W file with
      | None => Ok error_exit
      | Some text =>
          match asked_mode l with
          | GR1C_MODE_SYNTAX => syntax_only (asked_init l) text
          | GR1C_MODE_REALIZABLE =>
              r <- gr1c_run orc alloc key date fuel MODE_REALIZABLE (asked_init l) (asked_format l) text ;;
              Ok (Exits (snd r) (fst r) None)
          | GR1C_MODE_INTERACTIVE =>
              r <- gr1c_interact orc fuel (asked_init l) text (w_stdin W) ;;
              Ok (Exits (snd r) (fst r) None)
          | _ =>
              if P then
                r <- gr1c_run_verify orc alloc key date fuel (asked_init l) (asked_format l) text ;;
                Ok (deliver_verify W (asked_output l) r)
              else
                r <- gr1c_run orc alloc key date fuel MODE_SYNTHESIS (asked_init l) (asked_format l) text ;;
                Ok (deliver W (asked_output l) r)
          end
      end.
  Proof.
    intros fuel args l file (Hc & Hl & Hv & Hh & Q1 & Q2 & Q4 & Q5 & Q6).
    destruct (options_accepted args l file Hc Hl Hv) as (o & (S1 & S2 & S3 & S4 & S5 & S6 & S7 & S8 & S9) & _ & _ & Hgo).
    exists (o_promela o). split; [exact S8|].
    unfold program, gr1c_program, gr1c_go. rewrite Hgo; [|auto|intros [X Y]; exact (Q6 X Y)|intros [X Y]; exact (Q5 X Y)]. cbn [bind].
    assert (V : verbosity l = 0) by (clear - Q4; induction l as [|q l IH]; auto; destruct q; cbn; try (apply IH; intros b Hb; apply (Q4 b); right; auto); exfalso; eapply Q4; left; eauto).
    rewrite S9, V. assert (L1 : o_logging o = false) by (destruct (o_logging o); auto; exfalso; apply Q2, S7; auto).
    assert (L2 : o_ptdump o = false) by (destruct (o_ptdump o); auto; exfalso; apply Q1, S6; auto).
    rewrite L1, L2, S1, S2, S3, S4, S5. change (0 mod 256 =? 0) with true. cbn [orb negb]. fold (asked_mode l) (asked_init l) (asked_format l) (asked_output l).
    reflexivity.
  Qed.
  Lemma program_synth : forall fuel args l file, asked args l file -> asked_mode l = GR1C_MODE_SYNTHESIS -> ~ In OPromela l ->
    program fuel args =
      match open_input W file with
      | None => Ok error_exit
      | Some text =>
          r <- gr1c_run orc alloc key date fuel MODE_SYNTHESIS (asked_init l) (asked_format l) text ;;
          Ok (deliver W (asked_output l) r)
      end.
  Proof.
    intros fuel args l file HA Hm Hp. destruct (program_go fuel args l file HA) as (P & HP & ->). rewrite Hm.
    destruct P; [exfalso; tauto|reflexivity].
  Qed.
  Lemma input_open : forall file text, input_text W file text -> open_input W file = Some text.
  Proof. intros [f|] text H; cbn in *; congruence. Qed.
  Lemma asked_init_set : forall args l file, line args l file -> asked_init l <> UNDEFINED_INIT.
  Proof.
    intros args l file (ws & tl & H & _). unfold asked_init, OptSpec.chosen.
    assert (K : forall x, In x (flat_map (fun o => match init_of o with Some a => [a] | None => [] end) l) -> x <> UNDEFINED_INIT).
    { intros x Hx. apply in_flat_map in Hx. destruct Hx as (o & Ho & Hx).
      assert (exists w, writes o w) as [w Hw].
      { clear - H Ho. induction H; [destruct Ho|]. destruct Ho as [<-|Ho]; eauto. }
      destruct Hw; cbn in Hx; try contradiction; destruct Hx as [<-|Hx]; try contradiction. destruct H0; discriminate. }
    set (L := flat_map _ l) in *. clearbody L. clear - K. induction L as [|a L IH]; [discriminate|].
    destruct L as [|b L]; [apply K; left; auto|]. apply IH. intros x Hx. apply K. right. auto.
  Qed.

  Section Text.
    Variables (text : string) (R : rspec) (flags : init_flags_t).
    Hypotheses (HM : text_means text R) (HF : form_ok flags R).
    Lemma run_text : forall fuel mode fmt,
      gr1c_run orc alloc key date fuel mode flags fmt text =
        (r <- gr1c_main orc alloc fuel mode flags (raw_of R) ;;
         match r with
         | SpecError => Ok ("", -1)
         | NotRealizable =>
             Ok (match mode with MODE_REALIZABLE => ("Not realizable." ++ AutIO.nl)%string | MODE_SYNTHESIS => "" end, 3)
         | Realizable => Ok (("Realizable." ++ AutIO.nl)%string, 0)
         | SynthFailed => Ok ("", -1)
         | Strategy A ev sv =>
             s <- write_strategy key date fmt
                    (negb (is_null (nonbool_items (link (r_evars (raw_of R)) (r_svars (raw_of R)))))) A ev sv ;;
             Ok (s, 0)
         end).
    Proof.
      intros fuel mode fmt. unfold gr1c_run. rewrite (text_parse _ _ HM). cbn [bind].
      destruct (form_check_ok flags R) as [[_ E]|[Hn _]]; [|tauto]. rewrite E. reflexivity.
    Qed.
    Lemma syntax_text : syntax_only flags text = Ok (Exits 0 "" None).
    Proof.
      unfold syntax_only. rewrite (text_parse _ _ HM). cbn [bind].
      destruct (form_check_ok flags R) as [[_ E]|[Hn _]]; [|tauto]. rewrite E. reflexivity.
    Qed.
  End Text.
End Runs.

Lemma form_separated : forall R, form_ok ALL_ENV_EXIST_SYS_INIT R ->
  opt_all (fun f => incl (fvars f) (names (rs_evars R))) (rs_einit R) /\
  opt_all (fun f => incl (fvars f) (names (rs_svars R))) (rs_sinit R).
Proof.
  intros R (_ & Ha & _). destruct (Ha eq_refl) as [H1 H2]. split.
  - destruct (rs_einit R); simpl in *; auto. apply H1.
  - destruct (rs_sinit R); simpl in *; auto. apply H2.
Qed.
Lemma realizable_chain : forall R flags, flags <> UNDEFINED_INIT -> form_ok flags R -> usable R -> decidable_init R flags ->
  chain_gives R flags (realizable R flags).
Proof.
  intros R flags Hu HF (HT & HN & HB & HP & HD) Hi. destruct flags; try congruence; unfold realizable.
  - destruct (form_separated R HF). apply int_aes_separated; auto.
  - apply int_all_init; auto.
  - apply int_one_side; auto.
Qed.
Lemma realizable_synth : forall R flags orc alloc, flags <> UNDEFINED_INIT -> form_ok flags R -> usable R -> decidable_init R flags ->
  tools R orc alloc -> synth_right R orc alloc flags (realizable R flags) /\
  (can_start R flags -> exists N, forall fuel, (N <= fuel)%nat -> exists r,
    gr1c_main orc alloc fuel MODE_SYNTHESIS flags (raw_of R) = Ok r /\ r <> SynthFailed).
Proof.
  intros R flags orc alloc Hu HF HU Hi Ht. destruct flags; try congruence; unfold realizable, can_start.
  - destruct (form_separated R HF). destruct (run_aes R orc alloc HU Ht) as [H1 H2]; auto. split; auto. intros [X Y]. apply H2; auto.
  - destruct (run_all_init R orc alloc HU Ht) as [H1 H2]. split; auto. intros [H _]. auto.
  - destruct (run_one_side R orc alloc HU Ht) as [H1 H2]. split; auto. intros [X Y]. apply H2; auto.
Qed.

Section Whole.
  Variables (orc : oracle) (alloc : nat -> aut -> nat) (key : nat -> string) (date : string) (W : world).
  Variables (args : list string) (l : list opt) (file : option string).
  Hypothesis HA : asked args l file.
  Let run fuel := gr1c_program orc alloc key date fuel W args.

  Lemma whole_no_file : forall fuel f, file = Some f -> w_file W f = None ->
    run fuel = Ok error_exit.
  Proof. intros fuel f Ef Hf. unfold run. destruct (program_go orc alloc key date W fuel args l file HA) as (P & _ & ->). rewrite Ef. cbn. rewrite Hf. reflexivity. Qed.
  Lemma whole_bad_text : forall fuel text, input_text W file text ->
    text_no_formula text -> (~ exists R, text_means text R) -> run fuel = Ok (Exits 2 "" None).
  Proof.
    intros fuel text Hi Hn Hr. unfold run. destruct (program_go orc alloc key date W fuel args l file HA) as (P & _ & ->). rewrite (input_open _ _ _ Hi).
    apply text_rejected in Hr; auto. unfold syntax_only, gr1c_run, gr1c_run_verify, gr1c_interact, deliver, deliver_verify. rewrite Hr. destruct (asked_mode l), P; try reflexivity.
  Qed.
  Lemma whole_bad_form : forall fuel text R, input_text W file text ->
    text_means text R -> ~ form_ok (asked_init l) R -> run fuel = Ok (Exits 2 "" None).
  Proof.
    intros fuel text R Hi HM Hn. unfold run. destruct (program_go orc alloc key date W fuel args l file HA) as (P & _ & ->). rewrite (input_open _ _ _ Hi).
    unfold syntax_only, gr1c_run, gr1c_run_verify, gr1c_interact, deliver, deliver_verify. rewrite (text_parse _ _ HM). cbn [bind].
    destruct (form_check_ok (asked_init l) R) as [[X _]|(_ & s & E & _)]; [tauto|]. rewrite E. destruct (asked_mode l), P; try reflexivity.
  Qed.
  Lemma whole_syntax : forall fuel text R, asked_mode l = GR1C_MODE_SYNTAX -> input_text W file text ->
    text_means text R -> form_ok (asked_init l) R -> run fuel = Ok (Exits 0 "" None).
  Proof.
    intros fuel text R Hm Hi HM HF. unfold run. destruct (program_go orc alloc key date W fuel args l file HA) as (P & _ & ->).
    rewrite (input_open _ _ _ Hi), Hm. exact (syntax_text text R (asked_init l) HM HF).
  Qed.
  Section Good.
    Variables (text : string) (R : rspec).
    Hypotheses (Hi : input_text W file text) (HM : text_means text R) (HF : form_ok (asked_init l) R) (HU : usable R)
      (HD : decidable_init R (asked_init l)).
    Lemma not_undefined : asked_init l <> UNDEFINED_INIT.
    Proof. destruct HA as (_ & H & _). eapply asked_init_set; eauto. Qed.
    Lemma whole_realizable : asked_mode l = GR1C_MODE_REALIZABLE ->
      exists N, forall fuel, (N <= fuel)%nat ->
        (realizable R (asked_init l) /\ run fuel = Ok (Exits 0 (said "Realizable.") None)) \/
        (~ realizable R (asked_init l) /\ run fuel = Ok (Exits 3 (said "Not realizable.") None)).
    Proof.
      intros Hm. destruct (run_realizable R orc alloc _ _ HU (realizable_chain R _ not_undefined HF HU HD)) as (N & HN).
      exists N. intros fuel Hf. destruct (HN fuel Hf) as (r & E & Hr). unfold run.
      destruct (program_go orc alloc key date W fuel args l file HA) as (P & _ & ->). rewrite (input_open _ _ _ Hi), Hm.
      rewrite (run_text orc alloc key date W text R (asked_init l) HM HF), E. cbn [bind].
      destruct r; cbn in Hr; try contradiction; [right|left]; (split; [exact Hr|reflexivity]).
    Qed.
    Hypotheses (HT : tools R orc alloc) (HK : keys_ok key) (Hd : chars plain date) (Hm : asked_mode l = GR1C_MODE_SYNTHESIS) (Hp : ~ In OPromela l).
    Lemma answer_run : forall fuel r, gr1c_main orc alloc fuel MODE_SYNTHESIS (asked_init l) (raw_of R) = Ok r ->
      right_answer R (asked_init l) (realizable R (asked_init l)) r ->
      exists r', run fuel = Ok r' /\ right_run key date W l R r' /\
        (r <> SynthFailed -> r' = error_exit -> no_output_file W l).
    Proof.
      intros fuel r E Hr. unfold run. rewrite (program_synth _ _ _ _ _ _ _ _ _ HA Hm Hp).
      rewrite (input_open _ _ _ Hi). rewrite (run_text orc alloc key date W text R (asked_init l) HM HF), E. cbn [bind].
      destruct r as [| | | |A ev sv]; cbn in Hr; try contradiction.
      - eexists. split; [reflexivity|]. split; [left; split; [exact Hr|reflexivity]|]. intros _ X. discriminate X.
      - eexists. split; [reflexivity|]. split; [|congruence]. right. split; [exact Hr|left; reflexivity].
      - destruct Hr as (HP & -> & -> & Hr).
        destruct (written key date (asked_format l) R A HK Hd (text_decls _ _ HM)) as (s & Es & Hs); [apply Hr|].
        rewrite Es. cbn [bind]. eexists. split; [reflexivity|]. unfold deliver. cbn [snd fst].
        change (0 =? 0) with true. cbn [negb].
        assert (HS : strategy_for R (asked_init l) A) by exact Hr.
        destruct (asked_output l) as [f|] eqn:Eo; [destruct (w_writable W f) eqn:Ew|].
        + split; [|intros _ X; discriminate X]. right. split; auto. right. exists A, s. unfold delivered. rewrite Eo. auto.
        + split; [right; split; auto; left; reflexivity|]. intros _ _. exists f. auto.
        + split; [|intros _ X; discriminate X]. right. split; auto. right. exists A, s. unfold delivered. rewrite Eo. auto.
    Qed.
    Lemma whole_synthesis :
      (exists N, forall fuel, (N <= fuel)%nat -> forall r, run fuel = Ok r -> right_run key date W l R r) /\
      (can_start R (asked_init l) -> exists N, forall fuel, (N <= fuel)%nat -> exists r, run fuel = Ok r /\
         right_run key date W l R r /\ (r = error_exit -> no_output_file W l)).
    Proof.
      destruct (realizable_synth R _ orc alloc not_undefined HF HU HD HT) as [(N & HN) HE]. split.
      - exists N. intros fuel Hf r Er.
        assert (X : exists m, gr1c_main orc alloc fuel MODE_SYNTHESIS (asked_init l) (raw_of R) = Ok m).
        { unfold run in Er. rewrite (program_synth _ _ _ _ _ _ _ _ _ HA Hm Hp) in Er.
          rewrite (input_open _ _ _ Hi) in Er. rewrite (run_text orc alloc key date W text R (asked_init l) HM HF) in Er.
          apply bind_ok in Er. destruct Er as (q & Er & _). apply bind_ok in Er. destruct Er as (m & Er & _). eauto. }
        destruct X as (m & Em). destruct (answer_run fuel m Em (HN fuel Hf m Em)) as (r' & E1 & E2 & _).
        rewrite Er in E1. injection E1 as <-. exact E2.
      - intros Hc. destruct (HE Hc) as (N' & HN'). exists (N + N')%nat. intros fuel Hf.
        destruct (HN' fuel ltac:(lia)) as (m & Em & Hne). destruct (answer_run fuel m Em (HN fuel ltac:(lia) m Em)) as (r' & E1 & E2 & E3).
        exists r'. auto.
    Qed.
  End Good.
End Whole.
(** messages and other programs *)
Lemma whole_stops : forall orc alloc key date fuel W args,
  (forall p a, read_options args = Ok (Sub p a) -> gr1c_program orc alloc key date fuel W args = Ok (Runs p a)) /\
  (forall c p, read_options args = Ok (Stop c p) -> gr1c_program orc alloc key date fuel W args = Ok (Prints c p)).
Proof. intros. split; intros x y E; unfold gr1c_program; rewrite E; reflexivity. Qed.
