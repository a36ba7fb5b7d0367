(** Proofs about sessions of gr1c -i as typed. *)
From Coq Require Import List ZArith Bool Arith Ascii String Lia.
From Verif Require Import Base Game Strs Ptree PtreeProofs Form Support EnumProofs Ops OpsProofs Solve FSpec SolveProofs Automaton AutIO AutIOSpec
  AutIOProofs SynthSpec ReadState ReadSpec ReadProofs FormPrint Interactive InteractSpec InteractProofs InteractRun InteractText
  Nonbool NonboolProofs RSpec PipeProofs GrPatchSame Lex LexSpec Parse Syntax TextSpec TextProofs SessionSpec.
Import ListNotations.
Open Scope string_scope.
Open Scope list_scope.
Open Scope Z_scope.

(** ** Lines *)
Lemma str_app_assoc : forall a b c : string, ((a ++ b) ++ c = a ++ b ++ c)%string.
Proof. induction a; intros; cbn; congruence. Qed.
Lemma str_app_nil : forall a : string, (a ++ "" = a)%string.
Proof. induction a; cbn; congruence. Qed.
Lemma prefix_split : forall w s, String.prefix w s = true -> exists r, s = (w ++ r)%string.
Proof.
  induction w as [|a w IH]; intros s H; [exists s; reflexivity|]. destruct s as [|b s]; [discriminate H|].
  cbn in H. destruct (Ascii.ascii_dec a b) as [<-|]; [|discriminate H]. destruct (IH s H) as (r & ->). exists r. reflexivity.
Qed.
Lemma prefix_line : forall w s r, has_newline w = false -> (s ++ eol = w ++ r)%string -> exists r', s = (w ++ r')%string.
Proof.
  induction w as [|a w IH]; intros s r Hw E; [exists s; reflexivity|]. destruct s as [|b s]; cbn in E.
  - injection E as <- _. cbn in Hw. discriminate Hw.
  - injection E as <- E. cbn in Hw. apply orb_false_iff in Hw. destruct (IH s r (proj2 Hw) E) as (r' & ->). exists r'. reflexivity.
Qed.
Lemma no_word : forall w s, has_newline w = false -> (forall r, s <> (w ++ r)%string) -> starts w (s ++ eol) = false.
Proof.
  intros w s Hw H. unfold starts. destruct (String.prefix w (s ++ eol)) eqn:E; auto. exfalso.
  destruct (prefix_split _ _ E) as (r & Er). destruct (prefix_line w s r Hw Er) as (r' & E'). exact (H r' E').
Qed.
Lemma words_plain : forall w, In w command_words -> has_newline w = false.
Proof. intros w H. cbn in H. repeat destruct H as [<-|H]; try reflexivity. destruct H. Qed.
Lemma zdec_no_newline : forall z, has_newline (zdec z) = false.
Proof. intros z. exact (join_newline [z]). Qed.
Lemma newline_app : forall a b, has_newline (a ++ b)%string = has_newline a || has_newline b.
Proof. induction a as [|c a IH]; intros b; cbn; auto. rewrite IH, orb_assoc. reflexivity. Qed.

(** ** Lists of variables *)
Lemma vars_text : forall vs i, var_list_text (vlist vs) (Z.of_nat i) true = Ok (String.concat ", " (placed i vs)).
Proof.
  induction vs as [|[x d] vs IH]; intros i; [reflexivity|]. cbn [vlist var_list_text bind fst].
  replace (Z.of_nat i + 1) with (Z.of_nat (S i)) by lia. rewrite IH. cbn [bind placed fst].
  destruct vs as [|[y d'] vs]; cbn [vlist placed String.concat]; [rewrite ?str_app_nil|rewrite !str_app_assoc]; reflexivity.
Qed.
Lemma vars_text_all : forall vs ws i, ws <> [] ->
  (a <- var_list_text (vlist vs) (Z.of_nat i) false ;;
   b <- var_list_text (vlist ws) (Z.of_nat (i + List.length vs)) true ;; Ok (a ++ b)%string) =
  Ok (String.concat ", " (placed i (vs ++ ws))).
Proof.
  induction vs as [|[x d] vs IH]; intros ws i Hw.
  - cbn [vlist var_list_text bind List.length app]. rewrite Nat.add_0_r, vars_text. reflexivity.
  - cbn [vlist var_list_text bind fst app placed List.length].
    replace (Z.of_nat i + 1) with (Z.of_nat (S i)) by lia.
    specialize (IH ws (S i) Hw). replace (S i + List.length vs)%nat with (i + S (List.length vs))%nat in IH by lia.
    destruct (var_list_text (vlist vs) (Z.of_nat (S i)) false) as [a| |]; cbn [bind] in *; try discriminate IH.
    destruct (var_list_text (vlist ws) _ true) as [b| |]; cbn [bind] in *; try discriminate IH. injection IH as IH.
    assert (K : String.concat ", " ((x ++ " (" ++ zdec (Z.of_nat i) ++ ")")%string :: placed (S i) (vs ++ ws)) =
      ((x ++ " (" ++ zdec (Z.of_nat i) ++ ")") ++ ", " ++ String.concat ", " (placed (S i) (vs ++ ws)))%string).
    { destruct (vs ++ ws) as [|[y d'] q] eqn:E; [|reflexivity]. destruct vs; cbn in E; [congruence|discriminate E]. }
    rewrite K, <- IH. destruct vs as [|[y d'] vs]; cbn [vlist]; rewrite !str_app_assoc; reflexivity.
Qed.

Section Session.
  Variable F : fspec.
  Hypothesis Hbool : all_boolean F.
  Hypothesis Hsvars : fs_svars F <> [].
  Hypothesis Hint : int_ok (Z.of_nat (List.length (fs_sgoals F))).
  Let sp := spec_of F.

  Lemma goal_shown : forall f, printable_goal f -> exists s, print_formula FORMULA_SYNTAX_GR1C (tree_of f) = Ok s /\ shows f s.
  Proof.
    intros f (H1 & H2 & H3). destruct (printed_reads_back false f H1 H2 (fun _ => H3)) as (s & ys & E & A & B & C & _).
    exists s. split; auto. exists ys. auto.
  Qed.
  Lemma egoals_shown : forall l, (forall f, In f l -> printable_goal f) ->
    exists ss, egoals_text (map tree_of l) = Ok (String.concat "" (map (fun s => (s ++ newline_text)%string) ss)) /\ Forall2 shows l ss.
  Proof.
    induction l as [|f l IH]; intros H; [exists []; split; [reflexivity|constructor]|].
    destruct IH as (ss & E & HS); [intros; apply H; right; auto|]. destruct (goal_shown f (H f (or_introl eq_refl))) as (s & Es & Hs).
    exists (s :: ss). split; [|constructor; auto]. cbn [map egoals_text]. rewrite Es. cbn [bind]. rewrite E. cbn [bind].
    f_equal. cbn [map String.concat]. destruct (map (fun s => (s ++ newline_text)%string) ss) as [|q qs] eqn:Em.
    - cbn [String.concat]. rewrite str_app_nil. reflexivity.
    - rewrite str_app_assoc. reflexivity.
  Qed.
  Lemma query_ok : forall q, entry_ok F (Ask q) ->
    exists r, command_line sp (query_line q ++ eol) = Ok (LSay (r ++ eol)%string) /\ query_reply F q r.
  Proof.
    intros q (_ & H). destruct q as [| | | | |i| |on|s]; cbn [query_line query_reply].
    - exists help_page. split; reflexivity.
    - eexists. split; [|reflexivity]. cbn -[zdec Z.of_nat]. rewrite map_length. reflexivity.
    - change (command_line sp ("envvar" ++ eol)) with
        (match vlist (fs_evars F) with NULL => say "(none)" | t => s <- var_list_text t 0 true ;; say s end).
      pose proof (vars_text (fs_evars F) 0) as E. change (Z.of_nat 0) with 0 in E.
      destruct (fs_evars F) as [|[x d] vs]; [eexists; split; reflexivity|].
      eexists. split; [|reflexivity]. cbn [vlist]. cbn [vlist] in E. rewrite E. reflexivity.
    - change (command_line sp ("sysvar" ++ eol)) with
        (match vlist (fs_svars F) with NULL => say "(none)" | t => s <- var_list_text t (Z.of_nat (num_env sp)) true ;; say s end).
      unfold sp. rewrite (num_env_eq F). pose proof (vars_text (fs_svars F) (List.length (fs_evars F))) as E.
      destruct (fs_svars F) as [|[x d] vs]; [congruence|].
      eexists. split; [|reflexivity]. cbn [vlist]. cbn [vlist] in E. rewrite E. reflexivity.
    - change (command_line sp ("var" ++ eol)) with
        (a <- var_list_text (vlist (fs_evars F)) 0 false ;; b <- var_list_text (vlist (fs_svars F)) (Z.of_nat (num_env sp)) true ;; say (a ++ b)%string).
      unfold sp. rewrite (num_env_eq F). pose proof (vars_text_all (fs_evars F) (fs_svars F) 0 Hsvars) as E. change (Z.of_nat 0) with 0 in E.
      cbn [Nat.add] in E.
      destruct (var_list_text (vlist (fs_evars F)) 0 false) as [a| |]; cbn [bind] in *; try discriminate E.
      destruct (var_list_text (vlist (fs_svars F)) _ true) as [b| |]; cbn [bind] in *; try discriminate E. injection E as E.
      eexists. split; [reflexivity|exact E].
    - destruct H as [Hi Hp]. destruct (goal_shown _ Hp) as (s & Es & Hs). exists s. split; [|exact Hs].
      assert (Ec : command_line sp (("printgoal " ++ zdec (Z.of_nat i)) ++ eol) =
        (p <- read_state_str (zdec (Z.of_nat i) ++ eol) 1 ;;
         if fst p <? 1 then Ok invalid
         else let g := nth 0 (snd p) 0 in
           if (g <? 0) || (g >? Z.of_nat (List.length (sys_goals sp)) - 1) then say ("Invalid mode: " ++ zdec g)%string
           else s <- print_formula FORMULA_SYNTAX_GR1C (nth (Z.to_nat g) (sys_goals sp) NULL) ;; say s)).
      { rewrite str_app_assoc. generalize (zdec (Z.of_nat i) ++ eol)%string. intros r. unfold command_line. rewrite (starts_self "printgoal "). reflexivity. }
      rewrite Ec. clear Ec.
      assert (Hii : ints [Z.of_nat i]) by (apply (goal_int F Hint); auto).
      assert (Er : read_state_str (zdec (Z.of_nat i) ++ eol) 1 = Ok (1, [Z.of_nat i])).
      { apply (read_args [Z.of_nat i] 1 Hii). cbn. lia. }
      rewrite Er. cbn [bind fst snd nth]. change (1 <? 1) with false. cbv iota.
      assert (El : List.length (sys_goals sp) = List.length (fs_sgoals F)) by (apply map_length). rewrite El.
      replace ((Z.of_nat i <? 0) || (Z.of_nat i >? Z.of_nat (List.length (fs_sgoals F)) - 1)) with false.
      2: { symmetry. apply orb_false_iff. split; [apply Z.ltb_ge; lia|]. rewrite Z.gtb_ltb. apply Z.ltb_ge. lia. }
      rewrite Nat2Z.id. cbv zeta iota.
      assert (En : nth i (sys_goals sp) NULL = tree_of (nth i (fs_sgoals F) FTrue)).
      { change (sys_goals sp) with (map tree_of (fs_sgoals F)). rewrite (nth_indep _ NULL (tree_of FTrue)) by (rewrite map_length; auto). apply map_nth. }
      rewrite En, Es. reflexivity.
    - change (command_line sp ("printegoals" ++ eol)) with (s <- egoals_text (env_goals' sp) ;; say (s ++ "---")%string).
      assert (Et : env_goals' sp = map tree_of (egoals1 F)).
      { unfold env_goals', egoals1, sp. cbn. destruct (fs_egoals F); reflexivity. }
      rewrite Et. destruct (egoals_shown (egoals1 F)) as (ss & E & HS).
      { unfold egoals1. intros f Hf. destruct (fs_egoals F); auto. destruct Hf as [<-|[]]. repeat split. }
      rewrite E. cbn [bind]. eexists. split; [reflexivity|]. exists ss. auto.
    - exists "". split; [destruct on|]; reflexivity.
    - destruct H as [_ H]. eexists. split; [|reflexivity].
      assert (K : forall w, In w command_words -> starts w (s ++ eol) = false).
      { intros w Hw. apply no_word; [apply words_plain; auto|]. intros r. apply H. auto. }
      unfold command_line.
      repeat match goal with |- context [starts ?w (s ++ eol)%string] =>
        rewrite (K w) by (repeat (first [left; reflexivity | right])) end.
      reflexivity.
  Qed.
  Lemma entry_body : forall e, entry_ok F e -> exists body, entry_text e = (body ++ eol)%string /\ has_newline body = false /\ (String.length body < 255)%nat.
  Proof.
    intros e (Hf & He).
    assert (K : exists body, entry_text e = (body ++ eol)%string /\ has_newline body = false).
    { destruct e as [c|q]; [apply body_of|]. exists (query_line q). split; [reflexivity|].
      destruct q as [| | | | |i| |[]|s]; try reflexivity.
      - cbn [query_line]. rewrite newline_app, zdec_no_newline. reflexivity.
      - apply He. }
    destruct K as (body & E & Hn). exists body. split; auto. split; auto. rewrite E, string_len_app in Hf.
    change (String.length eol) with 1%nat in Hf. lia.
  Qed.

  (** the answers put between the replies *)
  Definition reply_of (q : query) : string :=
    match command_line sp (query_line q ++ eol) with Ok (LSay t) => t | _ => "" end.
  Fixpoint render (es : list entry) (l : list answer) : string :=
    match es with
    | [] => ">>> "
    | Do _ :: r => match l with a :: l' => (">>> " ++ answer_text a ++ render r l')%string | [] => "" end
    | Ask q :: r => (">>> " ++ reply_of q ++ render r l)%string
    end.
  Lemma quit_line : forall rest, starts "quit" (fst (fgets 255 ("quit" ++ rest))) = true.
  Proof.
    intros rest. assert (K : forall k, starts "quit" (fst (fgets (S (S (S (S k)))) ("quit" ++ rest))) = true).
    { intros k. cbn [append fgets].
      change (Ascii.eqb "q" newline) with false. change (Ascii.eqb "u" newline) with false.
      change (Ascii.eqb "i" newline) with false. change (Ascii.eqb "t" newline) with false. cbv iota.
      destruct (fgets k rest) as [a b]. cbn [fst]. unfold starts. cbn. destruct a; reflexivity. }
    exact (K 251%nat).
  Qed.
  Lemma session_render : forall et0 st0 eg sg orc fuel last, ends last -> forall es, Forall (entry_ok F) es ->
    forall lines x, (List.length es < lines)%nat ->
    session sp et0 st0 eg sg orc fuel lines x (typed_text es last) =
      (p <- exec_all (num_env sp) (num_sys sp) et0 st0 eg sg orc fuel x (map encode (commands_of es)) ;;
       Ok (render es (snd p))).
  Proof.
    intros et0 st0 eg sg orc fuel last Hlast. induction es as [|e es IH]; intros Hv lines x Hl.
    - destruct lines as [|lines]; [cbn in Hl; lia|]. cbn [typed_text]. destruct Hlast as [->|(rest & ->)]; [reflexivity|].
      cbn [session]. pose proof (quit_line rest) as Hq. destruct (fgets 255 ("quit" ++ rest)) as [line r0]. cbn [fst] in Hq.
      unfold command_line. rewrite Hq. reflexivity.
    - inversion Hv as [|? ? He Hes]; subst. destruct lines as [|lines]; [cbn in Hl; lia|].
      destruct (entry_body e He) as (body & Eb & Hn & Hlen).
      assert (Hfg : fgets 255 (entry_text e ++ typed_text es last) = (entry_text e, typed_text es last)).
      { rewrite Eb. apply fgets_ok; auto. }
      assert (Hnn : exists a r, (entry_text e ++ typed_text es last)%string = String a r).
      { rewrite Eb. destruct body; cbn; eauto. }
      cbn [typed_text session]. rewrite Hfg. destruct Hnn as (a & r & ->).
      destruct e as [c|q].
      + cbn [entry_text]. unfold sp. rewrite (command_line_ok F Hbool Hint c (proj2 He)). fold sp. cbn [bind commands_of flat_map app map exec_all].
        destruct (exec _ _ _ _ _ _ _ _ x (encode c)) as [[x' an]| |]; cbn [bind fst snd]; auto.
        rewrite IH; auto; [|cbn in Hl; lia]. fold (commands_of es).
        destruct (exec_all _ _ _ _ _ _ _ _ x' (map encode (commands_of es))) as [[x2 l]| |]; cbn [bind fst snd]; auto.
      + destruct (query_ok q He) as (rp & Er & _). cbn [entry_text]. change newline_text with eol. rewrite Er. cbn [bind].
        rewrite IH; auto; [|cbn in Hl; lia]. cbn [commands_of flat_map app]. fold (commands_of es).
        destruct (exec_all _ _ _ _ _ _ _ _ x (map encode (commands_of es))) as [[x2 l]| |]; cbn [bind fst snd]; auto.
        cbn [render]. unfold reply_of. rewrite Er. reflexivity.
  Qed.
  Lemma render_ok : forall es, Forall (entry_ok F) es -> forall b l, session_ok F b (commands_of es) l -> conversation F b es (render es l).
  Proof.
    induction es as [|e es IH]; intros Hv b l H; [constructor|]. inversion Hv as [|? ? He Hes]; subst. destruct e as [c|q].
    - cbn [commands_of flat_map app] in H. inversion H; subst. cbn [render]. constructor; auto.
    - cbn [commands_of flat_map app] in H. destruct (query_ok q He) as (rp & Er & Hr). cbn [render]. unfold reply_of. rewrite Er.
      replace (">>> " ++ (rp ++ eol) ++ render es l)%string with (">>> " ++ rp ++ newline_text ++ render es l)%string
        by (rewrite !str_app_assoc; reflexivity).
      constructor; auto.
  Qed.
  Lemma commands_app : forall a b, commands_of (a ++ b) = commands_of a ++ commands_of b.
  Proof. intros a b. unfold commands_of. rewrite !flat_map_concat_map, map_app, concat_app. reflexivity. Qed.
  Lemma split_commands : forall es h c t, commands_of es = h ++ c :: t ->
    exists h' t', es = h' ++ Do c :: t' /\ commands_of h' = h.
  Proof.
    induction es as [|e es IH]; intros h c t E; [destruct h; discriminate E|]. destruct e as [c0|q]; cbn [commands_of flat_map app] in E.
    - destruct h as [|c1 h]; cbn in E; injection E as -> E.
      + exists [], es. auto.
      + destruct (IH h c t E) as (h' & t' & -> & Eh). exists (Do c1 :: h'), t'. split; [reflexivity|]. cbn. fold (commands_of h'). congruence.
    - destruct (IH h c t E) as (h' & t' & -> & Eh). exists (Ask q :: h'), t'. auto.
  Qed.
  Lemma lost_stuck : forall es, gets_lost F es <-> gets_stuck F (opening F) (commands_of es).
  Proof.
    intros es. split.
    - intros (h & c & t & -> & H). exists (commands_of h), c, (commands_of t). split; [|exact H].
      rewrite commands_app. reflexivity.
    - intros (h & c & t & E & H). destruct (split_commands es h c t E) as (h' & t' & -> & Eh).
      exists h', c, t'. split; auto. unfold book_after. rewrite Eh. exact H.
  Qed.
  Lemma commands_valid : forall es, Forall (entry_ok F) es -> Forall (valid F) (commands_of es).
  Proof.
    induction 1 as [|e es He Hes IH]; [constructor|]. destruct e as [c|q]; cbn; auto. constructor; auto. apply He.
  Qed.
  Lemma typed_longer : forall es last, Forall (entry_ok F) es -> (List.length es <= String.length (typed_text es last))%nat.
  Proof.
    induction es as [|e es IH]; intros last H; cbn; [lia|]. inversion H as [|? ? He Hes]; subst. rewrite string_len_app.
    destruct (entry_body e He) as (body & -> & _). rewrite string_len_app. specialize (IH last Hes). cbn. lia.
  Qed.
End Session.

(** ** The rules as the program has them *)
Lemma boolean_conj : forall l, boolean (conj l) = forallb boolean l.
Proof. induction l as [|f l IH]; auto. cbn [forallb]. rewrite <- IH. reflexivity. Qed.
Lemma boolean_all : forall l, boolean (and_all l) = forallb boolean l.
Proof.
  intros [|f l]; auto. unfold and_all, chain. cbn [forallb]. generalize f.
  assert (K : forall g, boolean (fold_left FAnd l g) = boolean g && forallb boolean l); [|exact K].
  induction l as [|h l IH]; intros g; cbn [fold_left forallb]; [rewrite andb_true_r; reflexivity|].
  rewrite IH. cbn [boolean]. rewrite andb_assoc. reflexivity.
Qed.
Section Run.
  Variables (flags : init_flags_t) (R : rspec).
  Hypotheses (HT : well_typed R) (HN : NoDup (names (rs_vars R))) (HI : GrPatchSpec.no_ints R) (Hsv : rs_svars R <> []).
  Let F := session_game R.
  Let F2 := with_rules F (and_all (rs_etrans (fdefaults R))) (and_all (rs_strans (fdefaults R))).
  Lemma session_same : forall b, solver_spec b flags R = F2.
  Proof.
    intros b. unfold solver_spec. rewrite (forms_same flags R HI).
    assert (He : forall x d, In (x, d) (rs_evars R) -> d = -1) by (intros x d H; apply (HI x d); unfold rs_vars; apply in_or_app; auto).
    assert (Hs : forall x d, In (x, d) (rs_svars R) -> d = -1) by (intros x d H; apply (HI x d); unfold rs_vars; apply in_or_app; auto).
    rewrite (decls_none b (rs_evars R) He), (decls_none b (rs_svars R) Hs). reflexivity.
  Qed.
  Let B2 : all_boolean F2.
  Proof. rewrite <- (session_same (-1)). apply F'_boolean; auto. Qed.
  Let W2 : well_scoped F2.
  Proof. rewrite <- (session_same (-1)). apply F'_scoped; auto. Qed.
  Let B1 : all_boolean F.
  Proof.
    destruct B2 as (H1 & H2 & H3 & H4 & H5 & H6 & H7). split; [exact H1|]. split; [exact H2|]. split; [exact H3|].
    cbn [F2 with_rules fs_etrans fs_strans] in H4, H5. rewrite boolean_all in H4, H5.
    split; [|split; [|split; [exact H6|exact H7]]]; change (fs_etrans F) with (conj (rs_etrans R)); change (fs_strans F) with (conj (rs_strans R)); rewrite boolean_conj.
    - cbn [fdefaults rs_etrans] in H4. destruct (rs_etrans R); [reflexivity|exact H4].
    - cbn [fdefaults rs_strans] in H5. destruct (rs_strans R); [reflexivity|exact H5].
  Qed.
  Variables (orc : oracle).
  Hypotheses (Horc : oracle_ok (2 * (List.length (rs_evars R) + List.length (rs_svars R))) orc)
    (Hint : int_ok (Z.of_nat (List.length (fs_sgoals F)))).
  Lemma interactive_ok : forall fuel es last, (fuel_bound F <= fuel)%nat -> Forall (entry_ok F) es -> ends last ->
    (gets_lost F es -> levelset_interactive (spec_of F2) orc fuel (typed_text es last) = Crash) /\
    (~ gets_lost F es -> exists t, levelset_interactive (spec_of F2) orc fuel (typed_text es last) = Ok t /\ conversation F (opening F) es t).
  Proof.
    intros fuel es last Hfuel Hes Hlast.
    assert (Hg : fs_sgoals F <> []) by (cbn; destruct (rs_sgoals R); discriminate).
    destruct (spec_BDDs_ok F2 W2 B2) as (et & st & eg & sg & Hb & Hnp & Hgeg & Hgsg & _ & Hlsg & Hleg & Het & Hst & Heg & Hsg).
    assert (Hload : rep_rules F (loaded F) et st).
    { split.
      - intros s e w Hs He Hw. rewrite (Het s e w Hs He Hw). exact (same_etr F _ _ (erule_same R) s e).
      - intros s s' Hs Hs'. rewrite (Hst s s' Hs Hs'). exact (same_str F _ _ (srule_same R) s s'). }
    destruct (start_ok F B1 Hg orc fuel Hfuel et st eg sg Hgeg Hgsg Hlsg Hleg Heg Hsg Hload) as (x & Hx & Hrep).
    destruct (run_ok F B1 Hg Hsv orc Horc fuel Hfuel et st eg sg Hgeg Hgsg Hlsg Hleg Heg Hsg Hload (commands_of es) _ _ Hrep (commands_valid F es Hes))
      as (H1 & H2 & _).
    unfold levelset_interactive. rewrite Hb. cbn [bind].
    change (num_env (spec_of F2)) with (num_env (spec_of F)). change (num_sys (spec_of F2)) with (num_sys (spec_of F)).
    rewrite num_env_eq, num_sys_eq. rewrite Hx. cbn [bind].
    assert (Hes2 : Forall (entry_ok F2) es) by exact Hes.
    rewrite (session_render F2 B2 Hsv Hint et st eg sg orc fuel last Hlast es Hes2 (S (String.length (typed_text es last))) x)
      by (pose proof (typed_longer F es last Hes); lia).
    change (num_env (spec_of F2)) with (num_env (spec_of F)). change (num_sys (spec_of F2)) with (num_sys (spec_of F)).
    rewrite num_env_eq, num_sys_eq. rewrite lost_stuck. split.
    - intros Hs. rewrite (H1 Hs). reflexivity.
    - intros Hs. destruct (H2 Hs) as (x' & l & Hl & Hok & _). rewrite Hl. cbn [bind snd]. eexists. split; [reflexivity|].
      change (render F2 es l) with (render F es l). apply render_ok; auto.
  Qed.
End Run.
