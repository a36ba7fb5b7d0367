(** Proofs about gr1c -p (PtDump.v). *)
From Coq Require Import List ZArith Bool Arith Ascii String Lia.
From Verif Require Import Base Strs Ptree Form Support Solve FSpec Automaton Nonbool RSpec Main FormCheck ListSpec ListProofs FormPrint
  AutIO Lex LexSpec LexRegex LexProofs LexLayout Parse Syntax ParseProofs PrintProofs FileSpec FileProofs TextSpec TextProofs Output Options OptSpec OptProofs Program ProgramSpec
  ProgramProofs WriteProofs PtDump DumpSpec.
Import ListNotations.
Open Scope string_scope.
Open Scope list_scope.

(** ** The screen *)
Lemma raw_completed : forall R, with_defaults (raw_of R) = raw_of (completed R).
Proof. intros R. unfold with_defaults, raw_of, completed. cbn. f_equal; [destruct (rs_etrans R)|destruct (rs_strans R)|destruct (rs_sgoals R)]; reflexivity. Qed.
Definition one_var (i : nat) (d : vdecl) : string :=
  (fst d ++ " (" ++ zdec (Z.of_nat i) ++ "; " ++ domain_text (snd d) ++ ")")%string.
Lemma echo_vars_ok : forall ds i, echo_vars i (vlist ds) =
  Ok (String.concat ", " (map (fun p : nat * vdecl => one_var (fst p) (snd p)) (List.combine (seq i (List.length ds)) ds))).
Proof.
  induction ds as [|[x d] ds IH]; intros i; [reflexivity|]. cbn [vlist echo_vars]. rewrite IH. cbn [bind].
  cbn [List.length seq List.combine map fst snd]. unfold one_var at 3. cbn [fst snd].
  assert (X : forall r, (x ++ " (" ++ zdec (Z.of_nat i) ++ (if (d =? -1)%Z then "; bool)" else "; {0.." ++ zdec d ++ "})") ++ r)%string =
    ((x ++ " (" ++ zdec (Z.of_nat i) ++ "; " ++ domain_text d ++ ")") ++ r)%string).
  { intros r. unfold domain_text. rewrite !str_assoc. do 3 f_equal. destruct (d =? -1)%Z; [reflexivity|].
    cbn [String.append]. do 5 f_equal. rewrite !str_assoc. reflexivity. }
  rewrite X. destruct ds as [|[y e] ds]; [cbn; rewrite str_nil_r; reflexivity|].
  cbn [vlist List.length seq List.combine map String.concat fst snd]. reflexivity.
Qed.
Lemma echo_list_ok : forall ds i, echo_list i (vlist ds) = Ok (numbered_vars i ds).
Proof.
  intros [|[x d] ds] i; [reflexivity|]. unfold echo_list. cbn [vlist]. change (pnd PT_VARIABLE (Some x) d (vlist ds) NULL) with (vlist ((x, d) :: ds)).
  rewrite echo_vars_ok. reflexivity.
Qed.
Lemma echo_ok : forall R, echo_indices (raw_of R) = Ok (vars_screen R).
Proof.
  intros R. unfold echo_indices. cbn [raw_of r_evars r_svars]. rewrite !echo_list_ok, JsonWrite.vlist_size. reflexivity.
Qed.

Definition bare (ds : list vdecl) : list vdecl := map (fun d => (fst d, (-1)%Z)) ds.
Lemma names_ok : forall ds, print_names (vlist ds) = Ok (String.concat "" (map decl_text (bare ds))).
Proof.
  induction ds as [|[x d] ds IH]; [reflexivity|]. cbn [vlist print_names]. rewrite IH. cbn [bind bare map].
  rewrite concat_cons. fold (bare ds). unfold decl_text at 2. cbn [fst snd]. change (-1 <? 0)%Z with true. cbv iota.
  rewrite str_nil_r, str_assoc. reflexivity.
Qed.
Lemma print_f : forall f, print_formula FORMULA_SYNTAX_GR1C (tree_of f) = Ok (fprint f).
Proof. intros f. unfold fprint. rewrite print_text. reflexivity. Qed.
Lemma array_ok : forall sep f fs, print_array sep (map tree_of (f :: fs)) =
  Ok (sep ++ " " ++ joined_text (" & " ++ sep ++ " ") (f :: fs))%string.
Proof.
  intros sep f fs. cbn [map print_array]. rewrite print_f. cbn [bind].
  assert (K : forall g, exists t, print_more sep (map tree_of fs) = Ok t /\ (fprint g ++ t)%string = joined_text (" & " ++ sep ++ " ") (g :: fs)).
  { induction fs as [|h fs IH]; intros g; [exists ""; split; [reflexivity|apply str_nil_r]|].
    destruct (IH h) as (t & E1 & E2). cbn [map print_more]. rewrite print_f, E1. cbn [bind]. eexists. split; [reflexivity|].
    change (joined_text (" & " ++ sep ++ " ") (g :: h :: fs)) with (fprint g ++ (" & " ++ sep ++ " ") ++ joined_text (" & " ++ sep ++ " ") (h :: fs))%string.
    rewrite <- E2. rewrite !str_assoc. reflexivity. }
  destruct (K f) as (t & -> & E). cbn [bind]. rewrite E. reflexivity.
Qed.
Definition opt_text (f : option form) : string := match f with Some g => fprint g | None => "" end.
Definition array_body (sep : string) (fs : list form) : option string :=
  match fs with [] => None | _ => Some ("  " ++ sep ++ " " ++ joined_text (" & " ++ sep ++ " ") fs)%string end.
Definition bodies_of (R : rspec) : list (option string) :=
  [Some (String.concat "" (map decl_text (bare (rs_evars R)))); Some (String.concat "" (map decl_text (bare (rs_svars R))));
   Some ("  " ++ opt_text (rs_einit R))%string; Some ("  " ++ opt_text (rs_sinit R))%string;
   array_body "[]" (rs_etrans R); array_body "[]" (rs_strans R); array_body "[]<>" (rs_egoals R); array_body "[]<>" (rs_sgoals R)].
Lemma opt_ok : forall f, print_formula FORMULA_SYNTAX_GR1C (opt_tree f) = Ok (opt_text f).
Proof. intros [f|]; [apply print_f|reflexivity]. Qed.
Lemma array_body_ok : forall sep fs, exists t, print_array sep (map tree_of fs) = Ok t /\
  ("  " ++ t)%string = match array_body sep fs with Some b => b | None => "  (none)" end.
Proof.
  intros sep [|f fs]; [exists "(none)"; split; reflexivity|]. eexists. split; [apply array_ok|]. reflexivity.
Qed.
Lemma spec_printed : forall R, print_GR1_spec (raw_of R) = Ok (labelled (bodies_of R)).
Proof.
  intros R. unfold print_GR1_spec. cbn [raw_of r_evars r_svars r_einit r_sinit r_etrans r_strans r_egoals r_sgoals].
  rewrite !names_ok, !opt_ok. cbn [bind].
  destruct (array_body_ok "[]" (rs_etrans R)) as (t1 & -> & E1). destruct (array_body_ok "[]" (rs_strans R)) as (t2 & -> & E2).
  destruct (array_body_ok "[]<>" (rs_egoals R)) as (t3 & -> & E3). destruct (array_body_ok "[]<>" (rs_sgoals R)) as (t4 & -> & E4).
  cbn [bind]. unfold labelled, bodies_of, labels. cbn [List.combine map fst snd]. rewrite <- E1, <- E2, <- E3, <- E4.
  rewrite !concat_cons. change (String.concat "" []) with "". rewrite str_nil_r. rewrite !str_assoc.
  reflexivity.
Qed.

(** ** Reading the listing *)
Lemma sx_blank : forall b s, sx b (" " ++ s)%string = sx b s.
Proof. intros. unfold sx. cbn [String.append]. rewrite lx_one_space by reflexivity. reflexivity. Qed.
Lemma sx_blanks : forall b s, sx b ("  " ++ s)%string = sx b s.
Proof. intros. change ("  " ++ s)%string with (" " ++ (" " ++ s))%string. rewrite !sx_blank. reflexivity. Qed.
Lemma sx_join : forall j t y, In (j, t) joined_words -> yytranslate t = y -> y <> YEOF -> forall b s,
  sx b ((" & " ++ j ++ " ") ++ s)%string = pre [y] (sx false s).
Proof.
  intros j t y Hj Hy Hn b s. rewrite !str_assoc. change (" & " ++ j ++ " " ++ s)%string with (" " ++ ("& " ++ j ++ " " ++ s))%string.
  rewrite sx_blank. rewrite (sx_tok b false _ (" " ++ s)%string t y); [rewrite sx_blank; reflexivity| |exact Hy|exact Hn].
  pose proof (lx_joined b " " j t (" " ++ s) Hj ltac:(cbn; unfold space_tab; auto) eq_refl) as E.
  rewrite <- E. cbn [String.append]. rewrite ?str_assoc. reflexivity.
Qed.
Lemma kw : forall l k s r, In (l, k) keywords -> yytranslate k <> YEOF -> sx false s = r -> sx true (l ++ s)%string = pre [yytranslate k] r.
Proof. intros l k s r Hi Hk <-. apply (sx_keyword l k); auto. Qed.
Lemma sx_trans_body : forall fs s, fs <> [] -> (forall f, In f fs -> writable f) ->
  sx false (("  " ++ "[]" ++ " " ++ joined_text (" & " ++ "[]" ++ " ") fs) ++ ";" ++ nl ++ s)%string =
  pre (YSafety :: joined_toks YAndSafety fs ++ [YSemi]) (sx true s).
Proof.
  intros fs s Hn H. rewrite !str_assoc. rewrite sx_blanks.
  rewrite (sx_tok false false _ (" " ++ joined_text (" & " ++ "[]" ++ " ") fs ++ ";" ++ nl ++ s)%string SAFETY_OP YSafety);
    [|apply lx_safety; reflexivity|reflexivity|discriminate].
  rewrite sx_blank. rewrite (sx_joined (" & " ++ "[]" ++ " ") YAndSafety).
  - rewrite sx_newline, pre_app. reflexivity.
  - intros b s0 _. apply (sx_join "[]" AND_SAFETY_OP); [cbn; auto|reflexivity|discriminate].
  - intros s0. apply sep_char; reflexivity.
  - exact Hn.
  - exact H.
Qed.
Lemma sx_goal_body : forall fs s, fs <> [] -> (forall f, In f fs -> writable f) ->
  sx false (("  " ++ "[]<>" ++ " " ++ joined_text (" & " ++ "[]<>" ++ " ") fs) ++ ";" ++ nl ++ s)%string =
  pre (YLiveness :: joined_toks YAndLiveness fs ++ [YSemi]) (sx true s).
Proof.
  intros fs s Hn H. rewrite !str_assoc. rewrite sx_blanks.
  rewrite (sx_tok false false _ (" " ++ joined_text (" & " ++ "[]<>" ++ " ") fs ++ ";" ++ nl ++ s)%string LIVENESS_OP YLiveness);
    [|apply lx_liveness|reflexivity|discriminate].
  rewrite sx_blank. rewrite (sx_joined (" & " ++ "[]<>" ++ " ") YAndLiveness).
  - rewrite sx_newline, pre_app. reflexivity.
  - intros b s0 _. apply (sx_join "[]<>" AND_LIVENESS_OP); [cbn; auto|reflexivity|discriminate].
  - intros s0. apply sep_char; reflexivity.
  - exact Hn.
  - exact H.
Qed.
Lemma sx_init_body : forall f s, opt_all (writable_form false) f ->
  sx false (("  " ++ opt_text f) ++ ";" ++ nl ++ s)%string =
  pre (match f with Some g => toks g | None => [] end ++ [YSemi]) (sx true s).
Proof.
  intros [f|] s H; cbn [opt_text]; rewrite !str_assoc, sx_blanks.
  - destruct H as (H & _). rewrite fprint_text, text_lexes by (auto; apply sep_semi). rewrite sx_semi_nl, pre_app. reflexivity.
  - cbn [String.append app]. apply (sx_semi_nl false s).
Qed.
(** the sections of the listing; the initial conditions are always there *)
Definition shown_sections (R : rspec) : list section :=
  [SVars true (rs_evars R); SVars false (rs_svars R); SInit true (rs_einit R); SInit false (rs_sinit R)] ++
  list_section (STrans true) (rs_etrans R) ++ list_section (STrans false) (rs_strans R) ++
  list_section (SGoal true) (rs_egoals R) ++ list_section (SGoal false) (rs_sgoals R).
Lemma sx_vars_line : forall (env : bool) ds s, (forall d, In d ds -> writable_decl d) ->
  sx true (((if env then "ENV:" else "SYS:") ++ String.concat "" (map decl_text ds) ++ ";" ++ nl) ++ s)%string =
  pre (sec_toks (SVars env ds)) (sx true s).
Proof. intros env ds s H. rewrite <- (sx_section (SVars env ds) s H). f_equal. cbn [section_text]. destruct env; reflexivity. Qed.
Lemma sx_init_line : forall (env : bool) f s, opt_all (writable_form false) f ->
  sx true (((if env then "ENVINIT:" else "SYSINIT:") ++ ("  " ++ opt_text f) ++ ";" ++ nl) ++ s)%string =
  pre (sec_toks (SInit env f)) (sx true s).
Proof.
  intros env f s H. pose proof (sx_init_body f s H) as E. set (b := ("  " ++ opt_text f)%string) in *. clearbody b.
  rewrite !str_assoc. destruct env.
  - rewrite (kw "ENVINIT:" E_INIT _ _ ltac:(cbn; tauto) ltac:(discriminate) E). rewrite pre_app. destruct f; reflexivity.
  - rewrite (kw "SYSINIT:" S_INIT _ _ ltac:(cbn; tauto) ltac:(discriminate) E). rewrite pre_app. destruct f; reflexivity.
Qed.
Lemma sx_trans_line : forall (env : bool) fs s, (forall f, In f fs -> writable_form true f) ->
  sx true ((match array_body "[]" fs with Some b => (if env then "ENVTRANS:" else "SYSTRANS:") ++ b ++ ";" ++ nl | None => "" end) ++ s)%string =
  pre (List.concat (map sec_toks (list_section (STrans env) fs))) (sx true s).
Proof.
  intros env [|f fs] s H; [cbn; destruct (sx true s); reflexivity|]. set (l := f :: fs) in *.
  assert (E := sx_trans_body l s ltac:(discriminate) (fun g Hg => proj1 (H g Hg))).
  change (array_body "[]" l) with (Some ("  " ++ "[]" ++ " " ++ joined_text (" & " ++ "[]" ++ " ") l)%string).
  set (b := ("  " ++ "[]" ++ " " ++ joined_text (" & " ++ "[]" ++ " ") l)%string) in *. clearbody b.
  change (list_section (STrans env) l) with [STrans env l]. cbn [map List.concat]. rewrite app_nil_r.
  rewrite !str_assoc. destruct env.
  - rewrite (kw "ENVTRANS:" E_TRANS _ _ ltac:(cbn; tauto) ltac:(discriminate) E). rewrite pre_app. reflexivity.
  - rewrite (kw "SYSTRANS:" S_TRANS _ _ ltac:(cbn; tauto) ltac:(discriminate) E). rewrite pre_app. reflexivity.
Qed.
Lemma sx_goal_line : forall (env : bool) fs s, (forall f, In f fs -> writable_form false f) ->
  sx true ((match array_body "[]<>" fs with Some b => (if env then "ENVGOAL:" else "SYSGOAL:") ++ b ++ ";" ++ nl | None => "" end) ++ s)%string =
  pre (List.concat (map sec_toks (list_section (SGoal env) fs))) (sx true s).
Proof.
  intros env [|f fs] s H; [cbn; destruct (sx true s); reflexivity|]. set (l := f :: fs) in *.
  assert (E := sx_goal_body l s ltac:(discriminate) (fun g Hg => proj1 (H g Hg))).
  change (array_body "[]<>" l) with (Some ("  " ++ "[]<>" ++ " " ++ joined_text (" & " ++ "[]<>" ++ " ") l)%string).
  set (b := ("  " ++ "[]<>" ++ " " ++ joined_text (" & " ++ "[]<>" ++ " ") l)%string) in *. clearbody b.
  change (list_section (SGoal env) l) with [SGoal env l]. cbn [map List.concat]. rewrite app_nil_r.
  rewrite !str_assoc. destruct env.
  - rewrite (kw "ENVGOAL:" E_GOAL _ _ ltac:(cbn; tauto) ltac:(discriminate) E). rewrite pre_app. reflexivity.
  - rewrite (kw "SYSGOAL:" S_GOAL _ _ ltac:(cbn; tauto) ltac:(discriminate) E). rewrite pre_app. reflexivity.
Qed.
Lemma shown_writable : forall R, writable_spec R -> forall s, In s (shown_sections (without_domains R)) -> writable_section s.
Proof.
  intros R [_ H] s Hs. unfold shown_sections, without_domains in Hs. cbn [rs_evars rs_svars rs_einit rs_sinit rs_etrans rs_strans rs_egoals rs_sgoals] in Hs.
  assert (B : forall env ds, (forall d, In d ds -> writable_decl d) -> writable_section (SVars env (bare ds))).
  { intros env ds HD d Hd. unfold bare in Hd. apply in_map_iff in Hd. destruct Hd as (d' & <- & Hd). destruct (HD d' Hd) as [H1 _].
    split; cbn; [exact H1|lia]. }
  assert (IN : forall env f, (f = None \/ In (SInit env f) (sections_of R)) -> writable_section (SInit env f)).
  { intros env f [->|X]; [exact I|apply H; exact X]. }
  unfold sections_of in H, IN. rewrite !in_app_iff in Hs.
  destruct Hs as [Hs|Hs].
  - cbn [In] in Hs. destruct Hs as [<-|[<-|[<-|[<-|[]]]]].
    + apply (B true). apply (H (SVars true (rs_evars R))). left. reflexivity.
    + apply (B false). apply (H (SVars false (rs_svars R))). right. left. reflexivity.
    + apply IN. destruct (rs_einit R); [right|left; reflexivity]. right. right. cbn. auto.
    + apply IN. destruct (rs_sinit R); [right|left; reflexivity]. right. right. rewrite !in_app_iff. cbn. auto.
  - apply H. cbn [app]. right. right. rewrite !in_app_iff. tauto.
Qed.
Lemma as_file_toks : forall R, writable_spec R ->
  sx true (as_file (bodies_of R)) = Ok (List.concat (map sec_toks (shown_sections (without_domains R)))).
Proof.
  intros R HW. pose proof (shown_writable R HW) as H. unfold as_file, bodies_of, labels. cbn [List.combine map fst snd].
  rewrite !concat_cons. change (String.concat "" []) with "".
  unfold shown_sections in *. cbn [rs_evars rs_svars rs_einit rs_sinit rs_etrans rs_strans rs_egoals rs_sgoals without_domains] in *.
  fold (bare (rs_evars R)) (bare (rs_svars R)) in *.
  assert (L1 : forall (mk : list form -> section) fs s, s = mk fs -> (fs <> [] -> writable_section s) -> (forall f, In f fs -> writable_section (mk fs))).
  { intros mk fs s -> X f Hf. apply X. intros ->. destruct Hf. }
  rewrite (sx_vars_line true) by (apply (H (SVars true (bare (rs_evars R)))); left; reflexivity).
  rewrite (sx_vars_line false) by (apply (H (SVars false (bare (rs_svars R)))); right; left; reflexivity).
  rewrite (sx_init_line true) by (apply (H (SInit true (rs_einit R))); right; right; left; reflexivity).
  rewrite (sx_init_line false) by (apply (H (SInit false (rs_sinit R))); right; right; right; left; reflexivity).
  assert (T : forall (mk : list form -> section) fs f, In f fs -> In (mk fs) (list_section mk fs)) by (intros mk [|g fs] f Hf; [destruct Hf|left; reflexivity]).
  rewrite (sx_trans_line true). 2: { intros f Hf. apply (H (STrans true (rs_etrans R))); auto. apply in_or_app. right. apply in_or_app. left. eapply T; eauto. }
  rewrite (sx_trans_line false). 2: { intros f Hf. apply (H (STrans false (rs_strans R))); auto. apply in_or_app. right. rewrite !in_app_iff. right. left. eapply T; eauto. }
  rewrite (sx_goal_line true). 2: { intros f Hf. apply (H (SGoal true (rs_egoals R))); auto. apply in_or_app. right. rewrite !in_app_iff. right. right. left. eapply T; eauto. }
  rewrite (sx_goal_line false). 2: { intros f Hf. apply (H (SGoal false (rs_sgoals R))); auto. apply in_or_app. right. rewrite !in_app_iff. right. right. right. eapply T; eauto. }
  change (sx true "") with (Ok (@nil ysym)). unfold pre. cbn [bind]. rewrite app_nil_r. f_equal.
  rewrite !map_app, !concat_app. cbn [map List.concat]. rewrite app_nil_r, <- !app_assoc. reflexivity.
Qed.
Lemma add_init_empty : forall env f R, the_init env R = None -> add_section (SInit env f) R = Some (set_init env f R).
Proof. intros env f R H. cbn [add_section]. rewrite H. reflexivity. Qed.
Lemma names_bare : forall ds, names (bare ds) = names ds.
Proof. intros. unfold names, bare. rewrite map_map. reflexivity. Qed.
Lemma shown_mean : forall R, NoDup (names (rs_vars R)) -> file_means (shown_sections R) = Some R.
Proof.
  intros R H. rewrite <- (sections_mean R H). unfold file_means, shown_sections, sections_of.
  rewrite !add_sections_app. cbn [add_sections].
  destruct (add_section (SVars true (rs_evars R)) no_spec) as [R1|] eqn:E1; [|reflexivity].
  destruct (add_section (SVars false (rs_svars R)) R1) as [R2|] eqn:E2; [|reflexivity].
  assert (V : forall env ds X Y, add_vars env ds X = Some Y -> rs_einit Y = rs_einit X /\ rs_sinit Y = rs_sinit X).
  { intros env ds. induction ds as [|d ds IH]; intros X Y E; cbn [add_vars] in E; [injection E as <-; auto|].
    destruct (existsb _ _); [discriminate E|]. apply IH in E. exact E. }
  cbn [add_section] in E1, E2. destruct (V _ _ _ _ E1) as [A1 A2]. destruct (V _ _ _ _ E2) as [B1 B2].
  rewrite A1 in B1. rewrite A2 in B2. cbn in B1, B2. clear A1 A2 E1 E2.
  assert (N1 : forall env f X, the_init env X = None ->
     match add_section (SInit env f) X with Some R' => Some R' | None => None end = add_sections (opt_section f env) X).
  { intros env [f|] X HX; cbn; rewrite HX; [reflexivity|]. f_equal. destruct X, env; cbn in *; subst; reflexivity. }
  rewrite (add_sections_app (opt_section _ _)), <- (N1 true) by exact B1. rewrite !(add_init_empty true) by exact B1.
  rewrite (add_sections_app (opt_section _ _)), <- (N1 false) by exact B2. reflexivity.
Qed.
Lemma listing_ok : forall R, writable_spec R -> listing_of R (labelled (bodies_of R)).
Proof.
  intros R HW. exists (bodies_of R). split; [reflexivity|]. split; [reflexivity|].
  exists (List.concat (map sec_toks (shown_sections (without_domains R)))), (shown_sections (without_domains R)).
  split; [apply sx_symbols; apply as_file_toks; auto|]. split; [apply file_spelled; apply shown_writable; auto|].
  apply shown_mean. destruct HW as [H _]. unfold rs_vars in *. cbn [without_domains rs_evars rs_svars].
  unfold names in *. rewrite !map_app, !map_map in *. exact H.
Qed.

(** ** The drawings *)
Fixpoint stm (addr : list bool -> Z) (p : list bool) (t : ptree) (lab : ptree -> string) : list statement :=
  match t with
  | NULL => []
  | pnd _ _ _ l r =>
      stm addr (false :: p) l lab ++
      (Node (node_name addr p (lab t)) ::
       (match l with NULL => [] | _ => [Edge (node_name addr p (lab t)) (node_name addr (false :: p) (lab l))] end) ++
       (match r with NULL => [] | _ => [Edge (node_name addr p (lab t)) (node_name addr (true :: p) (lab r))] end)) ++
      stm addr (true :: p) r lab
  end.
Definition lab (t : ptree) : string := match print_node t with Ok s => s | _ => "" end.
Fixpoint named (t : ptree) : Prop :=
  match t with NULL => True | pnd _ _ _ l r => (exists s, print_node t = Ok s) /\ named l /\ named r end.
Lemma lab_ok : forall t, t <> NULL -> named t -> print_node t = Ok (lab t).
Proof. intros [|t n v l r] Hn H; [congruence|]. destruct H as [[s H] _]. unfold lab. rewrite H. reflexivity. Qed.
Lemma concat_app_str : forall a b, String.concat "" (a ++ b) = (String.concat "" a ++ String.concat "" b)%string.
Proof.
  induction a as [|x a IH]; intros b; [reflexivity|]. cbn [app]. rewrite !concat_cons, IH, str_assoc. reflexivity.
Qed.
Lemma node_text : forall addr p s, in_quotes (node_name addr p s) = (quote ++ zdec (addr p) ++ ";" ++ backslash_n ++ s ++ quote)%string.
Proof. intros. unfold in_quotes, node_name, quote, backslash_n. rewrite !str_assoc. reflexivity. Qed.
Lemma trav_ok : forall addr t p, named t -> inorder_trav t (tree_dot_dump_node addr) p =
  Ok (String.concat "" (map statement_text (stm addr p t lab))).
Proof.
  intros addr. induction t as [|ty n v l IHl r IHr]; intros p H; [reflexivity|].
  pose proof (lab_ok (pnd ty n v l r) ltac:(discriminate) H) as L. destruct H as (_ & Hl & Hr).
  cbn [inorder_trav stm]. rewrite IHl, IHr by assumption. cbn [bind]. unfold tree_dot_dump_node. rewrite L. cbn [bind].
  set (me := lab (pnd ty n v l r)).
  assert (K : forall c b, named c -> (match c with
            | NULL => Ok ""
            | pnd _ _ _ _ _ => k <- print_node c ;;
                 Ok ((quote ++ zdec (addr p) ++ ";" ++ backslash_n ++ me) ++ quote ++ " -> " ++ quote ++ zdec (addr (b :: p)) ++ ";" ++ backslash_n ++ k ++ quote ++ AutIO.nl)%string
            end) = Ok (String.concat "" (map statement_text match c with NULL => [] | _ => [Edge (node_name addr p me) (node_name addr (b :: p) (lab c))] end))).
  { intros c b Hc. destruct c as [|ct cn cv cl cr]; [reflexivity|]. rewrite (lab_ok (pnd ct cn cv cl cr) ltac:(discriminate) Hc). cbn [bind map].
    rewrite concat_cons. cbn [statement_text]. rewrite !node_text. change (String.concat "" []) with "". rewrite str_nil_r, !str_assoc. reflexivity. }
  rewrite (K l false Hl), (K r true Hr). cbn [bind]. f_equal. cbn [map].
  rewrite !map_app, !concat_app_str. cbn [map]. rewrite concat_cons, map_app, concat_app_str. cbn [statement_text]. rewrite node_text, !str_assoc. reflexivity.
Qed.
Lemma tree_named : forall f, named (tree_of f).
Proof.
  induction f; cbn; try (repeat split; eauto; fail).
  - destruct primed; destruct o; cbn; repeat split; eauto.
Qed.
Definition child (f : form) (b : bool) : option form :=
  match f with
  | FNot g => if b then Some g else None
  | _ => match bin_parts f with Some (_, g, h) => Some (if b then h else g) | None => None end
  end.
Lemma part_root : forall f, part f [] (lab (tree_of f)).
Proof.
  intros f. destruct f; try constructor.
  - destruct o; apply part_cmp.
  - apply (part_bin _ "&" f1 f2); reflexivity.
  - apply (part_bin _ "|" f1 f2); reflexivity.
  - apply (part_bin _ "->" f1 f2); reflexivity.
  - apply (part_bin _ "<->" f1 f2); reflexivity.
Qed.
Lemma snoc_ne : forall (A : Type) (p : list A) x, p ++ [x] <> [].
Proof. intros A [|y p] x; discriminate. Qed.
Lemma part_root_only : forall f s, part f [] s -> s = lab (tree_of f).
Proof.
  intros f s H. inversion H; subst; try reflexivity; try (exfalso; eapply snoc_ne; eassumption).
  - destruct o; reflexivity.
  - destruct f; try discriminate; match goal with E : bin_parts _ = _ |- _ => injection E as <- <- <- end; reflexivity.
Qed.
(** nodes of a tree *)
Fixpoint at_pos (t : ptree) (p : list bool) : option ptree :=   (* first turn first *)
  match p with
  | [] => match t with NULL => None | _ => Some t end
  | b :: q => match t with NULL => None | pnd _ _ _ l r => at_pos (if b then r else l) q end
  end.
Lemma part_at : forall f p s, part f p s <-> exists t, at_pos (tree_of f) (rev p) = Some t /\ s = lab t.
Proof.
  intros f p s. split.
  - induction 1; rewrite ?rev_app_distr; cbn [rev app];
      try (eexists; split; [reflexivity|]; destruct b || idtac; try destruct o; reflexivity).
    + destruct IHpart as (t & E & ->). exists t. split; auto.
    + destruct f; try discriminate; injection H as <- <- <-; (eexists; split; [reflexivity|reflexivity]).
    + destruct IHpart as (t & E & ->). exists t. split; auto. destruct f; try discriminate; injection H as <- <- <-; exact E.
    + destruct IHpart as (t & E & ->). exists t. split; auto. destruct f; try discriminate; injection H as <- <- <-; exact E.
  - intros (t & E & ->). remember (rev p) as q eqn:Eq. assert (Ep : p = rev q) by (rewrite Eq, rev_involutive; reflexivity). clear Eq. subst p.
    revert f E. induction q as [|b q IH]; intros f E.
    + assert (t = tree_of f) as -> by (destruct f; cbn in E |- *; injection E as <-; reflexivity). apply part_root.
    + cbn [rev]. destruct f; cbn [tree_of leaf_const leaf_var binop at_pos] in E.
      1-4: destruct q, b; discriminate E.
      * destruct q as [|b' q]; [|destruct b, b', q; discriminate E].
        destruct b; cbn in E; injection E as <-.
        -- apply part_cmp_num.
        -- change (part (FCmp primed x o k) [false] (lab (leaf_var primed x))). assert (X : lab (leaf_var primed x) = var_name primed x) by (destruct primed; reflexivity). rewrite X. apply part_cmp_var.
      * destruct b; [|destruct q; discriminate E]. apply part_not_in. apply IH. exact E.
      * destruct b; [apply (part_right _ "&" f1 f2)|apply (part_left _ "&" f1 f2)]; auto.
      * destruct b; [apply (part_right _ "|" f1 f2)|apply (part_left _ "|" f1 f2)]; auto.
      * destruct b; [apply (part_right _ "->" f1 f2)|apply (part_left _ "->" f1 f2)]; auto.
      * destruct b; [apply (part_right _ "<->" f1 f2)|apply (part_left _ "<->" f1 f2)]; auto.
Qed.
Lemma stm_nodes : forall addr t p a, In (Node a) (stm addr p t lab) <->
  exists q u, at_pos t q = Some u /\ a = node_name addr (rev q ++ p) (lab u).
Proof.
  intros addr. induction t as [|ty n v l IHl r IHr]; intros p a.
  - cbn. split; [intros []|]. intros (q & u & E & _). destruct q; discriminate E.
  - cbn [stm]. rewrite !in_app_iff, IHl, IHr. cbn [In]. rewrite in_app_iff. split.
    + intros [(q & u & E & ->)|[[E|[E|E]]|(q & u & E & ->)]].
      * exists (false :: q), u. split; auto. cbn [rev]. rewrite <- app_assoc. reflexivity.
      * injection E as <-. exists [], (pnd ty n v l r). auto.
      * exfalso. destruct l; cbn in E; intuition discriminate.
      * exfalso. destruct r; cbn in E; intuition discriminate.
      * exists (true :: q), u. split; auto. cbn [rev]. rewrite <- app_assoc. reflexivity.
    + intros (q & u & E & ->). destruct q as [|[|] q].
      * injection E as <-. right. left. left. reflexivity.
      * right. right. exists q, u. split; auto. cbn [rev]. rewrite <- app_assoc. reflexivity.
      * left. exists q, u. split; auto. cbn [rev]. rewrite <- app_assoc. reflexivity.
Qed.
Lemma stm_edges : forall addr t p a b, In (Edge a b) (stm addr p t lab) <->
  exists q c u u', at_pos t q = Some u /\ at_pos t (q ++ [c]) = Some u' /\
    a = node_name addr (rev q ++ p) (lab u) /\ b = node_name addr (c :: rev q ++ p) (lab u').
Proof.
  intros addr. induction t as [|ty n v l IHl r IHr]; intros p a b.
  - cbn. split; [intros []|]. intros (q & c & u & u' & E & _). destruct q; discriminate E.
  - cbn [stm]. rewrite !in_app_iff, IHl, IHr. cbn [In]. rewrite in_app_iff. split.
    + intros [(q & c & u & u' & E & E' & -> & ->)|[[E|[E|E]]|(q & c & u & u' & E & E' & -> & ->)]].
      * exists (false :: q), c, u, u'. cbn [rev]. rewrite <- app_assoc. auto.
      * discriminate E.
      * exists [], false, (pnd ty n v l r), l. destruct l as [|lt ln lv ll lr]; [destruct E|].
        cbn [In] in E. destruct E as [E|[]]. injection E as <- <-. auto.
      * exists [], true, (pnd ty n v l r), r. destruct r as [|rt rn rv rl rr]; [destruct E|].
        cbn [In] in E. destruct E as [E|[]]. injection E as <- <-. auto.
      * exists (true :: q), c, u, u'. cbn [rev]. rewrite <- app_assoc. auto.
    + intros (q & c & u & u' & E & E' & -> & ->). destruct q as [|[|] q].
      * cbn [at_pos] in E. injection E as <-. cbn [app at_pos] in E'. right. left. right.
        destruct c; [right; destruct r|left; destruct l]; try discriminate E'; injection E' as <-; left; reflexivity.
      * right. right. exists q, c, u, u'. cbn [rev]. rewrite <- app_assoc. auto.
      * left. exists q, c, u, u'. cbn [rev]. rewrite <- app_assoc. auto.
Qed.
Lemma name_inj : forall addr, (forall p q, addr p = addr q -> p = q) -> forall p s p' s',
  node_name addr p s = node_name addr p' s' -> p = p' /\ s = s'.
Proof.
  intros addr Hi p s p' s' E. unfold node_name in E. apply zdec_split in E; [|stop|stop]. destruct E as [E1 E2].
  split; [apply Hi; auto|]. cbn [String.append] in E2. congruence.
Qed.

Lemma part_pos : forall f p s, part f p s -> forall q, rev p = q -> exists t, at_pos (tree_of f) q = Some t /\ s = lab t.
Proof. intros f p s H q <-. apply part_at. exact H. Qed.
Lemma pos_part : forall f q t, at_pos (tree_of f) q = Some t -> part f (rev q) (lab t).
Proof. intros f q t H. apply part_at. rewrite rev_involutive. eauto. Qed.
Lemma stm_below : forall addr t p x, In x (stm addr p t lab) -> exists q s,
  match x with Node a => a | Edge a _ => a end = node_name addr (q ++ p) s.
Proof.
  intros addr t p [a|a b] H.
  - apply stm_nodes in H. destruct H as (q & u & _ & ->). eauto.
  - apply stm_edges in H. destruct H as (q & c & u & u' & _ & _ & -> & _). eauto.
Qed.
Lemma tail_ne : forall (A : Type) (q p : list A) x, q ++ x :: p <> p.
Proof. intros A q p x E. apply (f_equal (@List.length A)) in E. rewrite app_length in E. cbn in E. lia. Qed.
Lemma tails_ne : forall (q q' p : list bool) b b', q ++ b :: p = q' ++ b' :: p -> b = b'.
Proof.
  intros q q' p b b' E. assert (X : rev p ++ b :: rev q = rev p ++ b' :: rev q').
  { apply (f_equal (@rev bool)) in E. rewrite !rev_app_distr in E. cbn [rev] in E. rewrite <- !app_assoc in E. exact E. }
  apply app_inv_head in X. congruence.
Qed.
Lemma nodup_app : forall (A : Type) (a b : list A), NoDup a -> NoDup b -> (forall x, In x a -> In x b -> False) -> NoDup (a ++ b).
Proof.
  intros A. induction a as [|x a IH]; intros b Ha Hb H; [exact Hb|]. inversion Ha; subst. cbn. constructor.
  - rewrite in_app_iff. intros [X|X]; [auto|]. apply (H x); [left; auto|exact X].
  - apply IH; auto. intros y H1' H2'. apply (H y); [right|]; auto.
Qed.
Lemma stm_nodup : forall addr, (forall p q, addr p = addr q -> p = q) -> forall t p, NoDup (stm addr p t lab).
Proof.
  intros addr Hi. induction t as [|ty n v l IHl r IHr]; intros p; [constructor|]. cbn [stm].
  set (me := lab (pnd ty n v l r)).
  set (mid := Node _ :: _).
  assert (M : forall x, In x mid -> match x with Node a => a | Edge a _ => a end = node_name addr p me).
  { intros x Hx. unfold mid in Hx. cbn [In] in Hx. rewrite in_app_iff in Hx. destruct Hx as [<-|[Hx|Hx]]; [reflexivity|destruct l|destruct r]; cbn in Hx;
      destruct Hx as [<-|[]] || destruct Hx; reflexivity. }
  assert (S1 : forall x b t, In x (stm addr (b :: p) t lab) -> In x mid -> False).
  { intros x b t H1 H2. apply M in H2. destruct (stm_below addr t (b :: p) x H1) as (q & s & E). rewrite H2 in E.
    apply name_inj in E; auto. destruct E as [E _]. symmetry in E. exact (tail_ne _ _ _ _ E). }
  apply nodup_app; [apply IHl| |].
  - apply nodup_app; [|apply IHr|].
    + unfold mid. constructor.
      * rewrite in_app_iff. intros [X|X]; [destruct l|destruct r]; cbn in X; intuition discriminate.
      * destruct l, r; cbn; repeat constructor; cbn; intuition.
        match goal with H : Edge _ _ = Edge _ _ |- _ => injection H as H; apply name_inj in H; auto; destruct H as [H _]; discriminate H end.
    + intros x H1 H2. eapply S1; eauto.
  - intros x H1 H2. apply in_app_iff in H2. destruct H2 as [H2|H2]; [eapply S1; eauto|].
    destruct (stm_below _ _ _ _ H1) as (q & s & E). destruct (stm_below _ _ _ _ H2) as (q' & s' & E'). rewrite E in E'.
    apply name_inj in E'; auto. destruct E' as [E' _]. apply tails_ne in E'. discriminate E'.
Qed.
Lemma dump_draws : forall addr f, (forall p q, addr p = addr q -> p = q) ->
  exists text, tree_dot_dump addr (opt_tree f) = Ok text /\ draws addr f text.
Proof.
  intros addr f Hi.
  assert (N : named (opt_tree f)) by (destruct f; [apply tree_named|exact I]).
  unfold tree_dot_dump. rewrite (trav_ok addr _ [] N). cbn [bind]. eexists. split; [reflexivity|].
  exists (stm addr [] (opt_tree f) lab). split; [reflexivity|]. split; [apply stm_nodup; auto|].
  destruct f as [f|]; [|reflexivity]. cbn [opt_tree]. split; [|split].
  - intros a. rewrite stm_nodes. split.
    + intros (q & u & E & ->). rewrite app_nil_r. exists (rev q), (lab u). split; auto. apply pos_part. auto.
    + intros (p & s & H & ->). destruct (part_pos _ _ _ H _ eq_refl) as (t & E & ->). exists (rev p), t. rewrite rev_involutive, app_nil_r. auto.
  - intros a b. rewrite stm_edges. split.
    + intros (q & c & u & u' & E & E' & -> & ->). rewrite app_nil_r. exists (rev q), (lab u), c, (lab u').
      split; [apply pos_part; auto|]. split; auto. replace (c :: rev q) with (rev (q ++ [c])) by (rewrite rev_app_distr; reflexivity). apply pos_part. auto.
    + intros (p & s & c & s' & H & H' & -> & ->). destruct (part_pos _ _ _ H _ eq_refl) as (t & E & ->).
      destruct (part_pos _ _ _ H' _ eq_refl) as (t' & E' & ->). cbn [rev] in E'. exists (rev p), c, t, t'.
      rewrite rev_involutive, app_nil_r. auto.
  - intros p s p' s' _ _. apply name_inj. auto.
Qed.
Lemma zeros_ok : forall n, zeros n = String.concat "" (repeat "0" n).
Proof. induction n as [|n IH]; [reflexivity|]. cbn [repeat]. rewrite concat_cons, <- IH. reflexivity. Qed.
Lemma dump_array_ok : forall kind fs i, dump_array kind i (map tree_of fs) =
  map (fun x => (fst x, opt_tree (snd x)))
    (map (fun p : nat * form => ((kind ++ five_digits (fst p) ++ "_ptree.dot")%string, Some (snd p))) (List.combine (seq i (List.length fs)) fs)).
Proof.
  intros kind. induction fs as [|f fs IH]; intros i; [reflexivity|]. cbn [map dump_array List.length seq List.combine fst snd].
  rewrite IH. unfold zdec05, five_digits. rewrite zeros_ok. reflexivity.
Qed.
Lemma dump_list_ok : forall R, dump_list (raw_of R) = map (fun x => (fst x, opt_tree (snd x))) (drawings R).
Proof.
  intros R. unfold dump_list, drawings, dot_names. cbn [raw_of r_einit r_sinit r_etrans r_strans r_egoals r_sgoals].
  rewrite !dump_array_ok, !map_app. reflexivity.
Qed.
Lemma dump_trees_ok : forall W addr l, addresses addr -> (forall x, In x l -> w_writable W (fst x) = true) ->
  exists files, dump_trees W addr (map (fun x => (fst x, opt_tree (snd x))) l) = Ok (files, true) /\ drawn addr l files.
Proof.
  intros W addr l Ha. induction l as [|[f g] l IH]; intros H; [exists []; split; [reflexivity|constructor]|].
  destruct (IH (fun x Hx => H x (or_intror Hx))) as (files & E & D). destruct (dump_draws (addr f) g (Ha f)) as (text & E1 & E2).
  exists ((f, text) :: files). cbn [map dump_trees fst snd]. pose proof (H (f, g) (or_introl eq_refl)) as Hw. cbn [fst] in Hw. rewrite Hw, E1. cbn [bind]. rewrite E. split; [reflexivity|].
  constructor; auto.
Qed.
Lemma dump_trees_stop : forall W addr l x l', addresses addr -> (forall x, In x l -> w_writable W (fst x) = true) -> w_writable W (fst x) = false ->
  exists files, dump_trees W addr (map (fun x => (fst x, opt_tree (snd x))) (l ++ x :: l')) = Ok (files, false) /\ drawn addr l files.
Proof.
  intros W addr l x l' Ha H Hx. induction l as [|[f g] l IH].
  - exists []. destruct x as [f g]. cbn in *. rewrite Hx. split; [reflexivity|constructor].
  - destruct (IH (fun x Hx => H x (or_intror Hx))) as (files & E & D). destruct (dump_draws (addr f) g (Ha f)) as (text & E1 & E2).
    exists ((f, text) :: files). cbn [app map dump_trees fst snd]. pose proof (H (f, g) (or_introl eq_refl)) as Hw. cbn [fst] in Hw. rewrite Hw, E1. cbn [bind]. rewrite E. split; [reflexivity|].
    constructor; auto.
Qed.
