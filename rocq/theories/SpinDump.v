(** Lemmas: spin_aut_dump writes the file [file_of] and a formula that reads [formula_of]. *)
From Coq Require Import List ZArith Bool Arith Ascii String Lia.
From Verif Require Import Base Game Strs Ptree Form Solve FSpec RSpec FormPrint Automaton AutProofs AutProofs2 AutIO AutWrite
  SolveProofs EncProofs JsonWrite LexProofs Spin PromelaSpec SpinSpec SpinForm SpinText.
Import ListNotations.
Open Scope string_scope.
Open Scope list_scope.
Open Scope Z_scope.

(** ** The formula *)
Definition ands (l : list ltl) : ltl := match l with [] => LProp "" | f :: r => fold_left LAnd r f end.
Definition init_part (name : string) (f : option form) : list (string * ltl) :=
  match f with None => [] | Some _ => [(("X " ++ name)%string, LNext (LProp name))] end.
Definition trans_part (check trans : string) : string * ltl :=
  (("[] (!" ++ check ++ " || " ++ trans ++ ")")%string, LAlways (LOr (LNot (LProp check)) (LProp trans))).
Definition goal_part (name : string) (i : nat) : string * ltl :=
  (("[]<> " ++ numbered name i)%string, LAlways (LEventually (LProp (numbered name i)))).
Definition env_parts (R : rspec) : list (string * ltl) :=
  init_part "envinit" (rs_einit R) ++ trans_part "checketrans" "envtrans" ::
  map (goal_part "envgoal") (seq 0 (List.length (rs_egoals R))).
Definition sys_parts (R : rspec) : list (string * ltl) :=
  init_part "sysinit" (rs_sinit R) ++ trans_part "checkstrans" "systrans" ::
  map (goal_part "sysgoal") (seq 0 (List.length (rs_sgoals R))) ++ [("[] !pmlfault", LAlways (LNot (LProp "pmlfault")))].
Definition formula_text (R : rspec) : string :=
  if no_env R then concat " && " (map fst (sys_parts R))
  else ("(" ++ concat " && " (map fst (env_parts R)) ++ ") -> (" ++ concat " && " (map fst (sys_parts R)) ++ ")")%string.
Definition formula_of (R : rspec) : ltl :=
  if no_env R then ands (map snd (sys_parts R))
  else LImp (ands (map snd (env_parts R))) (ands (map snd (sys_parts R))).

Lemma ltext_le : forall n m t f, ltext n t f -> (n <= m)%nat -> ltext m t f.
Proof. intros n m t f H L. induction L; auto. apply lt_up. auto. Qed.
Lemma ands_text : forall l t f, ltext 1 t f -> (forall p, In p l -> ltext 0 (fst p) (snd p)) ->
  ltext 1 (concat " && " (t :: map fst l)) (fold_left LAnd (map snd l) f).
Proof.
  induction l as [|p l IH]; intros t f Ht Hl; [exact Ht|].
  cbn [map fold_left]. assert (P : ltext 1 (t ++ " && " ++ fst p) (LAnd f (snd p))).
  { apply lt_and; auto. apply Hl. left. auto. }
  assert (E : concat " && " (t :: fst p :: map fst l) = concat " && " ((t ++ " && " ++ fst p)%string :: map fst l)).
  { cbn [concat]. destruct (map fst l); auto. strs. reflexivity. }
  rewrite E. apply IH; auto. intros q Hq. apply Hl. right. auto.
Qed.
Lemma parts_text : forall l, l <> [] -> (forall p, In p l -> ltext 0 (fst p) (snd p)) ->
  ltext 1 (concat " && " (map fst l)) (ands (map snd l)).
Proof.
  intros [|p l] Hn Hl; [congruence|]. cbn [map ands]. apply ands_text; [|intros; apply Hl; right; auto].
  apply lt_up. apply Hl. left. auto.
Qed.
Lemma digits_name : forall s, all_chars isdigit s = true -> name_chars s = true.
Proof.
  induction s as [|c s IH]; intros H; auto. cbn in *. apply andb_true_iff in H. destruct H as [H1 H2].
  rewrite IH by auto. rewrite andb_true_r. revert c H1. apply by_chars. vm_compute. reflexivity.
Qed.
Lemma number4_chars : forall i, name_chars (number4 (Z.of_nat i)) = true.
Proof.
  intros i. unfold number4. assert (H := digits_name _ (zdec_digits (Z.of_nat i) (Zle_0_nat i))).
  destruct (String.length (zdec (Z.of_nat i))) as [|[|[|[|n]]]]; cbn; rewrite ?H; auto.
Qed.
Lemma goal_name : forall i, pname (numbered "envgoal" i) /\ pname (numbered "sysgoal" i).
Proof.
  intros i. assert (H := number4_chars i). unfold numbered, pname. cbn [append].
  split; (split; [split; [reflexivity|cbn; exact H]|]); unfold keywords; intros K;
    repeat (destruct K as [K|K]; [discriminate|]); destruct K.
Qed.
Lemma part_text : forall R p, In p (env_parts R ++ sys_parts R) -> ltext 0 (fst p) (snd p).
Proof.
  assert (I : forall name f p, pname name -> In p (init_part name f) -> ltext 0 (fst p) (snd p)).
  { intros name [f|] p Hn H; [|destruct H]. destruct H as [<-|[]]. cbn [fst snd]. apply lt_next, lt_prop. auto. }
  assert (T : forall c t, pname c -> pname t -> ltext 0 (fst (trans_part c t)) (snd (trans_part c t))).
  { intros c t Hc Ht. cbn [trans_part fst snd].
    change ("[] (!" ++ c ++ " || " ++ t ++ ")")%string with ("[]" ++ " " ++ "(" ++ (("!" ++ c) ++ " || " ++ t ++ ")"))%string.
    replace (("!" ++ c) ++ " || " ++ t ++ ")")%string with ((("!" ++ c) ++ " || " ++ t) ++ ")")%string by (strs; reflexivity).
    apply lt_always; auto. apply lt_paren. apply (ltext_le 2); [|lia]. apply lt_or.
    - apply (ltext_le 0); [|lia]. apply lt_not, lt_prop. auto.
    - apply (ltext_le 0); [|lia]. apply lt_prop. auto. }
  assert (G : forall name i, pname (numbered name i) -> ltext 0 (fst (goal_part name i)) (snd (goal_part name i))).
  { intros name i Hn. cbn [goal_part fst snd].
    change ("[]<> " ++ numbered name i)%string with ("[]" ++ "" ++ "<>" ++ " " ++ numbered name i)%string.
    apply lt_always; auto. apply lt_event; auto. apply lt_prop. auto. }
  assert (N : forall s, (match s with EmptyString => false | String c r => name_char true c && name_chars r end &&
     negb (existsb (String.eqb s) keywords))%bool = true -> pname s).
  { intros s H. apply andb_true_iff in H. destruct H as [H1 H2].
    unfold pname. destruct s as [|c s]; [discriminate|]. apply andb_true_iff in H1. split; auto.
    intros K. apply negb_true_iff in H2. assert (X : existsb (String.eqb (String c s)) keywords = true); [|congruence].
    apply existsb_exists. exists (String c s). split; auto. apply String.eqb_refl. }
  intros R p H. apply in_app_or in H. destruct H as [H|H].
  - unfold env_parts in H. apply in_app_or in H. destruct H as [H|[<-|H]].
    + apply (I "envinit" (rs_einit R)); auto.
    + apply T; apply N; reflexivity.
    + apply in_map_iff in H. destruct H as (i & <- & _). apply G. apply goal_name.
  - unfold sys_parts in H. apply in_app_or in H. destruct H as [H|[<-|H]].
    + apply (I "sysinit" (rs_sinit R)); auto.
    + apply T; apply N; reflexivity.
    + apply in_app_or in H. destruct H as [H|[<-|[]]].
      * apply in_map_iff in H. destruct H as (i & <- & _). apply G. apply goal_name.
      * cbn [fst snd]. change "[] !pmlfault"%string with ("[]" ++ " " ++ "!" ++ "pmlfault")%string.
        apply lt_always; auto. apply lt_not, lt_prop. apply N. reflexivity.
Qed.
Lemma sys_parts_ne : forall R, sys_parts R <> [].
Proof. intros R. unfold sys_parts. destruct (rs_sinit R); discriminate. Qed.
Lemma env_parts_ne : forall R, env_parts R <> [].
Proof. intros R. unfold env_parts. destruct (rs_einit R); discriminate. Qed.
Lemma formula_reads : forall R, ltext 3 (formula_text R) (formula_of R).
Proof.
  intros R. unfold formula_text, formula_of.
  assert (S1 := parts_text (sys_parts R) (sys_parts_ne R) (fun p H => part_text R p (in_or_app _ _ p (or_intror H)))).
  assert (E1 := parts_text (env_parts R) (env_parts_ne R) (fun p H => part_text R p (in_or_app _ _ p (or_introl H)))).
  destruct (no_env R); [apply (ltext_le 1); auto|].
  replace ("(" ++ concat " && " (map fst (env_parts R)) ++ ") -> (" ++ concat " && " (map fst (sys_parts R)) ++ ")")%string with
    (("(" ++ concat " && " (map fst (env_parts R)) ++ ")") ++ " -> " ++ ("(" ++ concat " && " (map fst (sys_parts R)) ++ ")"))%string
    by (strs; reflexivity).
  apply lt_imp.
  - apply (ltext_le 0); [|lia]. apply lt_paren. apply (ltext_le 1); auto.
  - apply (ltext_le 0); [|lia]. apply lt_paren. apply (ltext_le 1); auto.
Qed.
Lemma concat_cat : forall sep t (l : list string), concat sep (t :: l) = (t ++ cats (map (fun s => sep ++ s) l))%string.
Proof.
  intros sep t l. revert t. induction l as [|s l IH]; intros t.
  - cbn. rewrite string_app_nil. reflexivity.
  - change (concat sep (t :: s :: l)) with (t ++ sep ++ concat sep (s :: l))%string. rewrite IH.
    cbn [map cats fold_right]. strs. reflexivity.
Qed.
Lemma formula_eq : forall R,
  spin_aut_ltl_formula (List.length (rs_evars R)) (opt_tree (rs_einit R)) (opt_tree (rs_sinit R))
    (List.length (rs_egoals R)) (List.length (rs_sgoals R)) = (formula_text R ++ nl)%string.
Proof.
  intros R. unfold spin_aut_ltl_formula, formula_text, no_env.
  assert (I : forall name f rest, concat " && " (map fst (init_part name f) ++ rest) =
     ((if is_NULL (opt_tree f) then "" else "X " ++ name ++ (match rest with [] => "" | _ => " && " end)) ++ concat " && " rest)%string).
  { intros name [f|] rest; auto. assert (N : is_NULL (tree_of f) = false) by (destruct f; reflexivity).
    cbn [opt_tree]. rewrite N. cbn [init_part map fst app]. destruct rest; cbn [concat]; strs; reflexivity. }
  assert (G : forall name n, cats (map (fun s => " && " ++ s)%string (map fst (map (goal_part name) (seq 0 n)))) =
     cat (map (fun i => (" && []<> " ++ name ++ dec4 (Z.of_nat i))%string) (seq 0 n))).
  { intros name n. rewrite !map_map. unfold cat, cats. f_equal. apply map_ext. intros i. unfold goal_part, numbered. cbn [fst].
    rewrite dec4_eq. reflexivity. }
  assert (Es : concat " && " (map fst (sys_parts R)) = ((if is_NULL (opt_tree (rs_sinit R)) then "" else "X sysinit && ") ++
     "[] (!checkstrans || systrans)" ++ cat (map (fun i => (" && []<> sysgoal" ++ dec4 (Z.of_nat i))%string) (seq 0 (List.length (rs_sgoals R)))) ++ " && [] !pmlfault")%string).
  { unfold sys_parts. rewrite map_app, I. cbn [map fst trans_part]. rewrite concat_cat, !map_app, cats_app.
    change (fun i => (" && []<> sysgoal" ++ dec4 (Z.of_nat i))%string) with (fun i => (" && []<> " ++ "sysgoal" ++ dec4 (Z.of_nat i))%string).
    rewrite <- G. reflexivity. }
  assert (Ee : concat " && " (map fst (env_parts R)) = ((if is_NULL (opt_tree (rs_einit R)) then "" else "X envinit && ") ++
     "[] (!checketrans || envtrans)" ++ cat (map (fun i => (" && []<> envgoal" ++ dec4 (Z.of_nat i))%string) (seq 0 (List.length (rs_egoals R)))))%string).
  { unfold env_parts. rewrite map_app, I. cbn [map fst trans_part]. rewrite concat_cat.
    change (fun i => (" && []<> envgoal" ++ dec4 (Z.of_nat i))%string) with (fun i => (" && []<> " ++ "envgoal" ++ dec4 (Z.of_nat i))%string).
    rewrite <- G. reflexivity. }
  rewrite Es, Ee. destruct (rs_evars R) as [|v l]; cbn [List.length Nat.ltb Nat.leb]; strs; reflexivity.
Qed.

(** ** The macros *)
Lemma fvars_uses : forall vs p f, uses vs p f -> forall y, In y (if p then fnexts f else fvars f) -> In y (names vs).
Proof.
  intros vs p f [H1 H2].
  assert (S1 : forall f y, In y (if p then fnexts f else fvars f) -> In y (bares p f) \/ In y (cmps p f)).
  { clear. induction f; intros y Hy; destruct p; cbn in *; try tauto;
      try (rewrite in_app_iff in *; destruct Hy as [Hy|Hy]; [apply IHf1 in Hy|apply IHf2 in Hy]; rewrite !in_app_iff; tauto);
      try (destruct primed; cbn in *; tauto); auto. }
  intros y Hy. destruct (S1 f y Hy) as [B|C].
  - apply H1 in B. apply (in_map fst) in B. exact B.
  - apply H2 in C. destruct C as (d & _ & C). apply (in_map fst) in C. exact C.
Qed.
Lemma evar_in : forall R x, In x (names (rs_evars R)) -> In x (names (rs_vars R)).
Proof. intros R x. unfold names, rs_vars. rewrite map_app, in_app_iff. auto. Qed.
Definition rule_typed (R : rspec) (f : form) : Prop := uses (rs_vars R) false f /\ uses (rs_vars R) true f.
Lemma uses_nil : forall vs f, bares true f = [] -> cmps true f = [] -> uses vs true f.
Proof. intros vs f H1 H2. unfold uses. rewrite H1, H2. split; intros y []. Qed.
Lemma typed_rules : forall R, well_typed R ->
  (forall f, rs_einit R = Some f \/ rs_sinit R = Some f \/ In f (rs_etrans R) \/ In f (rs_strans R) \/
     In f (rs_egoals R) \/ In f (rs_sgoals R) -> rule_typed R f).
Proof.
  intros R (_ & (Hei & Hsi) & Het & Hst & Heg & Hsg & _) f H. unfold rule_typed.
  assert (St : state_typed R f -> uses (rs_vars R) false f /\ uses (rs_vars R) true f).
  { intros (S1 & S2 & S3). split; auto. apply uses_nil; auto. }
  destruct H as [H|[H|[H|[H|[H|H]]]]].
  - rewrite H in Hei. apply St; auto.
  - rewrite H in Hsi. apply St; auto.
  - destruct (Het f H) as [H1 [H2 H3]]. split; auto. split.
    + intros y Hy. unfold rs_vars. apply in_or_app. left. apply H2; auto.
    + intros y Hy. destruct (H3 y Hy) as (d & Hd & Hin). exists d. split; auto. apply in_or_app. auto.
  - apply Hst; auto.
  - apply St; auto.
  - apply St; auto.
Qed.
Definition exps_of (R : rspec) : definitions := defs_of sexp trans_exp R.
Lemma defs_define : forall R A, well_typed R -> spin_names R -> defines (file_of R A) (exps_of R).
Proof.
  intros R A Ht Hn. unfold defines. cbn [file_of f_defs]. unfold exps_of, defs_of.
  assert (P : forall f, rule_typed R f -> ptext 0 (stext f) (sexp f)).
  { intros f [H1 H2]. apply stext_ptext. intros y Hy. apply (sn_name R Hn). apply in_app_or in Hy. destruct Hy as [Hy|Hy].
    - apply (fvars_uses _ false f); auto.
    - apply (fvars_uses _ true f); auto. }
  assert (T := typed_rules R Ht).
  assert (I : forall name f, (forall g, f = Some g -> rule_typed R g) ->
    Forall2 (fun d e => fst d = fst e /\ ptext 4 (snd d) (snd e)) (init_defs name stext f) (init_defs name sexp f)).
  { intros name [f|] Hf; constructor; [|constructor]. split; auto. cbn [snd]. apply (ptext_le 0); [|lia]. apply P. auto. }
  assert (G : forall name l k, (forall g, In g l -> rule_typed R g) ->
    Forall2 (fun d e => fst d = fst e /\ ptext 4 (snd d) (snd e)) (goal_defs name stext l k) (goal_defs name sexp l k)).
  { intros name. induction l as [|g l IH]; intros k Hl; constructor.
    - split; auto. cbn [snd]. apply (ptext_le 0); [|lia]. apply P. apply Hl. left. auto.
    - apply IH. intros h Hh. apply Hl. right. auto. }
  apply Forall2_app.
  - destruct (no_env R); [constructor|]. apply Forall2_app.
    + apply I. intros; apply T; auto.
    + constructor; [split; auto; cbn [snd]; apply trans_ptext; intros; apply P, T; auto|]. apply G. intros; apply T. tauto.
  - apply Forall2_app.
    + apply I. intros; apply T; auto.
    + constructor; [split; auto; cbn [snd]; apply trans_ptext; intros; apply P, T; tauto|]. apply G. intros; apply T. tauto.
Qed.

(** ** The whole file *)
Lemma dump_eq : forall R, well_typed R ->
  exists N, forall fuel, (N <= fuel)%nat -> forall A same, formed R A ->
    spin_aut_dump fuel same A (vlist (rs_evars R)) (vlist (rs_svars R)) (opt_tree (rs_einit R)) (opt_tree (rs_sinit R))
      (map tree_of (rs_etrans R)) (map tree_of (rs_strans R)) (map tree_of (rs_egoals R)) (map tree_of (rs_sgoals R)) =
    Ok (spin_text (formula_text R) (file_of R A), if same then None else Some (formula_text R ++ nl)%string, 0).
Proof.
  intros R Ht. exists (List.length (counts (doms (rs_evars R)))). intros fuel Hfuel A same Hf.
  unfold spin_aut_dump. rewrite !vlist_size, link_vlist, !map_length, formula_eq. fold (rs_vars R).
  assert (Hlen : forall x, In x A -> List.length (astate x) = (List.length (rs_evars R) + List.length (rs_svars R))%nat).
  { intros x Hx. assert (H := fm_states R A Hf x Hx). unfold fs_states in H. apply dvecs_In in H. apply in_doms_len in H.
    rewrite H. unfold doms, fs_vars. rewrite map_length, app_length. reflexivity. }
  rewrite !init_eq, !trans_eq, !goals_eq, decls_eq, apply_eq.
  assert (Hi : spin_initial (vlist (rs_vars R)) (List.length (rs_evars R) + List.length (rs_svars R)) A 0 =
    Ok (lines (map start_text (start_nodes (rs_vars R) A 0)))).
  { unfold rs_vars at 1. rewrite <- app_length. apply initial_eq. intros x Hx. rewrite Hlen by auto. symmetry. apply app_length. }
  rewrite Hi.
  assert (He : spin_edges A (vlist (rs_vars R)) (vlist (rs_svars R)) (List.length (rs_evars R)) (List.length (rs_svars R)) A 0 =
    Ok (lines (map edge_text (edges_of A (rs_evars R) (rs_svars R) A 0)))).
  { apply edges_eq; auto. intros x t Hx Hx2. destruct (fm_closed R A Hf x t Hx Hx2) as (y & Hy & <-).
    unfold ids. apply in_map. auto. }
  rewrite He. unfold spin_text, model_text, no_moves. cbn [file_of f_types f_defs f_start f_moves f_edges].
  unfold moves_of, defs_of, no_env. change (map (fun d => ("#define " ++ fst d ++ " " ++ snd d)%string)) with (map def_line).
  destruct (rs_evars R) as [|v es] eqn:E.
  - cbn [List.length Nat.ltb Nat.leb bind app]. rewrite map_app, lines_app. cbn [map].
    change (lines (def_line ("systrans", trans_text (rs_strans R)) :: map def_line (goal_defs "sysgoal" stext (rs_sgoals R) 0)))
      with (nl ++ def_line ("systrans", trans_text (rs_strans R)) ++ lines (map def_line (goal_defs "sysgoal" stext (rs_sgoals R) 0)))%string.
    unfold def_line at 2. cbn [fst snd].
    do 3 f_equal. strs. reflexivity.
  - rewrite <- E in *.
    assert (Hm : spin_moves fuel (vlist (rs_vars R)) (List.length (rs_evars R)) (repeat 0 (List.length (rs_evars R))) =
      Ok (lines (map move_text (map (sets_of nx (rs_evars R)) (counts (doms (rs_evars R))))))).
    { apply (moves_eq _ _ (rs_svars R)); auto.
      - rewrite E. discriminate.
      - replace (List.length (rs_evars R)) with (List.length (doms (rs_evars R))) by (apply map_length).
        apply walk_counts. intros d Hd. apply in_map_iff in Hd. destruct Hd as ([x d'] & <- & Hin). cbn [snd].
        destruct Ht as (Hd & _). apply (Hd x). unfold rs_vars. apply in_or_app. auto.
      - intros e He'. apply counts_In in He'. apply dvecs_In in He'. apply in_doms_len in He'.
        rewrite He'. apply map_length. }
    rewrite Hm.
    replace (0 <? List.length (rs_evars R))%nat with true by (rewrite E; reflexivity). cbn [bind].
    rewrite !map_app, !lines_app. cbn [map].
    change (lines (def_line ("systrans", trans_text (rs_strans R)) :: map def_line (goal_defs "sysgoal" stext (rs_sgoals R) 0)))
      with (nl ++ def_line ("systrans", trans_text (rs_strans R)) ++ lines (map def_line (goal_defs "sysgoal" stext (rs_sgoals R) 0)))%string.
    change (lines (def_line ("envtrans", trans_text (rs_etrans R)) :: map def_line (goal_defs "envgoal" stext (rs_egoals R) 0)))
      with (nl ++ def_line ("envtrans", trans_text (rs_etrans R)) ++ lines (map def_line (goal_defs "envgoal" stext (rs_egoals R) 0)))%string.
    change (def_line ("systrans", trans_text (rs_strans R))) with ("#define systrans " ++ trans_text (rs_strans R))%string.
    change (def_line ("envtrans", trans_text (rs_etrans R))) with ("#define envtrans " ++ trans_text (rs_etrans R))%string.
    do 3 f_equal. strs. reflexivity.
Qed.
