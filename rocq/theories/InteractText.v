(** The interactive mode from typed commands to printed answers. *)
From Coq Require Import List ZArith Bool Arith Ascii String Lia.
From Verif Require Import Base Game Bdd Support EnumProofs Ops OpsProofs Strs Ptree Form Solve FSpec SolveProofs
  Automaton AutIO AutIOSpec AutIOProofs Synth SynthSpec ReadState ReadSpec ReadProofs FormPrint Lex
  Interactive InteractSpec InteractProofs InteractRun.
Import ListNotations.
Open Scope string_scope.
Open Scope list_scope.
Open Scope Z_scope.

(** ** Reading arguments *)
Lemma prefix_more : forall s l rest, int_prefix s l rest -> forall z more rest', int_prefix s (l ++ z :: more) rest' ->
  exists t z' r, rest = (t ++ r)%string /\ num_text t z'.
Proof.
  intros s l rest H. induction H as [s|t z s l rest Hn Hsd Hp IH]; intros z1 more rest' H'.
  - cbn in H'. inversion H' as [|t' z' s' zs0 rest1 Hn' Hs' Hp' E1 E2 E3]; subst. exists t', z1, s'. auto.
  - cbn in H'. inversion H' as [|t' z' s' zs0 rest1 Hn' Hs' Hp' E1 E2 E3]; subst.
    pose proof (num_prefix _ _ _ Hn Hsd) as E. pose proof (num_prefix _ _ _ Hn' Hs') as E'.
    rewrite E1 in E'. rewrite E in E'. injection E' as <-. eapply IH; eauto.
Qed.
Lemma read_exact : forall s l rest max_len, int_prefix s l rest -> ints l ->
  max_len < 0 \/ Z.of_nat (List.length l) <= max_len ->
  no_int rest \/ Z.of_nat (List.length l) = max_len ->
  read_state_str s max_len = Ok (Z.of_nat (List.length l), l).
Proof.
  intros s l rest max_len Hp Hi Hm Hend.
  destruct (read_state_ok s max_len) as (zs & rest' & H1 & H2 & H3 & H4).
  assert (E : zs = l).
  { destruct (Nat.le_ge_cases (List.length zs) (List.length l)) as [Hl|Hl].
    - destruct (prefix_unique _ _ _ H1 _ _ Hp Hl) as [more Em].
      destruct more as [|m more]; [rewrite app_nil_r in Em; auto|]. exfalso.
      assert (Hne2 : Z.of_nat (List.length zs) <> max_len) by (rewrite Em, app_length in Hm; cbn in Hm; lia).
      subst l. destruct (prefix_more _ _ _ H1 _ _ _ Hp) as (t & z & r & E & Hn).
      apply (H4 Hne2 t z r E Hn).
    - destruct (prefix_unique _ _ _ Hp _ _ H1 Hl) as [more Em].
      destruct more as [|m more]; [rewrite app_nil_r in Em; auto|]. exfalso.
      destruct Hend as [Hno|Hlen].
      + subst zs. destruct (prefix_more _ _ _ Hp _ _ _ H1) as (t & z & r & E & Hn). apply (Hno t z r E Hn).
      + rewrite Em, app_length in H3. cbn in H3. lia. }
  subst zs. rewrite H2. do 2 f_equal. rewrite <- (map_id l) at 2. apply map_ext_in. intros z Hz. apply to_int_ok; auto.
Qed.

Lemma num_has_digit : forall t z, num_text t z -> all_chars (fun c => negb (isdigit c)) t = false.
Proof.
  intros t z (ws & sg & ds & -> & _ & Hne & Hd & _). rewrite !all_chars_app.
  assert (H : all_chars (fun c => negb (isdigit c)) ds = false).
  { destruct ds as [|c ds]; [congruence|]. cbn in *. apply andb_true_iff in Hd. destruct Hd as [-> _]. reflexivity. }
  rewrite H, !andb_false_r. reflexivity.
Qed.
Lemma no_int_eol : no_int eol.
Proof.
  intros t z r E Hn. apply num_has_digit in Hn.
  assert (H : all_chars (fun c => negb (isdigit c)) (t ++ r) = true) by (rewrite <- E; reflexivity).
  rewrite all_chars_app, Hn in H. discriminate.
Qed.
Lemma join_prefix_eol : forall l ws, all_chars isspace ws = true ->
  exists r, int_prefix (ws ++ join l ++ eol) l r /\ no_int r.
Proof.
  induction l as [|z l IH]; intros ws Hws.
  - exists (ws ++ eol)%string. split; [constructor|]. intros t z r E Hn. apply num_has_digit in Hn.
    assert (Hs : forall c, isspace c = true -> negb (isdigit c) = true).
    { intros c. destruct c as [[] [] [] [] [] [] [] []]; cbn; auto; discriminate. }
    assert (H : all_chars (fun c => negb (isdigit c)) (t ++ r) = true).
    { rewrite <- E, all_chars_app, andb_true_iff. split; [|reflexivity]. clear - Hs Hws.
      induction ws as [|c ws IH]; cbn in *; auto. apply andb_true_iff in Hws. destruct Hws as [H1 H2].
      rewrite (Hs c H1). auto. }
    rewrite all_chars_app, Hn in H. discriminate.
  - destruct l as [|z' l].
    + exists eol. split; [|apply no_int_eol]. cbn [join]. rewrite <- string_app_assoc.
      constructor; [apply zdec_text; auto|reflexivity|constructor].
    + destruct (IH " " eq_refl) as (r & Hr & Hn). exists r. split; auto.
      change (join (z :: z' :: l)) with (zdec z ++ " " ++ join (z' :: l))%string.
      rewrite string_app_assoc, <- (string_app_assoc ws).
      constructor; [apply zdec_text; auto|reflexivity|].
      rewrite string_app_assoc. exact Hr.
Qed.
Lemma read_args : forall l max_len, ints l -> Z.of_nat (List.length l) <= max_len ->
  read_state_str (join l ++ eol) max_len = Ok (Z.of_nat (List.length l), l).
Proof.
  intros l max_len Hi Hm. destruct (join_prefix_eol l "" eq_refl) as (r & Hr & Hn). cbn [String.append] in Hr.
  apply (read_exact _ l r); auto.
Qed.
Lemma join_newline : forall l, has_newline (join l) = false.
Proof.
  induction l as [|z l IH]; auto. destruct l as [|z' l]; [apply zdec_newline|].
  change (join (z :: z' :: l)) with (zdec z ++ " " ++ join (z' :: l))%string.
  rewrite !has_newline_app, zdec_newline, IH. reflexivity.
Qed.

(** ** Lines *)
Lemma fgets_ok : forall body rest max, has_newline body = false -> (String.length body < max)%nat ->
  fgets max ((body ++ eol) ++ rest) = ((body ++ eol)%string, rest).
Proof.
  induction body as [|c body IH]; intros rest max Hn Hl.
  - destruct max as [|max]; [cbn in Hl; lia|]. reflexivity.
  - destruct max as [|max]; [cbn in Hl; lia|]. cbn [has_newline] in Hn. apply orb_false_iff in Hn.
    destruct Hn as [Hc Hn]. cbn [String.append fgets]. rewrite Hc. rewrite IH; auto. cbn in Hl. lia.
Qed.
Lemma string_len_app : forall a b, String.length (a ++ b) = (String.length a + String.length b)%nat.
Proof. induction a; intros; cbn; auto. Qed.

Section Text.
  Variable F : fspec.
  Hypothesis Hws : well_scoped F.
  Hypothesis Hbool : all_boolean F.
  Hypothesis Hgoals : fs_sgoals F <> [].
  Hypothesis Hsvars : fs_svars F <> [].
  Hypothesis Hint : int_ok (Z.of_nat (List.length (fs_sgoals F))).
  Let ne := List.length (fs_evars F).
  Let ns := List.length (fs_svars F).
  Notation sp := (spec_of F).

  Lemma body_of : forall c, exists body, command_text c = (body ++ eol)%string /\ has_newline body = false.
  Proof.
    assert (J : forall w l, has_newline w = false -> exists body, (w ++ join l ++ eol)%string = (body ++ eol)%string /\
      has_newline body = false).
    { intros w l H. exists (w ++ join l)%string. rewrite string_app_assoc. split; auto.
      rewrite has_newline_app, H, join_newline. reflexivity. }
    intros c. destruct c; cbn [command_text]; try (apply J; reflexivity); eexists; split; reflexivity.
  Qed.
  Lemma bits_ints : forall k v, bitvec k v -> ints v.
  Proof.
    intros k v [_ H] z Hz. rewrite Forall_forall in H. destruct (H z Hz) as [->| ->];
      unfold int_ok; split; cbn; lia.
  Qed.
  Lemma ints_app : forall a b, ints a -> ints b -> ints (a ++ b).
  Proof. intros a b Ha Hb z Hz. apply in_app_or in Hz. destruct Hz; auto. Qed.
  Lemma goal_int : forall i, (i < List.length (fs_sgoals F))%nat -> ints [Z.of_nat i].
  Proof. intros i Hi z [<-|[]]. unfold int_ok in *. lia. Qed.

  Lemma NE : Z.of_nat (num_env sp) = Z.of_nat ne.
  Proof. rewrite num_env_eq. reflexivity. Qed.
  Lemma NS : Z.of_nat (num_sys sp) = Z.of_nat ns.
  Proof. rewrite num_sys_eq. reflexivity. Qed.
  Lemma fixed_ok : forall l len (c : vec -> intcom), ints l -> Z.of_nat (List.length l) = len ->
    fixed (join l ++ eol) len c = Ok (LCommand (c l)).
  Proof.
    intros l len c Hi Hl. unfold fixed. rewrite read_args by (auto; lia). cbn [bind fst snd].
    rewrite Hl, Z.eqb_refl. reflexivity.
  Qed.
  Lemma edge_ok : forall l (c : vec -> intcom), ints l ->
    (List.length l = 2 * (ne + ns) \/ List.length l = 2 * ne + ns)%nat ->
    edge sp (join l ++ eol) c = Ok (LCommand (c l)).
  Proof.
    intros l c Hi Hl. unfold edge. rewrite NE, NS. rewrite read_args by (auto; lia). cbn [bind fst snd].
    destruct (Z.eqb_spec (Z.of_nat (List.length l)) (2 * (Z.of_nat ne + Z.of_nat ns))) as [E|E]; [reflexivity|].
    rewrite (proj2 (Z.eqb_eq _ _)) by lia. reflexivity.
  Qed.
  Lemma with_goal_ok : forall l i len (c : vec -> Z -> intcom), ints l -> Z.of_nat (List.length l) = len ->
    (i < List.length (fs_sgoals F))%nat ->
    with_goal sp (join (l ++ [Z.of_nat i]) ++ eol) len c = Ok (LCommand (c l (Z.of_nat i))).
  Proof.
    intros l i len c Hi Hl Hg. unfold with_goal.
    assert (Hll : Z.of_nat (List.length (l ++ [Z.of_nat i])) = len + 1) by (rewrite app_length; cbn; lia).
    rewrite read_args; [|apply ints_app; auto; apply goal_int; auto|lia].
    cbn [bind fst snd]. rewrite Hll, Z.eqb_refl. cbn [negb].
    replace (Z.to_nat len) with (List.length l) by lia. rewrite app_nth2, Nat.sub_diag by lia. cbn [nth].
    rewrite firstn_app, Nat.sub_diag, firstn_all, app_nil_r.
    assert (Hk : List.length (sys_goals sp) = List.length (fs_sgoals F)) by (cbn; apply map_length).
    rewrite Hk. rewrite (proj2 (Z.ltb_ge _ _)) by lia. cbn [orb]. rewrite Z.gtb_ltb.
    rewrite (proj2 (Z.ltb_ge _ _)) by lia. reflexivity.
  Qed.

  Lemma starts_self : forall w r, starts w (w ++ r) = true.
  Proof.
    unfold starts. induction w as [|a w IH]; intros r; [destruct r; reflexivity|]. cbn [String.append String.prefix].
    destruct (Ascii.ascii_dec a a); [apply IH|congruence].
  Qed.
  Lemma line_winning : forall r, command_line sp ("winning " ++ r) = fixed r (Z.of_nat (num_env sp) + Z.of_nat (num_sys sp)) INTCOM_WINNING.
  Proof.
    intros r. unfold command_line. rewrite (starts_self "winning "). reflexivity.
  Qed.
  Lemma line_envnext : forall r, command_line sp ("envnext " ++ r) = fixed r (Z.of_nat (num_env sp) + Z.of_nat (num_sys sp)) INTCOM_ENVNEXT.
  Proof.
    intros r. unfold command_line. rewrite (starts_self "envnext "). reflexivity.
  Qed.
  Lemma line_sysnext : forall r, command_line sp ("sysnext " ++ r) = with_goal sp r (2 * Z.of_nat (num_env sp) + Z.of_nat (num_sys sp)) INTCOM_SYSNEXT.
  Proof.
    intros r. unfold command_line. rewrite (starts_self "sysnext "). reflexivity.
  Qed.
  Lemma line_sysnexta : forall r, command_line sp ("sysnexta " ++ r) = fixed r (2 * Z.of_nat (num_env sp) + Z.of_nat (num_sys sp)) INTCOM_SYSNEXTA.
  Proof.
    intros r. unfold command_line. rewrite (starts_self "sysnexta "). reflexivity.
  Qed.
  Lemma line_getindex : forall r, command_line sp ("getindex " ++ r) = with_goal sp r (Z.of_nat (num_env sp) + Z.of_nat (num_sys sp)) INTCOM_GETINDEX.
  Proof.
    intros r. unfold command_line. rewrite (starts_self "getindex "). reflexivity.
  Qed.
  Lemma line_restrict : forall r, command_line sp ("restrict " ++ r) = edge sp r INTCOM_RESTRICT.
  Proof.
    intros r. unfold command_line. rewrite (starts_self "restrict "). reflexivity.
  Qed.
  Lemma line_relax : forall r, command_line sp ("relax " ++ r) = edge sp r INTCOM_RELAX.
  Proof.
    intros r. unfold command_line. rewrite (starts_self "relax "). reflexivity.
  Qed.
  Lemma line_blockenv : forall r, command_line sp ("blockenv " ++ r) = fixed r (Z.of_nat (num_env sp)) INTCOM_BLKENV.
  Proof.
    intros r. unfold command_line. rewrite (starts_self "blockenv "). reflexivity.
  Qed.
  Lemma line_blocksys : forall r, command_line sp ("blocksys " ++ r) = fixed r (Z.of_nat (num_sys sp)) INTCOM_BLKSYS.
  Proof.
    intros r. unfold command_line. rewrite (starts_self "blocksys "). reflexivity.
  Qed.
  Lemma with_goal_bad : forall l g len (c : vec -> Z -> intcom), ints l -> Z.of_nat (List.length l) = len ->
    int_ok g -> (g < 0 \/ Z.of_nat (List.length (fs_sgoals F)) <= g) ->
    with_goal sp (join (l ++ [g]) ++ eol) len c = Ok (LSay ("Invalid mode: " ++ zdec g ++ eol)).
  Proof.
    intros l g len c Hi Hl Hg Hb. unfold with_goal.
    assert (Hll : Z.of_nat (List.length (l ++ [g])) = len + 1) by (rewrite app_length; cbn; lia).
    rewrite read_args; [|apply ints_app; auto; intros z [<-|[]]; auto|lia].
    cbn [bind fst snd]. rewrite Hll, Z.eqb_refl. cbn [negb].
    replace (Z.to_nat len) with (List.length l) by lia. rewrite app_nth2, Nat.sub_diag by lia. cbn [nth].
    assert (Hk : List.length (sys_goals sp) = List.length (fs_sgoals F)) by (cbn; apply map_length).
    rewrite Hk. rewrite (proj2 (orb_true_iff _ _)).
    - unfold say. rewrite string_app_assoc. reflexivity.
    - rewrite Z.gtb_ltb, !Z.ltb_lt. lia.
  Qed.
  Lemma too_few : forall l len (c : vec -> intcom), ints l -> Z.of_nat (List.length l) < len ->
    fixed (join l ++ eol) len c = Ok (LSay ("Invalid arguments." ++ eol)).
  Proof.
    intros l len c Hi Hl. unfold fixed. rewrite read_args by (auto; lia). cbn [bind fst snd].
    rewrite (proj2 (Z.eqb_neq _ _)) by lia. reflexivity.
  Qed.
  Lemma bad_goal : forall s e g, In s (fs_states F) -> In e (fs_envs F) -> int_ok g ->
    (g < 0 \/ Z.of_nat (List.length (fs_sgoals F)) <= g) ->
    command_line sp ("sysnext " ++ join (s ++ e ++ [g]) ++ eol) = Ok (LSay ("Invalid mode: " ++ zdec g ++ eol)) /\
    command_line sp ("getindex " ++ join (s ++ [g]) ++ eol) = Ok (LSay ("Invalid mode: " ++ zdec g ++ eol)).
  Proof.
    intros s e g Hs He Hg Hb.
    assert (S : ints s /\ List.length s = (ne + ns)%nat).
    { apply (stb F Hbool) in Hs. split; [eapply bits_ints; eauto|apply Hs]. }
    assert (E : ints e /\ List.length e = ne).
    { apply (enb F Hbool) in He. split; [eapply bits_ints; eauto|apply He]. }
    destruct S, E. split.
    - rewrite app_assoc, line_sysnext. apply with_goal_bad; auto using ints_app. rewrite NE, NS, app_length. lia.
    - rewrite line_getindex. apply with_goal_bad; auto. rewrite NE, NS. lia.
  Qed.
  Lemma few_args : forall l w, ints l -> (List.length l < ne + ns)%nat -> In w ["winning "; "envnext "] ->
    command_line sp (w ++ join l ++ eol) = Ok (LSay ("Invalid arguments." ++ eol)).
  Proof.
    intros l w Hi Hl [<-|[<-|[]]].
    - rewrite line_winning. apply too_few; auto. rewrite NE, NS. lia.
    - rewrite line_envnext. apply too_few; auto. rewrite NE, NS. lia.
  Qed.
  Lemma command_line_ok : forall c, valid F c -> command_line sp (command_text c) = Ok (LCommand (encode c)).
  Proof.
    intros c Hv.
    assert (S : forall s, In s (fs_states F) -> ints s /\ List.length s = (ne + ns)%nat).
    { intros s Hs. apply (stb F Hbool) in Hs. split; [eapply bits_ints; eauto|apply Hs]. }
    assert (E : forall s, In s (fs_envs F) -> ints s /\ List.length s = ne).
    { intros s Hs. apply (enb F Hbool) in Hs. split; [eapply bits_ints; eauto|apply Hs]. }
    destruct c; cbn [valid] in Hv; cbn [command_text encode].
    - destruct (S s Hv). rewrite line_winning.
      apply fixed_ok; auto. rewrite NE, NS. lia.
    - destruct (S s Hv). rewrite line_envnext.
      apply fixed_ok; auto. rewrite NE, NS. lia.
    - destruct Hv as (H1 & H2 & H3). destruct (S s H1), (E e H2). rewrite app_assoc.
      rewrite line_sysnext.
      apply with_goal_ok; auto using ints_app. rewrite NE, NS, app_length. lia.
    - destruct Hv as (H1 & H2). destruct (S s H1), (E e H2).
      rewrite line_sysnexta.
      apply fixed_ok; auto using ints_app. rewrite NE, NS, app_length. lia.
    - destruct Hv as (H1 & H2). destruct (S s H1).
      rewrite line_getindex.
      apply with_goal_ok; auto. rewrite NE, NS. lia.
    - destruct Hv as (H1 & H2). destruct (S s H1), (E e H2).
      rewrite line_restrict.
      apply edge_ok; auto using ints_app. rewrite app_length. lia.
    - destruct Hv as (H1 & H2). destruct (S s H1), (S s' H2).
      rewrite line_restrict.
      apply edge_ok; auto using ints_app. rewrite app_length. lia.
    - destruct Hv as (H1 & H2). destruct (S s H1), (E e H2).
      rewrite line_relax.
      apply edge_ok; auto using ints_app. rewrite app_length. lia.
    - destruct Hv as (H1 & H2). destruct (S s H1), (S s' H2).
      rewrite line_relax.
      apply edge_ok; auto using ints_app. rewrite app_length. lia.
    - destruct (E e Hv).
      rewrite line_blockenv.
      apply fixed_ok; auto. rewrite NE. lia.
    - apply (outb F Hbool) in Hv.
      rewrite line_blocksys.
      apply fixed_ok; [eapply bits_ints; eauto|]. rewrite NS, (proj1 Hv). reflexivity.
    - reflexivity.
    - reflexivity.
    - reflexivity.
  Qed.

  Lemma typed_cons : forall c cs, typed (c :: cs) = (command_text c ++ typed cs)%string.
  Proof.
    intros c cs. unfold typed. cbn [map String.concat]. destruct (map command_text cs); cbn [String.concat].
    - symmetry. induction (command_text c) as [|a s IH]; cbn; congruence.
    - reflexivity.
  Qed.
  Lemma session_text : forall et0 st0 eg sg orc fuel cs, Forall (valid F) cs -> Forall fits cs ->
    forall lines x, (List.length cs < lines)%nat ->
    session sp et0 st0 eg sg orc fuel lines x (typed cs) =
      (p <- exec_all (num_env sp) (num_sys sp) et0 st0 eg sg orc fuel x (map encode cs) ;;
       Ok (transcript (snd p))).
  Proof.
    intros et0 st0 eg sg orc fuel. induction cs as [|c cs IH]; intros Hv Hf lines x Hl.
    - destruct lines; [cbn in Hl; lia|]. reflexivity.
    - inversion Hv; inversion Hf; subst. destruct lines as [|lines]; [cbn in Hl; lia|].
      rewrite typed_cons. destruct (body_of c) as (body & Eb & Hn).
      assert (Hfg : fgets 255 (command_text c ++ typed cs) = (command_text c, typed cs)).
      { rewrite Eb. apply fgets_ok; auto. unfold fits in H5. rewrite Eb, string_len_app in H5.
        change (String.length eol) with 1%nat in H5. lia. }
      assert (Hnn : exists a r, (command_text c ++ typed cs)%string = String a r).
      { rewrite Eb. destruct body; cbn; eauto. }
      cbn [session]. rewrite Hfg. rewrite (command_line_ok c H1). cbn [bind].
      destruct Hnn as (a & r & ->). cbn [map exec_all].
      destruct (exec _ _ _ _ _ _ _ _ x (encode c)) as [[x' an]| |]; cbn [bind fst snd]; auto.
      rewrite IH; auto; [|cbn in Hl; lia].
      destruct (exec_all _ _ _ _ _ _ _ _ x' (map encode cs)) as [[x2 l]| |]; cbn [bind fst snd]; auto.
  Qed.
  Lemma typed_len : forall cs, (List.length cs <= String.length (typed cs))%nat.
  Proof.
    induction cs as [|c cs IH]; [cbn; lia|]. rewrite typed_cons, string_len_app.
    destruct (body_of c) as (body & -> & _). rewrite string_len_app. cbn. lia.
  Qed.
  Lemma session_asked : forall orc fuel cs, Forall (valid F) cs -> Forall fits cs ->
    levelset_interactive sp orc fuel (typed cs) = (l <- asked F orc fuel cs ;; Ok (transcript l)).
  Proof.
    intros orc fuel cs Hv Hf. unfold levelset_interactive, asked.
    destruct (spec_BDDs sp) as [[[[et st] eg] sg]| |]; cbn [bind]; auto.
    destruct (start_state _ _ et st eg sg orc fuel) as [x| |]; cbn [bind]; auto.
    rewrite session_text; auto; [|pose proof (typed_len cs); lia].
    destruct (exec_all _ _ et st eg sg orc fuel x (map encode cs)) as [[x2 l]| |]; cbn [bind snd]; auto.
  Qed.
End Text.
