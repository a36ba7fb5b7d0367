(** From the text of a change file to its states and commands. *)
From Coq Require Import List ZArith Lia Bool Arith Ascii String.
From Verif Require Import Base Game Support SupportProofs Strs Ptree Form Solve FSpec SolveProofs
  Automaton AutIO AutIOSpec AutIOProofs SynthSpec ReadState ReadSpec ReadProofs HotSpec
  Interactive InteractSpec InteractProofs InteractText Patch PatchSpec PatchRules PatchCommands.
Import ListNotations.
Open Scope string_scope.
Open Scope list_scope.
Open Scope nat_scope.

Lemma change_line : forall b rest k, has_newline b = false -> (Z.of_nat (String.length b) < k)%Z ->
  change_lines k ((b ++ eol) ++ rest) = (b ++ eol)%string :: change_lines 1023 rest.
Proof.
  induction b as [|c b IH]; intros rest k Hb Hk.
  - reflexivity.
  - cbn [has_newline] in Hb. apply orb_false_iff in Hb. destruct Hb as (Hc & Hb).
    cbn [String.length] in Hk. cbn [String.append change_lines]. rewrite Hc. cbn [orb].
    rewrite (proj2 (Z.eqb_neq _ _)) by lia. rewrite IH by (auto; lia). reflexivity.
Qed.
Definition a_line (t : string) : Prop := exists b, t = (b ++ eol)%string /\ has_newline b = false.
Lemma concat_cons : forall t ts, String.concat "" (t :: ts) = (t ++ String.concat "" ts)%string.
Proof. intros t ts. destruct ts; cbn; auto. rewrite string_app_nil. reflexivity. Qed.
Lemma change_lines_ok : forall ts, Forall a_line ts -> (forall t, In t ts -> String.length t < 1024) ->
  change_lines 1023 (String.concat "" ts) = ts.
Proof.
  induction ts as [|t ts IH]; intros Ha Hl; [reflexivity|]. rewrite concat_cons. inversion Ha as [|? ? (b & -> & Hb) Ha']; subst.
  rewrite change_line; auto; [rewrite IH; auto; intros t Ht; apply Hl; right; auto|].
  specialize (Hl _ (or_introl eq_refl)). rewrite string_len_app in Hl. cbn in Hl. lia.
Qed.
Lemma comments_lines : forall ls ts, with_comments ls ts -> Forall a_line ls -> Forall a_line ts.
Proof.
  intros ls ts H. induction H; intros Ha; auto.
  - inversion Ha; subst. constructor; auto.
  - constructor; auto. exists b. auto.
Qed.
Lemma comment_passed : forall b, b = "" \/ (exists r, b = String "#" r) -> passed_over (b ++ eol) = true.
Proof. intros b [->|(r & ->)]; reflexivity. Qed.

Lemma substring_all : forall s k, String.length s <= k -> String.substring 0 k s = s.
Proof. induction s as [|c s IH]; intros k Hk; destruct k; cbn in *; auto; try lia. rewrite IH by lia. reflexivity. Qed.
Lemma behind_app : forall w r, behind w (w ++ r) = r.
Proof.
  intros w r. unfold behind. assert (K : String.length r <= String.length (w ++ r)) by (rewrite string_len_app; lia).
  revert K. generalize (String.length (w ++ r)). intros k K. induction w as [|c w IH].
  - apply substring_all. auto.
  - cbn. exact IH.
Qed.
Lemma prefix_app : forall w r, String.prefix w (w ++ r) = true.
Proof. induction w as [|a w IH]; intros r; [destruct r; reflexivity|]. cbn. destruct (Ascii.ascii_dec a a); [apply IH|congruence]. Qed.

Section Text.
  Variable F : fspec.
  Hypothesis Hbool : all_boolean F.
  Hypothesis Hsvars : fs_svars F <> [].
  Let ne := List.length (fs_evars F).
  Let ns := List.length (fs_svars F).
  Let n := ne + ns.
  Let k := List.length (fs_sgoals F).
  Lemma tns_pos : 0 < ns.
  Proof. unfold ns. destruct (fs_svars F); [congruence|cbn; lia]. Qed.

  Lemma state_a_line : forall s, a_line (join s ++ eol).
  Proof. intros s. exists (join s). split; auto. apply join_newline. Qed.
  Lemma command_a_line : forall c, a_line (command_text c).
  Proof. intros c. apply body_of. Qed.
  Lemma state_not_passed : forall s, bitvec n s -> passed_over (join s ++ eol) = false.
  Proof.
    intros s Hs. destruct s as [|z s]; [destruct Hs as (Hs & _); cbn in Hs; pose proof tns_pos; unfold n in Hs; lia|].
    destruct Hs as (_ & Hs). inversion Hs as [|? ? Hz _]; subst.
    destruct s as [|z' s]; [|change (join (z :: z' :: s)) with (zdec z ++ " " ++ join (z' :: s))%string; rewrite string_app_assoc];
      destruct Hz as [->| ->]; reflexivity.
  Qed.
  Lemma state_read : forall s j, bitvec n s -> n <= j -> read_state_str (join s ++ eol) (Z.of_nat j) = Ok (Z.of_nat n, s).
  Proof.
    intros s j Hs Hj. rewrite read_args; [|apply (bits_ints F n); auto|rewrite (proj1 Hs); lia]. rewrite (proj1 Hs). reflexivity.
  Qed.
  Lemma command_read_N : forall c l j, is_change c = true -> read_N j (command_text c :: l) = Ok (Some ([], command_text c :: l)).
  Proof.
    intros c l j Hc. cbn [read_N].
    assert (H1 : passed_over (command_text c) = false) by (destruct c; try discriminate; reflexivity).
    assert (H2 : read_state_str (command_text c) (Z.of_nat j) = Ok (0%Z, [])).
    { unfold read_state_str. destruct (Z.eqb_spec (Z.of_nat j) 0) as [E|E]; [reflexivity|]. cbn [orb].
      assert (Hj : (0 <? Z.of_nat j)%Z = true) by (apply Z.ltb_lt; lia).
      assert (K : forall a s, strtol (String a s) = (0%Z, String a s) ->
        is_nul (String a s) = false ->
        read_state_loop (S (String.length (String a s))) (Z.of_nat j) 0 (String a s) = Ok []).
      { intros a s Hw Hn. cbn [read_state_loop]. rewrite Hj, Hn, Hw. rewrite orb_true_r. cbn [negb andb].
        unfold same_pos. rewrite Nat.eqb_refl. reflexivity. }
      destruct c; try discriminate; cbn [command_text String.append];
        (replace (is_nul _) with false by reflexivity; rewrite K by reflexivity; reflexivity). }
    rewrite H1, H2. reflexivity.
  Qed.

  Lemma read_N_commands : forall l ts j, forallb is_change l = true -> with_comments (map command_text l) ts ->
    exists ts', read_N j ts = Ok (Some ([], ts')) /\ with_comments (map command_text l) ts'.
  Proof.
    intros l ts j Hc H. remember (map command_text l) as ls eqn:El. revert l Hc El. induction H as [|t ls ts H IH|b ls ts Hb Hn H IH]; intros l Hc El.
    - exists []. split; [reflexivity|constructor].
    - destruct l as [|c l]; [discriminate|]. cbn in El. injection El as -> ->. cbn in Hc. apply andb_true_iff in Hc. destruct Hc as (Hc & Hcs).
      exists (command_text c :: ts). split; [apply command_read_N; auto|]. constructor; auto.
    - cbn [read_N]. rewrite comment_passed by auto. eauto.
  Qed.
  Lemma read_N_ok : forall N l ts, Forall (bitvec n) N -> forallb is_change l = true ->
    with_comments (map (fun s => (join s ++ eol)%string) N ++ map command_text l) ts ->
    exists ts', read_N n ts = Ok (Some (N, ts')) /\ with_comments (map command_text l) ts'.
  Proof.
    intros N l ts HN Hc H. remember (map (fun s => (join s ++ eol)%string) N ++ map command_text l) as ls eqn:El.
    revert N HN El. induction H as [|t ls ts H IH|b ls ts Hb Hn H IH]; intros N HN El.
    - destruct N; [|discriminate]. destruct l; [|discriminate]. exists []. split; [reflexivity|constructor].
    - destruct N as [|s N].
      + cbn in El. apply read_N_commands; auto. rewrite <- El. constructor. auto.
      + cbn in El. injection El as -> ->. inversion HN as [|? ? Hs HN']; subst.
        destruct (IH N HN' eq_refl) as (ts' & E & Hts). exists ts'. split; auto. cbn [read_N].
        rewrite state_not_passed, state_read by auto. cbn [bind fst snd].
        pose proof tns_pos. rewrite (proj2 (Z.eqb_neq _ _)) by (unfold n; lia). rewrite Z.ltb_irrefl. rewrite E. reflexivity.
    - cbn [read_N]. rewrite comment_passed by auto. eauto.
  Qed.

  Lemma args_read : forall v j, (forall z, In z v -> isbit z) -> List.length v <= j ->
    read_state_str (join v ++ eol) (Z.of_nat j) = Ok (Z.of_nat (List.length v), v).
  Proof.
    intros v j Hv Hj. apply read_args; [|lia]. apply (bits_ints F (List.length v)). split; auto. apply Forall_forall. auto.
  Qed.
  Lemma edge_line : forall A N s e restrict rest used q, bitvec n s -> (bitvec ne e \/ bitvec n e) ->
    run_commands ne ns k A N (((if restrict : bool then "restrict " else "relax ") ++ (join (s ++ e)%list ++ eol))%string :: rest) used q =
    (o <- change_edge ne ns k A N restrict (s ++ e) q ;;
     match o with None => Ok None | Some q => run_commands ne ns k A N rest true q end).
  Proof.
    intros A N s e restrict rest used q Hs He. cbn [run_commands].
    assert (L1 : List.length s = ne + ns) by apply Hs.
    assert (L2 : List.length e = ne \/ List.length e = ne + ns) by (destruct He as [He|He]; [left|right]; apply He).
    assert (Hr : read_state_str (join (s ++ e) ++ eol) (Z.of_nat (2 * (ne + ns))) = Ok (Z.of_nat (List.length (s ++ e)), s ++ e)).
    { apply args_read; [|rewrite app_length; lia]. intros z Hz. apply in_app_or in Hz.
      destruct Hs as (_ & Hs). rewrite Forall_forall in Hs. destruct Hz as [Hz|Hz]; auto.
      destruct He as [(_ & He)|(_ & He)]; rewrite Forall_forall in He; auto. }
    assert (Hc : ((Z.of_nat (List.length (s ++ e)) =? Z.of_nat (2 * (ne + ns))) || (Z.of_nat (List.length (s ++ e)) =? Z.of_nat (2 * ne + ns)))%Z = true).
    { rewrite app_length, orb_true_iff, !Z.eqb_eq. lia. }
    destruct restrict.
    - replace (passed_over _) with false by reflexivity. rewrite prefix_app. cbn [orb]. rewrite behind_app, Hr. cbn [bind fst snd]. rewrite Hc. reflexivity.
    - replace (passed_over _) with false by reflexivity.
      replace (String.prefix "restrict " ("relax " ++ join (s ++ e) ++ eol)) with false by reflexivity.
      rewrite prefix_app. cbn [orb]. rewrite behind_app, Hr. cbn [bind fst snd]. rewrite Hc. reflexivity.
  Qed.
  Lemma block_line : forall A N y rest used q, bitvec ns y ->
    run_commands ne ns k A N (("blocksys " ++ (join y ++ eol))%string :: rest) used q =
    (o <- block_sys ne ns k A N y q ;;
     match o with None => Ok None | Some q => run_commands ne ns k A N rest true q end).
  Proof.
    intros A N y rest used q Hy. cbn [run_commands].
    assert (L1 : List.length y = ns) by apply Hy.
    assert (Hr : read_state_str (join y ++ eol) (Z.of_nat ns) = Ok (Z.of_nat ns, y)).
    { rewrite <- L1 at 2. apply args_read; [|lia]. intros z Hz. destruct Hy as (_ & Hy). rewrite Forall_forall in Hy. auto. }
    replace (passed_over _) with false by reflexivity.
    replace (String.prefix "restrict " ("blocksys " ++ join y ++ eol)) with false by reflexivity.
    replace (String.prefix "relax " ("blocksys " ++ join y ++ eol)) with false by reflexivity.
    rewrite prefix_app. cbn [orb]. rewrite behind_app, Hr. cbn [bind fst snd]. rewrite Z.eqb_refl. reflexivity.
  Qed.
  Lemma run_ok : forall A N l ts, Forall (valid F) l -> forallb is_change l = true -> with_comments (map command_text l) ts ->
    forall used q, run_commands ne ns k A N ts used q = steps F N A l q.
  Proof.
    intros A N l ts Hv Hc H. remember (map command_text l) as ls eqn:El. revert l Hv Hc El.
    induction H as [|t ls ts H IH|b ls ts Hb Hn H IH]; intros l Hv Hc El used q.
    - destruct l; [|discriminate]. reflexivity.
    - destruct l as [|c l]; [discriminate|]. cbn [map] in El. injection El as -> ->.
      cbn in Hc. apply andb_true_iff in Hc. destruct Hc as (Hc & Hcs). inversion Hv as [|? ? Hv1 Hv2]; subst.
      destruct c as [| | | | |s e|s e|s e|s e| |y| | |]; try discriminate; cbn [valid] in Hv1; cbn [command_text steps step].
      + destruct Hv1 as (H1 & H2). apply (stb F Hbool) in H1. apply (enb F Hbool) in H2.
        rewrite (edge_line A N s e true) by auto. fold ne ns k. destruct (change_edge _ _ _ _ _ _ _ _) as [[q'|]| |]; cbn [bind]; try reflexivity; apply IH; auto.
      + destruct Hv1 as (H1 & H2). apply (stb F Hbool) in H1, H2.
        rewrite (edge_line A N s e true) by auto. fold ne ns k. destruct (change_edge _ _ _ _ _ _ _ _) as [[q'|]| |]; cbn [bind]; try reflexivity; apply IH; auto.
      + destruct Hv1 as (H1 & H2). apply (stb F Hbool) in H1. apply (enb F Hbool) in H2.
        rewrite (edge_line A N s e false) by auto. fold ne ns k. destruct (change_edge _ _ _ _ _ _ _ _) as [[q'|]| |]; cbn [bind]; try reflexivity; apply IH; auto.
      + destruct Hv1 as (H1 & H2). apply (stb F Hbool) in H1, H2.
        rewrite (edge_line A N s e false) by auto. fold ne ns k. destruct (change_edge _ _ _ _ _ _ _ _) as [[q'|]| |]; cbn [bind]; try reflexivity; apply IH; auto.
      + apply (outb F Hbool) in Hv1.
        rewrite block_line by auto. fold ne ns k. destruct (block_sys _ _ _ _ _ _ _) as [[q'|]| |]; cbn [bind]; try reflexivity; apply IH; auto.
    - cbn [run_commands]. rewrite comment_passed by auto. auto.
  Qed.
End Text.
