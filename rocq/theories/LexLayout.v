(** Layout does not matter to the scanner: lemmas. *)
From Coq Require Import List ZArith Bool Arith Ascii String Lia.
From Verif Require Import Base Strs AutIO Lex LexSpec LexProofs LexRegex.
Import ListNotations.
Open Scope string_scope.
Open Scope nat_scope.

Lemma lx_unput : forall b s k, s <> "" -> best (rules b) s = Some (k, Unput) ->
  lx b s = lx (ends_line (substring 0 k s)) (drop (Nat.pred k) s).
Proof.
  intros b s k Hs E. unfold lx. destruct s as [|c s]; [congruence|].
  transitivity (yylex_all (String.length (String c s)) (ends_line (substring 0 k (String c s))) (drop (Nat.pred k) (String c s))).
  - rewrite yylex_step by discriminate. rewrite E. reflexivity.
  - destruct (best_in _ _ _ _ E) as (p & Hp & Hk). destruct (rule_pos _ _ _ _ _ Hp Hk) as (Hpos & Hu).
    specialize (Hu eq_refl). apply lex_fuel; rewrite drop_length; cbn [String.length]; lia.
Qed.

(** ** Spaces *)
Definition kw_free (u : string) : Prop := forall l k, In (l, k) keywords -> lit l u = None.
Definition spaces (s : string) : Prop := all_chars wspace s = true.
Lemma span_spaces : forall s u, spaces s -> head_is wspace u = false -> span wspace (s ++ u) = String.length s.
Proof. intros s u H1 H2. apply span_app; assumption. Qed.
Lemma run_spaces : forall l s u, spaces s -> head_is wspace u = false ->
  run_lit wspace l (s ++ u) = option_map (fun j => String.length s + j) (lit l u).
Proof.
  intros l s u H1 H2. unfold run_lit. rewrite span_spaces by assumption. rewrite drop_app. destruct (lit l u); reflexivity.
Qed.
Lemma space_cases : forall c, wspace c = true -> c = " "%char \/ c = tab \/ c = return_char.
Proof.
  intros c H. unfold wspace, blank in H. rewrite !orb_true_iff, !Ascii.eqb_eq in H. tauto.
Qed.
Lemma keyword_of : forall b l k, In (l, k) keywords -> In (keyword b l, Return (fun _ => k)) (rules b).
Proof.
  intros b l k H. cbn [keywords In] in H.
  destruct H as [E|[E|[E|[E|[E|[E|[E|[E|[]]]]]]]]]; injection E as <- <-; cbn [rules In]; tauto.
Qed.
(** the rules on a text that starts with a space *)
Lemma space_before : forall b c s q a j, wspace c = true -> In (q, a) (firstn 25 (rules b)) -> q (String c s) = Some j ->
  exists l k, In (l, k) keywords /\ b = true /\ a = Return (fun _ => k) /\ run_lit wspace l (String c s) = Some j.
Proof.
  intros b c s q a j Hc Hi Hq.
  assert (K : forall l k, In (l, k) keywords -> keyword b l (String c s) = Some j ->
    exists l' k', In (l', k') keywords /\ b = true /\ Return (fun _ => k) = Return (fun _ => k') /\
      run_lit wspace l' (String c s) = Some j).
  { intros l k Hl E. unfold keyword in E. destruct b; [|discriminate]. exists l, k. auto. }
  cbn [rules firstn In] in Hi.
  destruct Hi as [E|[E|[E|[E|[E|[E|[E|[E|[E|[E|[E|[E|[E|[E|Hi]]]]]]]]]]]]]];
    [injection E as <- <-; exfalso; destruct (space_cases c Hc) as [->|[->| ->]]; discriminate Hq..|].
  destruct Hi as [E|[E|[E|[E|[E|[E|[E|[E|Hi]]]]]]]];
    [injection E as <- <-; eapply K; [|exact Hq]; cbn [keywords In]; tauto..|].
  destruct Hi as [E|Hi]; [injection E as <- <-; exfalso; destruct (space_cases c Hc) as [->|[->| ->]]; discriminate Hq|].
  destruct Hi as [E|Hi]; [injection E as <- <-; exfalso; destruct (space_cases c Hc) as [->|[->| ->]]; discriminate Hq|].
  destruct Hi as [E|[]]. injection E as <- <-; exfalso; destruct (space_cases c Hc) as [->|[->| ->]]; discriminate Hq.
Qed.
Lemma space_rules : forall b c s q a j, wspace c = true -> In (q, a) (rules b) -> q (String c s) = Some j ->
  (exists l k, In (l, k) keywords /\ b = true /\ a = Return (fun _ => k) /\ run_lit wspace l (String c s) = Some j) \/
  (a = Ignore /\ j = span wspace (String c s)) \/ j = 1.
Proof.
  intros b c s q a j Hc Hi Hq.
  change (rules b) with (firstn 25 (rules b) ++ skipn 25 (rules b))%list in Hi. apply in_app_or in Hi.
  destruct Hi as [Hi|Hi]; [left; exact (space_before b c s q a j Hc Hi Hq)|]. cbn [rules skipn In] in Hi.
  destruct Hi as [E|Hi].
  { injection E as <- <-. right. left. split; [reflexivity|]. unfold m_spaces in Hq.
    destruct (span wspace (String c s) =? 0); [discriminate|]. congruence. }
  destruct Hi as [E|[]]. injection E as <- <-. right. right. cbn [m_char] in Hq.
  destruct (not_newline c); [congruence|discriminate].
Qed.
(** the longest match, found by its length alone *)
Lemma best_len : forall rs s p a k, In (p, a) rs -> p s = Some k ->
  (forall q b j, In (q, b) rs -> q s = Some j -> j < k \/ (j = k /\ b = a)) -> best rs s = Some (k, a).
Proof.
  intros rs s p a k Hi Hp H. destruct (best rs s) as [[k' a']|] eqn:B.
  - destruct (best_first _ _ _ _ B) as [i [p' [Hn [Hp' X]]]].
    apply In_nth_error in Hi. destruct Hi as [j Hj]. pose proof (X j p a k Hj Hp) as Y.
    apply nth_error_In in Hn. destruct (H p' a' k' Hn Hp') as [|[-> ->]]; [lia|reflexivity].
  - exfalso. exact (best_some rs s p a k Hi Hp B).
Qed.
Lemma kw_head : forall l k, In (l, k) keywords -> exists c r, l = String c r /\ wspace c = false.
Proof.
  intros l k H. cbn [keywords In] in H.
  destruct H as [E|[E|[E|[E|[E|[E|[E|[E|[]]]]]]]]]; injection E as <- <-; eexists; eexists; (split; [reflexivity|reflexivity]).
Qed.
Lemma kw_distinct : forall l k l' k' v j, In (l, k) keywords -> In (l', k') keywords -> lit l' (l ++ v) = Some j -> l' = l /\ k' = k.
Proof.
  intros l k l' k' v j H H' E. cbn [keywords In] in H, H'.
  destruct H as [H|[H|[H|[H|[H|[H|[H|[H|[]]]]]]]]]; injection H as <- <-;
  (destruct H' as [H'|[H'|[H'|[H'|[H'|[H'|[H'|[H'|[]]]]]]]]]; injection H' as <- <-;
   first [split; reflexivity | discriminate E]).
Qed.
Lemma ends_kw : forall s l k, In (l, k) keywords -> ends_line (s ++ l) = false.
Proof.
  intros s l k H. destruct (ends_line (s ++ l)) eqn:E; [|reflexivity]. exfalso. apply ends_newline in E.
  destruct E as [u E].
  assert (X : exists w, l = (w ++ ":")%string).
  { cbn [keywords In] in H. destruct H as [H|[H|[H|[H|[H|[H|[H|[H|[]]]]]]]]]; injection H as <- <-.
    - exists "ENV". reflexivity.
    - exists "SYS". reflexivity.
    - exists "ENVINIT". reflexivity.
    - exists "ENVTRANS". reflexivity.
    - exists "ENVGOAL". reflexivity.
    - exists "SYSINIT". reflexivity.
    - exists "SYSTRANS". reflexivity.
    - exists "SYSGOAL". reflexivity. }
  destruct X as [w ->]. rewrite <- app_asc in E. apply cut_unique in E.
  - destruct E as [_ E]. discriminate E.
  - pose proof (f_equal String.length E) as L. rewrite !app_len in L. cbn in L. rewrite !app_len. lia.
Qed.
Lemma ends_spaces : forall s, spaces s -> ends_line s = false.
Proof. intros s H. exact (ends_line_no wspace s H eq_refl). Qed.
Lemma run_kw : forall s l k v, spaces s -> In (l, k) keywords ->
  lx true (s ++ l ++ v) = (r <- lx false v ;; Ok (k :: r)).
Proof.
  intros s l k v Hs Hl. destruct s as [|c s]; [exact (lx_keyword l k v Hl)|].
  destruct (kw_head l k Hl) as (c' & r' & El & Hc').
  assert (Hh : head_is wspace (l ++ v) = false) by (rewrite El; exact Hc').
  assert (Hc : wspace c = true). { unfold spaces in Hs. cbn in Hs. apply andb_true_iff in Hs. tauto. }
  assert (Hsp : spaces (String c s)) by exact Hs.
  set (n := String.length (String c s)).
  assert (Ln : 0 < String.length l) by (rewrite El; cbn; lia).
  assert (B : best (rules true) (String c s ++ l ++ v) = Some (n + String.length l, Return (fun _ => k))).
  { apply (best_len _ _ (keyword true l)); [now apply keyword_of|..].
    - unfold keyword. rewrite run_spaces by assumption. rewrite lit_app. reflexivity.
    - intros q b j Hi Hq. cbn [append] in Hq. destruct (space_rules true c _ q b j Hc Hi Hq) as [(l' & k' & Hl' & _ & -> & R)|[[-> ->]| ->]].
      + change (String c (s ++ l ++ v)) with (String c s ++ l ++ v)%string in R.
        rewrite run_spaces in R by assumption. destruct (lit l' (l ++ v)) as [j'|] eqn:E; [|discriminate].
        destruct (kw_distinct _ _ _ _ _ _ Hl Hl' E) as [-> ->]. rewrite lit_app in E. injection E as <-.
        cbn in R. injection R as <-. right. split; reflexivity.
      + left. change (String c (s ++ l ++ v)) with (String c s ++ l ++ v)%string.
        rewrite span_spaces by assumption. fold n. lia.
      + left. unfold n. cbn. lia. }
  assert (N0 : (String c s ++ l ++ v)%string <> "") by discriminate. rewrite (lx_return _ _ _ _ N0 B).
  assert (E : forall x y z : string, n = String.length x -> substring 0 (n + String.length y) (x ++ y ++ z) = (x ++ y)%string /\
    drop (n + String.length y) (x ++ y ++ z) = z).
  { intros x y z ->. rewrite <- app_asc, <- app_len. split; [apply substring_app|apply drop_app]. }
  destruct (E (String c s) l v eq_refl) as [-> ->]. rewrite (ends_kw _ _ _ Hl). reflexivity.
Qed.
Lemma run_nokw : forall b s u, s <> "" -> spaces s -> head_is wspace u = false -> (b = true -> kw_free u) ->
  lx b (s ++ u) = lx false u.
Proof.
  intros b s u Ns Hs Hu Hk. destruct s as [|c s]; [congruence|].
  assert (Hc : wspace c = true). { unfold spaces in Hs. cbn in Hs. apply andb_true_iff in Hs. tauto. }
  set (n := String.length (String c s)).
  assert (B : best (rules b) (String c s ++ u) = Some (n, Ignore)).
  { change (rules b) with (firstn 25 (rules b) ++ (m_spaces, Ignore) :: skipn 26 (rules b))%list.
    apply best_split.
    - unfold m_spaces. rewrite span_spaces by assumption. reflexivity.
    - intros q a j Hi Hq. exfalso. cbn [append] in Hq. destruct (space_before b c _ q a j Hc Hi Hq) as (l & k & Hl & Hb & _ & R).
      change (String c (s ++ u)) with (String c s ++ u)%string in R. rewrite run_spaces in R by assumption.
      rewrite (Hk Hb l k Hl) in R. discriminate R.
    - intros q a j Hi Hq. cbn [rules skipn In] in Hi. destruct Hi as [E|[]]. injection E as <- <-.
      cbn [append m_char] in Hq. destruct (not_newline c); [|discriminate]. injection Hq as <-. unfold n. cbn. lia. }
  assert (N0 : (String c s ++ u)%string <> "") by discriminate. rewrite (lx_ignore _ _ _ N0 B).
  unfold n. rewrite substring_app, drop_app, (ends_spaces _ Hs). reflexivity.
Qed.
Lemma best_ext : forall r1 r2 u, Forall2 (fun x y : (string -> option nat) * action => fst x u = fst y u /\ snd x = snd y) r1 r2 ->
  best r1 u = best r2 u.
Proof.
  intros r1 r2 u H. induction H as [|[p a] [q b] r1 r2 [H1 H2] _ IH]; [reflexivity|].
  cbn [best fst snd] in *. rewrite H1, H2, IH. reflexivity.
Qed.
Lemma nokw_bol : forall u, head_is wspace u = false -> kw_free u -> lx true u = lx false u.
Proof.
  intros u Hu Hk. assert (B : best (rules true) u = best (rules false) u).
  { assert (K : forall l k, In (l, k) keywords -> keyword true l u = keyword false l u).
    { intros l k Hl. unfold keyword. rewrite <- (Hk l k Hl). apply (run_spaces l "" u eq_refl) in Hu.
      cbn in Hu. rewrite Hu. destruct (lit l u); reflexivity. }
    apply best_ext. unfold rules.
    repeat (apply Forall2_cons; [cbn [fst snd]; split; [|reflexivity]; first [eapply K; cbn [keywords In]; tauto|reflexivity]|]).
    apply Forall2_nil. }
  destruct (string_dec u "") as [->|N]; [reflexivity|]. unfold lx. rewrite !yylex_step by assumption. rewrite B. reflexivity.
Qed.
Lemma kw_free_dec : forall u, kw_free u \/ exists l k v, In (l, k) keywords /\ u = (l ++ v)%string.
Proof.
  intros u. unfold kw_free. induction keywords as [|[l k] ks IH]; [left; intros l k []|].
  destruct (lit l u) as [j|] eqn:E.
  - right. apply lit_iff in E. destruct E as [_ [v ->]]. exists l, k, v. split; [now left|reflexivity].
  - destruct IH as [IH|(l' & k' & v & H & ->)].
    + left. intros l' k' [H|H]; [injection H as <- <-; exact E|exact (IH l' k' H)].
    + right. exists l', k', v. split; [now right|reflexivity].
Qed.
(** a space makes no difference *)
Lemma lx_one_space : forall b c u, wspace c = true -> lx b (String c u) = lx b u.
Proof.
  intros b c u Hc.
  destruct (span_allc wspace (fun x => wspace x = true) u (fun x => iff_refl _)) as (s & u' & -> & _ & A & _ & X).
  assert (Hs : spaces s). { clear X. unfold spaces. induction s as [|d s IH]; [reflexivity|]. cbn in A |- *. rewrite (proj1 A). apply IH, A. }
  assert (Hu : head_is wspace u' = false).
  { destruct u' as [|d u']; [reflexivity|]. cbn. destruct (wspace d) eqn:E; [|reflexivity]. exfalso. exact (X d u' eq_refl E). }
  assert (Hcs : spaces (String c s)) by (unfold spaces; cbn; rewrite Hc; exact Hs).
  change (String c (s ++ u')) with (String c s ++ u')%string.
  destruct (kw_free_dec u') as [Hk|(l & k & v & Hl & ->)].
  - rewrite (run_nokw b (String c s) u') by (auto; discriminate).
    destruct s as [|d s]; [|rewrite (run_nokw b (String d s) u') by (auto; discriminate); reflexivity].
    cbn [append]. destruct b; [symmetry; now apply nokw_bol|reflexivity].
  - destruct b; [rewrite (run_kw (String c s) l k v), (run_kw s l k v) by assumption; reflexivity|].
    rewrite (run_nokw false (String c s)) by (auto; discriminate).
    destruct s as [|d s]; [reflexivity|]. rewrite (run_nokw false (String d s)) by (auto; discriminate). reflexivity.
Qed.
Lemma lx_comment : forall b t u, allc any t -> lx b ("#" ++ t ++ String LF u) = lx true u.
Proof.
  intros b t u A.
  assert (Hm : m_comment ("#" ++ t ++ String LF u) = Some (S (S (String.length t)))).
  { cbn [append m_comment]. cbn [Ascii.eqb]. change (Ascii.eqb "#" "#") with true. cbv iota.
    assert (E : span not_newline (t ++ String LF u) = String.length t).
    { apply span_app; [|reflexivity]. clear u. induction t as [|c t IH]; [reflexivity|]. cbn in A |- *.
      rewrite (proj2 (any_dec c) (proj1 A)). apply IH, A. }
    rewrite E, drop_app. reflexivity. }
  assert (B : best (rules b) ("#" ++ t ++ String LF u) = Some (S (S (String.length t)), Unput)).
  { apply (best_len _ _ m_comment); [cbn [rules In]; tauto|exact Hm|]. intros q a j Hi Hq.
    cbn [rules In] in Hi.
    repeat (destruct Hi as [E|Hi]; [injection E as <- <-; first
      [ exfalso; destruct b; discriminate Hq
      | rewrite Hm in Hq; injection Hq as <-; right; split; reflexivity
      | cbn in Hq; injection Hq as <-; left; lia ]|]). destruct Hi. }
  assert (N0 : ("#" ++ t ++ String LF u)%string <> "") by discriminate. rewrite (lx_unput _ _ _ N0 B).
  assert (E : ("#" ++ t ++ String LF u)%string = ((String "#" t ++ String LF "") ++ u)%string).
  { cbn [append]. f_equal. rewrite app_asc. reflexivity. }
  assert (L : String.length (String "#" t ++ String LF "") = S (S (String.length t))).
  { rewrite app_len. cbn. lia. }
  assert (E1 : substring 0 (S (S (String.length t))) ("#" ++ t ++ String LF u) = (String "#" t ++ String LF "")%string).
  { rewrite E, <- L. apply substring_app. }
  assert (E2 : drop (Nat.pred (S (S (String.length t)))) ("#" ++ t ++ String LF u) = String LF u).
  { cbn [Nat.pred]. change (S (String.length t)) with (String.length (String "#" t)).
    change ("#" ++ t ++ String LF u)%string with (String "#" t ++ String LF u)%string. apply drop_app. }
  rewrite E1, E2. rewrite (proj2 (ends_newline _)) by (exists (String "#" t); reflexivity).
  exact (lx_newline true u).
Qed.
Fixpoint has_lf (g : string) : bool :=
  match g with EmptyString => false | String c r => Ascii.eqb c LF || has_lf r end.
Lemma has_lf_app : forall a b, has_lf (a ++ b) = has_lf a || has_lf b.
Proof. induction a as [|c a IH]; intros b; cbn; [reflexivity|]. rewrite IH. now rewrite orb_assoc. Qed.
Lemma lx_gap : forall g b u, layout g -> lx b (g ++ u) = lx (b || has_lf g) u.
Proof.
  intros g b u H. revert b. induction H as [|c g Hc _ IH|g _ IH|t g Ht _ IH]; intros b.
  - cbn [append has_lf]. now rewrite orb_false_r.
  - assert (W : wspace c = true) by (apply wspace_dec; exact Hc). cbn [append has_lf]. rewrite lx_one_space by assumption.
    rewrite IH. destruct (space_cases c W) as [->|[->| ->]]; reflexivity.
  - cbn [append has_lf]. change (String LF (g ++ u)) with (String newline (g ++ u)). rewrite (lx_newline b (g ++ u)), IH. change (Ascii.eqb LF LF) with true. cbn [orb]. now rewrite orb_true_r.
  - rewrite !app_asc. cbn [append]. change (String "#" (t ++ String LF (g ++ u))) with ("#" ++ t ++ String LF (g ++ u))%string.
    rewrite lx_comment by assumption. rewrite IH. f_equal. cbn [orb].
    change (String "#" (t ++ String LF g)) with (String "#" t ++ String LF g)%string. rewrite has_lf_app. cbn [has_lf]. change (Ascii.eqb LF LF) with true. cbn [orb].
    now rewrite !orb_true_r.
Qed.

(** ** One token *)
Definition follows (s u : string) : Prop := forall c v, u = String c v ->
  (space_tab_cr c \/ c = LF \/ c = "#"%char) \/
  (c <> ":"%char /\ forall w d, s = (w ++ String d "")%string -> ~ (word_char d /\ word_char c) /\ ~ (op_char d /\ op_char c)).
Lemma layout_char : forall c, space_tab_cr c \/ c = LF \/ c = "#"%char ->
  ident_char c = false /\ c <> ":"%char /\ ~ op_char c.
Proof.
  intros c H. assert (X : c = " "%char \/ c = TAB \/ c = CR \/ c = LF \/ c = "#"%char).
  { destruct H as [[[H|H]|H]|[H|H]]; tauto. }
  unfold op_char. cbn [In].
  destruct X as [->|[->|[->|[->| ->]]]]; (split; [reflexivity|]; split; [discriminate|]); intuition discriminate.
Qed.
Lemma follows_word : forall s w d u, follows s u -> s = (w ++ String d "")%string -> word_char d -> sep u.
Proof.
  intros s w d u F E D. destruct u as [|c v]; [split; reflexivity|]. unfold sep. cbn [head_is].
  destruct (F c v eq_refl) as [H|[H1 H2]].
  - destruct (layout_char c H) as [H1 [H2 _]]. split; [exact H1|]. now apply Ascii.eqb_neq.
  - split; [|now apply Ascii.eqb_neq]. destruct (ident_char c) eqn:X; [|reflexivity]. apply word_dec in X.
    exfalso. exact (proj1 (H2 w d E) (Logic.conj D X)).
Qed.
Lemma follows_op : forall s w d u c v, follows s u -> s = (w ++ String d "")%string -> op_char d -> u = String c v -> ~ op_char c.
Proof.
  intros s w d u c v F E D Eu. destruct (F c v Eu) as [H|[H1 H2]].
  - apply (layout_char c H).
  - intros X. exact (proj2 (H2 w d E) (Logic.conj D X)).
Qed.
Lemma op_mem : forall c, mem c "&!<>=[]-" = true <-> op_char c.
Proof.
  intros c. unfold op_char. cbn [mem In]. rewrite !orb_true_iff, !Ascii.eqb_eq.
  assert (X : false = true <-> False) by (split; [discriminate|tauto]). rewrite X. intuition congruence.
Qed.
Lemma follows_head : forall s w d u, follows s u -> s = (w ++ String d "")%string -> op_char d ->
  head_is (fun c => mem c "&!<>=[]-") u = false.
Proof.
  intros s w d u F E D. destruct u as [|c v]; [reflexivity|]. cbn [head_is].
  destruct (mem c "&!<>=[]-") eqn:X; [|reflexivity]. exfalso. apply op_mem in X. exact (follows_op s w d _ c v F E D eq_refl X).
Qed.
Lemma head_sub : forall p q u, (forall c, q c = true -> p c = true) -> head_is p u = false -> head_is q u = false.
Proof.
  intros p q [|c v] H E; [reflexivity|]. cbn in *. destruct (q c) eqn:X; [|reflexivity]. rewrite (H c X) in E. discriminate.
Qed.
Ltac sub_chars := intros c; destruct c as [[] [] [] [] [] [] [] []]; cbn; try discriminate; reflexivity.

Lemma last_char : forall s, s <> "" -> exists w d, s = (w ++ String d "")%string.
Proof.
  induction s as [|c s IH]; intros N; [congruence|]. destruct s as [|d s]; [exists "", c; reflexivity|].
  destruct (IH ltac:(discriminate)) as (w & e & ->). exists (String c w), e. reflexivity.
Qed.
Lemma allc_last : forall p w d, allc p (w ++ String d "") -> p d.
Proof. intros p w d H. apply allc_app in H. cbn in H. tauto. Qed.
Lemma allc_impl : forall (p q : ascii -> Prop) s, (forall c, p c -> q c) -> allc p s -> allc q s.
Proof. intros p q s H. induction s as [|c s IH]; cbn; [auto|]. intros [H1 H2]. auto. Qed.
Lemma allc_bool : forall p q s, dec p q -> allc q s -> all_chars p s = true.
Proof. intros p q s D. induction s as [|c s IH]; cbn; [reflexivity|]. intros [H1 H2]. rewrite (proj2 (D c) H1). auto. Qed.
Lemma ident_text : forall x, matches identifier_re x -> is_ident x = true /\ allc word_char x.
Proof.
  intros x H. apply cat_iff in H. destruct H as (a & r & -> & H1 & H2). apply chr_iff in H1. destruct H1 as (c & -> & H1).
  apply star_iff in H2. cbn. split.
  - rewrite (proj2 (start_dec c) H1), (allc_bool _ _ _ word_dec H2). reflexivity.
  - split; [left; exact H1|exact H2].
Qed.
Lemma lx_variable : forall b x u, matches identifier_re x -> x <> "True" -> x <> "False" -> follows x u ->
  lx b (x ++ u) = (l <- lx false u ;; Ok (VARIABLE x :: l)).
Proof.
  intros b x u H T F Fo. destruct (ident_text x H) as [H1 H2].
  destruct (last_char x) as (w & d & E); [intros ->; discriminate|].
  apply lx_ident; auto. apply (follows_word x w d); auto. rewrite E in H2. exact (allc_last _ _ _ H2).
Qed.
Lemma number_chars : forall s, matches number_re s -> allc (fun c => dec_digit c \/ c = "."%char) s /\
  exists c r, s = String c r /\ isdigit c = true.
Proof.
  intros s H. apply number_iff in H. destruct H as (d & f & -> & N & A & H). split.
  - apply allc_app. split; [eapply allc_impl; [|exact A]; cbn; tauto|].
    destruct H as [->|(e & -> & _ & Ae)]; [exact I|]. cbn. split; [tauto|]. eapply allc_impl; [|exact Ae]. cbn; tauto.
  - destruct d as [|c d]; [congruence|]. cbn in A. exists c, (d ++ f)%string. split; [reflexivity|].
    apply isdigit_dec. tauto.
Qed.
Lemma prefix_longer : forall t u t' u' : string, (t ++ u)%string = (t' ++ u')%string ->
  String.length t < String.length t' -> exists c v w, u = String c v /\ t' = (t ++ String c w)%string.
Proof.
  induction t as [|c t IH]; intros u t' u' E L; destruct t' as [|c' t']; cbn in *; try lia.
  - eexists. eexists. eexists. split; [exact E|]. reflexivity.
  - injection E as -> E. destruct (IH u t' u' E ltac:(lia)) as (d & v & w & -> & ->). eauto.
Qed.
Lemma number_longest : forall s u, matches number_re s -> follows s u -> m_number (s ++ u) = Some (String.length s).
Proof.
  intros s u H F. pose proof (number_mok (s ++ u)) as M. destruct (number_chars s H) as (Ac & c & r & Es & Hc).
  destruct (m_number (s ++ u)) as [k|] eqn:E.
  - destruct M as (Lk & M & X). pose proof (X s u eq_refl H) as Lo. f_equal.
    destruct (Nat.eq_dec k (String.length s)) as [|N]; [assumption|exfalso].
    destruct (cut k (s ++ u) (proj2 Lk)) as [C1 C2].
    destruct (prefix_longer _ _ _ _ C1 ltac:(lia)) as (d & v & w & Eu & Et).
    destruct (number_chars _ M) as (Ad & _). rewrite Et in Ad. apply allc_app in Ad. cbn in Ad.
    assert (Wd : word_char d). { unfold word_char. tauto. }
    destruct (last_char s) as (w' & e & E'); [intros ->; discriminate|].
    assert (We : word_char e). { rewrite E' in Ac. apply allc_last in Ac. unfold word_char. tauto. }
    destruct (follows_word s w' e u F E' We) as [Sp _]. rewrite Eu in Sp. cbn in Sp.
    rewrite (proj2 (word_dec d) Wd) in Sp. discriminate Sp.
  - exfalso. apply (M s u eq_refl); [rewrite Es; discriminate|exact H].
Qed.
Lemma lx_num : forall b s u, matches number_re s -> follows s u ->
  lx b (s ++ u) = (l <- lx false u ;; Ok (NUMBER (number_of s) :: l)).
Proof.
  intros b s u H F. pose proof (number_longest s u H F) as Hm. destruct (number_chars s H) as (Ac & c & r & Es & Hc0).
  rewrite (lx_return b (s ++ u) (String.length s) (fun t => NUMBER (to_int (fst (strtol t))))).
  - rewrite substring_app, drop_app. rewrite number_value by assumption.
    destruct (ends_line s) eqn:El; [|reflexivity]. exfalso. apply ends_newline in El. destruct El as [w ->].
    apply allc_last in Ac. destruct Ac as [Ac|Ac]; [apply isdigit_dec in Ac; discriminate Ac|discriminate Ac].
  - rewrite Es. discriminate.
  - change (rules b) with (firstn 23 (rules b) ++
      (m_number, Return (fun t => NUMBER (to_int (fst (strtol t))))) :: skipn 24 (rules b))%list.
    pose proof (digit_plain c Hc0) as Hpl. pose proof (digit_noident c Hc0) as Hni.
    apply andb_true_iff in Hni. destruct Hni as [Hni Hnt]. apply negb_true_iff in Hni, Hnt.
    cbn [mem] in Hnt.
    repeat match type of Hnt with (_ || _) = false =>
      apply orb_false_iff in Hnt; let H := fresh "Hc" in destruct Hnt as [H Hnt] end.
    apply best_split; auto; rewrite Es; cbn [String.append].
    + intros q a j Hi Hq. exfalso.
      change (firstn 23 (rules b)) with (firstn 12 (rules b) ++ firstn 11 (skipn 12 (rules b)))%list in Hi.
      apply in_app_or in Hi. destruct Hi as [Hi|Hi]; [eapply plain_punct; eauto|].
      cbn [rules skipn firstn In] in Hi.
      assert (Hkw : forall d l, Ascii.eqb c d = false -> keyword b (String d l) (String c (r ++ u)) = None).
      { intros d l He. rewrite plain_keyword by auto. rewrite lit_ne by auto. destruct b; reflexivity. }
      destruct Hi as [E|[E|[E|[E|[E|[E|[E|[E|[E|[E|[E|[]]]]]]]]]]]]; injection E as <- <-;
        try (rewrite lit_ne in Hq by assumption; discriminate Hq);
        try (rewrite Hkw in Hq by assumption; discriminate Hq).
      unfold m_ident in Hq. rewrite Hni in Hq. discriminate Hq.
    + intros q a j Hi Hq. cbn [rules skipn] in Hi. cbn [String.length].
      destruct (plain_spaces c (r ++ u) Hpl) as [Hsp Hco].
      destruct Hi as [E|Hi]; [injection E as <- <-; exfalso; congruence|].
      destruct Hi as [E|Hi]; [injection E as <- <-; exfalso; congruence|].
      destruct Hi as [E|Hi]; [injection E as <- <-|destruct Hi].
      revert Hq. unfold m_char. cbn [String.append]. destruct (not_newline c); [|discriminate].
      intros E. injection E as <-. lia.
Qed.
Lemma lx_eventually : forall b s, lx b ("<>" ++ s) = (l <- lx false s ;; Ok (EVENTUALLY_OP :: l)).
Proof. intros b s. rewrite (lx_return b _ 2 (fun _ => EVENTUALLY_OP)); [destruct s; reflexivity|discriminate|]. destruct b, s; reflexivity. Qed.
Lemma lx_bra : forall b s, head_is (fun c => Ascii.eqb c "]") s = false ->
  lx b (String "[" s) = (l <- lx false s ;; Ok (CH "[" :: l)).
Proof.
  intros b s H. rewrite (lx_return b (String "[" s) 1 (fun t => CH (first_char t))).
  - destruct s; reflexivity.
  - discriminate.
  - destruct s as [|c s]; [destruct b; reflexivity|]. cbn [head_is] in H.
    destruct b; char_cases c H; reflexivity.
Qed.
Lemma lx_ket : forall b s, lx b (String "]" s) = (l <- lx false s ;; Ok (CH "]" :: l)).
Proof.
  intros b s. rewrite (lx_return b (String "]" s) 1 (fun t => CH (first_char t))).
  - destruct s; reflexivity.
  - discriminate.
  - destruct b; reflexivity.
Qed.
(** '&' followed by something else than blanks and '[' *)
Definition not_joined (u : string) : Prop := forall b v, allc space_tab b -> u <> (b ++ String "[" v)%string.
Lemma and_lit_none : forall l u, not_joined u -> and_lit (String "[" l) (String "&" u) = None.
Proof.
  intros l u N. cbn [and_lit]. change (Ascii.eqb "&" "&") with true. cbv iota.
  destruct (run_lit blank (String "[" l) u) as [k|] eqn:E; [|reflexivity]. exfalso.
  apply (runlit_iff blank space_tab) in E; [|exact blank_dec| |discriminate].
  - destruct E as (t & w & -> & A & _). exact (N t (l ++ w)%string A eq_refl).
  - intros c v X. injection X as <- <-. intros [X|X]; discriminate X.
Qed.
Lemma lx_and : forall b u, not_joined u -> lx b (String "&" u) = (l <- lx false u ;; Ok (CH "&" :: l)).
Proof.
  intros b u N. rewrite (lx_return b (String "&" u) 1 (fun t => CH (first_char t))).
  - destruct u; reflexivity.
  - discriminate.
  - change (rules b) with (firstn 10 (rules b) ++ (m_char (fun c => mem c "()&|!=';,<>"), Return (fun t => CH (first_char t))) :: skipn 11 (rules b))%list.
    apply best_split; [reflexivity|..].
    + intros q a j Hi Hq. exfalso. cbn [rules firstn In] in Hi.
      destruct Hi as [E|[E|Hi]]; [injection E as <- <-; rewrite and_lit_none in Hq by assumption; discriminate Hq..|].
      repeat (destruct Hi as [E|Hi]; [injection E as <- <-; discriminate Hq|]). destruct Hi.
    + intros q a j Hi Hq. cbn [rules skipn In] in Hi.
      repeat (destruct Hi as [E|Hi]; [injection E as <- <-;
        first [exfalso; destruct b; discriminate Hq | cbn in Hq; injection Hq as <-; lia]|]). destruct Hi.
Qed.
Lemma joined_run : forall bl l u, allc space_tab bl -> and_lit (String "[" l) ("&" ++ bl ++ String "[" l ++ u) =
  Some (S (String.length bl + String.length (String "[" l))).
Proof.
  intros bl l u A. cbn [append and_lit]. change (Ascii.eqb "&" "&") with true. cbv iota.
  assert (E : run_lit blank (String "[" l) (bl ++ String "[" l ++ u) = Some (String.length bl + String.length (String "[" l))).
  { apply (runlit_iff blank space_tab); [exact blank_dec| |discriminate|].
    - intros c v X. injection X as <- <-. intros [X|X]; discriminate X.
    - exists bl, u. split; [reflexivity|]. split; [exact A|reflexivity]. }
  cbn [append] in E. rewrite E. reflexivity.
Qed.
Lemma joined_shape : forall b s q a j, In (q, a) (skipn 2 (rules b)) -> q (String "&" s) = Some j -> j <= 1.
Proof.
  intros b s q a j Hi Hq. cbn [rules skipn In] in Hi.
  repeat (destruct Hi as [E|Hi]; [injection E as <- <-;
    first [exfalso; destruct b; discriminate Hq | cbn in Hq; injection Hq as <-; lia]|]). destruct Hi.
Qed.
Lemma joined_end : forall bl l, l = "[]" \/ l = "[]<>" -> ends_line ("&" ++ bl ++ l) = false.
Proof.
  intros bl l H. destruct (ends_line ("&" ++ bl ++ l)) eqn:E; [|reflexivity]. exfalso. apply ends_newline in E.
  destruct E as [w E].
  assert (X : exists a d, l = (a ++ String d "")%string /\ d <> LF).
  { destruct H as [->| ->]; [exists "[", "]"%char|exists "[]<", ">"%char]; split; [reflexivity|discriminate|reflexivity|discriminate]. }
  destruct X as (a & d & -> & Nd). rewrite <- !app_asc in E. apply cut_unique in E.
  - destruct E as [_ E]. injection E as E. exact (Nd E).
  - pose proof (f_equal String.length E) as L. rewrite !app_len in L. cbn in L. rewrite !app_len. cbn. lia.
Qed.
Lemma lx_joined : forall b bl l t u, In (l, t) joined_words -> allc space_tab bl -> head_is (fun c => Ascii.eqb c "<") u = false ->
  lx b (("&" ++ bl ++ l) ++ u) = (r <- lx false u ;; Ok (t :: r)).
Proof.
  intros b bl l t u Hl A Hu. set (n := S (String.length bl + String.length l)).
  assert (EE : (("&" ++ bl ++ l) ++ u)%string = ("&" ++ bl ++ l ++ u)%string) by (rewrite !app_asc; reflexivity).
  assert (Ln : String.length ("&" ++ bl ++ l) = n) by (cbn [append String.length]; rewrite app_len; reflexivity).
  assert (B : best (rules b) (("&" ++ bl ++ l) ++ u) = Some (n, Return (fun _ => t))).
  { rewrite EE. cbn [joined_words In] in Hl. destruct Hl as [E|[E|[]]]; injection E as <- <-.
    - change (rules b) with ([] ++ (and_lit "[]<>", Return (fun _ => AND_LIVENESS_OP)) ::
        (and_lit "[]", Return (fun _ => AND_SAFETY_OP)) :: skipn 2 (rules b))%list.
      apply best_split.
      + exact (joined_run bl "]<>" u A).
      + intros q a j [].
      + intros q a j Hi Hq. destruct Hi as [E|Hi].
        * injection E as <- <-.
          assert (X : and_lit "[]" ("&" ++ bl ++ "[]<>" ++ u) = Some (S (String.length bl + 2))) by exact (joined_run bl "]" ("<>" ++ u) A).
          rewrite X in Hq. injection Hq as <-. unfold n. cbn. lia.
        * pose proof (joined_shape b _ q a j Hi Hq). unfold n. lia.
    - change (rules b) with ([(and_lit "[]<>", Return (fun _ => AND_LIVENESS_OP))] ++
        (and_lit "[]", Return (fun _ => AND_SAFETY_OP)) :: skipn 2 (rules b))%list.
      apply best_split.
      + exact (joined_run bl "]" u A).
      + intros q a j [E|[]] Hq. injection E as <- <-. exfalso. cbn [append and_lit] in Hq.
        change (Ascii.eqb "&" "&") with true in Hq. cbv iota in Hq.
        destruct (run_lit blank "[]<>" (bl ++ String "[" (String "]" u))) as [k|] eqn:R; [|discriminate].
        apply (runlit_iff blank space_tab) in R; [|exact blank_dec| |discriminate].
        * destruct R as (t1 & w & E & A1 & _).
          assert (Y : forall x c v, (String "[" x)%string = String c v -> ~ space_tab c).
          { intros x c v X. injection X as <- <-. intros [X|X]; discriminate X. }
          cbn [append] in E. destruct (run_cut space_tab _ _ _ _ E A A1 (Y _) (Y _)) as [_ E'].
          injection E' as ->. discriminate Hu.
        * intros c v X. injection X as <- <-. intros [X|X]; discriminate X.
      + intros q a j Hi Hq. pose proof (joined_shape b _ q a j Hi Hq). unfold n. lia. }
  rewrite (lx_return b _ n (fun _ => t)); [|discriminate|exact B].
  rewrite <- Ln, substring_app, drop_app. rewrite joined_end; [reflexivity|].
  cbn [joined_words In] in Hl. destruct Hl as [E|[E|[]]]; injection E as <- <-; auto.
Qed.

(** ** Any spelled token *)
Lemma lx_spelled : forall t s b u, spells t s -> ~ In t (map snd section_words) -> follows s u -> (s = "&" -> not_joined u) ->
  lx b (s ++ u) = (l <- lx false u ;; Ok (t :: l)).
Proof.
  intros t s b u H NS F J. destruct H as [x H T E|s H|s t H|bl s t H A|c H|s t H].
  - now apply lx_variable.
  - now apply lx_num.
  - cbn [fixed_words In] in H.
    assert (Op : forall w d, s = (w ++ String d "")%string -> op_char d -> head_is (fun c => mem c "&!<>=[]-") u = false).
    { intros w d E D. exact (follows_head s w d u F E D). }
    assert (Wd : forall w d, s = (w ++ String d "")%string -> word_char d -> sep u).
    { intros w d E D. exact (follows_word s w d u F E D). }
    repeat (destruct H as [E|H]; [injection E as <- <-|]); try destruct H.
    + apply lx_liveness.
    + apply lx_safety. apply (head_sub (fun c => mem c "&!<>=[]-")); [sub_chars|].
      apply (Op "[" "]"%char); [reflexivity|apply op_mem; reflexivity].
    + apply lx_eventually.
    + apply lx_le.
    + apply lx_ge.
    + apply lx_ne.
    + apply lx_iff.
    + apply lx_imp.
    + apply lx_true. apply (Wd "Tru" "e"%char); [reflexivity|apply word_dec; reflexivity].
    + apply lx_false. apply (Wd "Fals" "e"%char); [reflexivity|apply word_dec; reflexivity].
  - apply (lx_joined b bl s t u H A). apply (head_sub (fun c => mem c "&!<>=[]-")); [sub_chars|].
    cbn [joined_words In] in H. destruct H as [E|[E|[]]]; injection E as <- <-.
    + apply (follows_head _ ("&" ++ bl ++ "[]<") ">"%char u F); [cbn; now rewrite app_asc|apply op_mem; reflexivity].
    + apply (follows_head _ ("&" ++ bl ++ "[") "]"%char u F); [cbn; now rewrite app_asc|apply op_mem; reflexivity].
  - assert (Op : op_char c -> head_is (fun x => mem x "&!<>=[]-") u = false).
    { intros D. apply (follows_head _ "" c u F); [reflexivity|exact D]. }
    cbn [append].
    destruct H as [H|[<-|[<-|[]]]].
    + unfold punctuation in H. cbn [In] in H.
      destruct H as [<-|[<-|[<-|[<-|[<-|[<-|[<-|[<-|[<-|[<-|[<-|[]]]]]]]]]]]];
        first [ apply lx_char; reflexivity | idtac ].
      * apply lx_and. now apply J.
      * apply lx_bang. apply (head_sub (fun c => mem c "&!<>=[]-")); [sub_chars|]. apply Op, op_mem; reflexivity.
      * apply lx_lt. apply (head_sub (fun c => mem c "&!<>=[]-")); [sub_chars|]. apply Op, op_mem; reflexivity.
      * apply lx_gt. apply (head_sub (fun c => mem c "&!<>=[]-")); [sub_chars|]. apply Op, op_mem; reflexivity.
    + apply lx_bra. apply (head_sub (fun c => mem c "&!<>=[]-")); [sub_chars|]. apply Op, op_mem; reflexivity.
    + apply lx_ket.
  - exfalso. apply NS. apply in_map_iff. exists (s, t). split; [reflexivity|exact H].
Qed.
Lemma spelled_first : forall t s, spells t s -> exists c r, s = String c r /\ c <> ":"%char /\ ~ space_tab c /\ c <> LF.
Proof.
  intros t s H.
  assert (D : forall c : ascii, mem c ":# " = false -> Ascii.eqb c TAB = false -> Ascii.eqb c LF = false ->
     c <> ":"%char /\ ~ space_tab c /\ c <> LF).
  { intros c H1 H2 H3. cbn [mem] in H1. rewrite !orb_false_iff, !Ascii.eqb_neq in H1. rewrite Ascii.eqb_neq in H2, H3.
    unfold space_tab. tauto. }
  assert (I : forall c, ident_char c = true -> c <> ":"%char /\ ~ space_tab c /\ c <> LF).
  { intros c Hc. apply D.
    - revert Hc. destruct c as [[] [] [] [] [] [] [] []]; cbn; try discriminate; reflexivity.
    - revert Hc. destruct c as [[] [] [] [] [] [] [] []]; cbn; try discriminate; reflexivity.
    - revert Hc. destruct c as [[] [] [] [] [] [] [] []]; cbn; try discriminate; reflexivity. }
  destruct H as [x H _ _|s H|s t H|bl s t H A|c H|s t H].
  - apply cat_iff in H. destruct H as (a & r & -> & H1 & H2). apply chr_iff in H1. destruct H1 as (c & -> & H1).
    exists c, r. split; [reflexivity|]. apply I. unfold ident_char. now rewrite (proj2 (start_dec c) H1).
  - destruct (number_chars s H) as (_ & c & r & -> & Hc). exists c, r. split; [reflexivity|]. apply I.
    unfold ident_char. rewrite Hc. now rewrite orb_true_r.
  - cbn [fixed_words In] in H.
    repeat (destruct H as [E|H]; [injection E as <- <-; eexists; eexists; split; [reflexivity|apply D; reflexivity]|]). destruct H.
  - exists "&"%char, (bl ++ s)%string. split; [reflexivity|]. apply D; reflexivity.
  - exists c, "". split; [reflexivity|]. apply D.
    + destruct H as [H|H]; [unfold punctuation in H|]; cbn [In] in H;
      repeat (destruct H as [<-|H]; [reflexivity|]); destruct H.
    + destruct H as [H|H]; [unfold punctuation in H|]; cbn [In] in H;
      repeat (destruct H as [<-|H]; [reflexivity|]); destruct H.
    + destruct H as [H|H]; [unfold punctuation in H|]; cbn [In] in H;
      repeat (destruct H as [<-|H]; [reflexivity|]); destruct H.
  - cbn [section_words In] in H.
    repeat (destruct H as [E|H]; [injection E as <- <-; eexists; eexists; split; [reflexivity|apply D; reflexivity]|]). destruct H.
Qed.
Lemma layout_head : forall g c v, layout g -> g = String c v -> space_tab_cr c \/ c = LF \/ c = "#"%char.
Proof. intros g c v H E. destruct H; try discriminate; injection E as <- <-; auto. Qed.
(** the text after a token *)
Lemma after_token : forall s l last, layout last -> well_spaced (Some s) l ->
  follows s (laid_out l last) /\ (s = "&" -> not_joined (laid_out l last)).
Proof.
  intros s l last HL H. destruct l as [|[[g t] s2] r]; cbn [laid_out].
  - split.
    + intros c v E. left. exact (layout_head _ _ _ HL E).
    + intros _ b v A E. assert (X : forall b, allc space_tab b -> layout (b ++ String "[" v) -> False).
      { clear. induction b as [|c b IH]; intros A H; cbn in H.
        - destruct (layout_head _ _ _ H eq_refl) as [[[X|X]|X]|[X|X]]; discriminate X.
        - inversion H; subst; try (destruct A as [[A|A] _]; discriminate A). apply IH; [apply A|assumption]. }
      apply (X b A). rewrite <- E. exact HL.
  - cbn [well_spaced] in H. destruct H as (Hg & Hs & _ & Hap & Hamp & _).
    destruct (spelled_first _ _ Hs) as (c2 & r2 & E2 & N1 & N2 & N3). split.
    + intros c v E. destruct g as [|c' g].
      * right. cbn in E. rewrite E2 in E. cbn in E. injection E as <- _. split; [exact N1|].
        intros w d E. exact (Hap s eq_refl eq_refl w d c2 r2 E E2).
      * left. cbn in E. injection E as <- _. exact (layout_head _ _ _ Hg eq_refl).
    + intros -> b v A E.
      assert (X : forall g b w, layout g -> allc space_tab b -> (g ++ String c2 w)%string = (b ++ String "[" v)%string ->
         allc space_tab g /\ c2 = "["%char).
      { clear - N2. intros g b w H. revert b. induction H as [|c g Hc H IH|g H IH|t g Ht H IH]; intros b A E.
        - split; [exact I|]. destruct b as [|d b]; cbn in E; [now injection E|]. injection E as -> _. destruct A as [A _]. contradiction.
        - destruct b as [|d b]; cbn in E.
          + injection E as -> _. destruct Hc as [[X|X]|X]; discriminate X.
          + injection E as -> E. destruct A as [A1 A]. destruct (IH b A E) as [X ->]. split; [split; assumption|reflexivity].
        - destruct b as [|d b]; cbn in E; [discriminate|]. injection E as <- _. destruct A as [[A|A] _]; discriminate A.
        - destruct b as [|d b]; cbn in E; [discriminate|]. injection E as <- _. destruct A as [[A|A] _]; discriminate A. }
      rewrite E2 in E. cbn [append] in E. destruct (X g b _ Hg A E) as [Ag ->]. exact (Hamp eq_refl Ag r2 E2).
Qed.
Lemma has_lf_intro : forall g1 g2, has_lf (g1 ++ String LF g2) = true.
Proof. intros g1 g2. rewrite has_lf_app. cbn [has_lf]. change (Ascii.eqb LF LF) with true. cbn [orb]. apply orb_true_r. Qed.
Lemma section_not : forall t s, spells t s -> In t (map snd section_words) -> In (s, t) section_words.
Proof.
  intros t s H HI. destruct H as [x H _ _|s H|s t H|bl s t H A|c H|s t H]; [..|exact H]; exfalso;
    try (cbn in HI; intuition discriminate).
  - cbn [fixed_words In] in H.
    repeat (destruct H as [E|H]; [injection E as <- <-; cbn in HI; intuition discriminate|]). destruct H.
  - cbn [joined_words In] in H.
    repeat (destruct H as [E|H]; [injection E as <- <-; cbn in HI; intuition discriminate|]). destruct H.
Qed.
Lemma lx_laid_out : forall l prev b last, layout last -> well_spaced prev l -> (prev = None -> b = true) ->
  lx b (laid_out l last) = Ok (map (fun x : item => snd (fst x)) l).
Proof.
  induction l as [|[[g t] s] r IH]; intros prev b last HL H Hb.
  - cbn [laid_out map]. rewrite <- (app_empty last). rewrite lx_gap by assumption. apply lx_nil.
  - cbn [laid_out map fst snd]. cbn [well_spaced] in H. destruct H as (Hg & Hs & Hsec & _ & _ & Hr).
    rewrite lx_gap by assumption. destruct (after_token s r last HL Hr) as [F J].
    assert (IH' : lx false (laid_out r last) = Ok (map (fun x : item => snd (fst x)) r)).
    { apply (IH (Some s)); [assumption|assumption|discriminate]. }
    destruct (in_dec (fun a b : token => ltac:(repeat decide equality) : {a = b} + {a <> b}) t (map snd section_words)) as [Y|N].
    + assert (E : b || has_lf g = true).
      { destruct (Hsec Y) as [X|(g1 & g2 & ->)]; [rewrite (Hb X); reflexivity|rewrite has_lf_intro; apply orb_true_r]. }
      rewrite E. pose proof (section_not t s Hs Y) as Hk. change section_words with keywords in Hk.
      rewrite (lx_keyword s t _ Hk), IH'. reflexivity.
    + rewrite (lx_spelled t s _ _ Hs N F J), IH'. reflexivity.
Qed.
Lemma layout_ignored : forall l last, layout last -> well_spaced None l ->
  text_tokens (laid_out l last) (map (fun x : item => snd (fst x)) l).
Proof.
  intros l last HL H. apply scanner_exact. exact (lx_laid_out l None true last HL H (fun _ => eq_refl)).
Qed.
Lemma yyparse_tokens_only : forall text text' ts, text_tokens text ts -> text_tokens text' ts -> yylex text = yylex text'.
Proof. intros text text' ts H H'. apply scanner_exact in H, H'. congruence. Qed.

(** ** An example *)
Definition ex_items : list item :=
  [(String TAB (String " " ""), E_VARS, "ENV:"); ("", VARIABLE "a.1", "a.1"); ("", CH "[", "["); (" ", NUMBER 0, "0"); ("", CH ",", ",");
   ("# upper bound" ++ String LF " ", NUMBER 7, "7.5"); ("", CH "]", "]"); ("", CH ";", ";");
   (String CR (String LF "  "), S_TRANS, "SYSTRANS:"); (" ", SAFETY_OP, "[]"); ("", CH "(", "("); ("", CH "!", "!");
   ("", VARIABLE "a.1", "a.1"); ("", CH "'", "'"); ("", LE_OP, "<="); ("", NUMBER 3, "03"); ("", CH ")", ")");
   (String LF "", AND_SAFETY_OP, "&" ++ String TAB " []"); (" ", TRUE_CONSTANT, "True"); ("", CH ";", ";")].
Lemma allc_true : forall p q s, dec p q -> all_chars p s = true -> allc q s.
Proof.
  intros p q s D. induction s as [|c s IH]; cbn; [auto|]. intros H. apply andb_true_iff in H. split; [apply D|apply IH]; tauto.
Qed.
Lemma ident_match : forall x, is_ident x = true -> matches identifier_re x.
Proof.
  intros [|c x] H; [discriminate|]. cbn in H. apply andb_true_iff in H. destruct H as [H1 H2].
  change (String c x) with (String c "" ++ x)%string. apply m_cat; [constructor; now apply start_dec|].
  apply star_iff. exact (allc_true _ _ _ word_dec H2).
Qed.
Lemma number_match : forall s, m_number s = Some (String.length s) -> matches number_re s.
Proof.
  intros s H. pose proof (number_mok s) as M. rewrite H in M. destruct M as (_ & M & _).
  assert (E : substring 0 (String.length s) s = s).
  { rewrite <- (app_empty s) at 2. apply substring_app. }
  rewrite <- E. exact M.
Qed.
Lemma apart_bool : forall s1 s2, match s2 with
   | String c2 _ => forallb (fun c1 => negb (ident_char c1 && ident_char c2) && negb (mem c1 "&!<>=[]-" && mem c2 "&!<>=[]-"))
                     (match String.get (Nat.pred (String.length s1)) s1 with Some c => [c] | None => [] end)
   | EmptyString => true end = true -> apart s1 s2.
Proof.
  intros s1 s2 H u1 c1 c2 u2 -> ->.
  assert (G : String.get (Nat.pred (String.length (u1 ++ String c1 ""))) (u1 ++ String c1 "") = Some c1).
  { clear. induction u1 as [|c u IH]; [reflexivity|]. cbn [append String.length Nat.pred].
    assert (E : String.length (u ++ String c1 "") = S (Nat.pred (String.length (u ++ String c1 "")))).
    { rewrite app_len. cbn. lia. }
    rewrite E. exact IH. }
  rewrite G in H. cbn [forallb] in H. rewrite andb_true_r in H. apply andb_true_iff in H. destruct H as [H1 H2].
  apply negb_true_iff in H1, H2. split; intros [X Y].
  - apply word_dec in X, Y. rewrite X, Y in H1. discriminate.
  - apply op_mem in X, Y. rewrite X, Y in H2. discriminate.
Qed.
Ltac lay := repeat first [apply ly_nil | apply ly_space; [unfold space_tab_cr, space_tab; tauto|] | apply ly_line].
Lemma ex_items_spaced : well_spaced None ex_items.
Proof.
  unfold ex_items. cbn [well_spaced].
  repeat match goal with |- _ /\ _ => split | |- True => exact I end.
  all: try (intros p E _; injection E as <-; apply apart_bool; reflexivity).
  all: try (intros p E; discriminate E).
  all: try (intros E; discriminate E).
  all: try (intros _ _ u E; discriminate E).
  all: try (lay; fail).
  all: try (apply sp_variable; [apply ident_match; reflexivity|discriminate|discriminate]).
  all: try (apply sp_section; cbn; tauto).
  all: try (apply sp_fixed; cbn; tauto).
  all: try (apply sp_char; unfold punctuation; cbn; tauto).
  all: try (intros _; left; reflexivity).
  all: try (intros H; exfalso; cbn in H; intuition discriminate).
  - apply (sp_number "0"). apply number_match. reflexivity.
  - apply (ly_comment " upper bound" " "); [apply (allc_true _ _ _ any_dec); reflexivity|lay].
  - apply (sp_number "7.5"). apply number_match. reflexivity.
  - intros _. right. exists (String CR ""), "  ". reflexivity.
  - apply (sp_number "03"). apply number_match. reflexivity.
  - apply (sp_joined (String TAB " ") "[]"); [cbn; tauto|]. apply (allc_true _ _ _ blank_dec). reflexivity.
Qed.
