(** Proofs about the automaton file format. *)
From Coq Require Import List ZArith Lia Bool Arith Ascii String.
From Verif Require Import Base Strs Automaton AutIO AutIOSpec.
Import ListNotations.
Open Scope string_scope.
Open Scope list_scope.
Open Scope Z_scope.

Lemma to_int_ok : forall z, int_ok z -> to_int z = z.
Proof.
  intros z H. unfold int_ok in H. unfold to_int, clamp, wrap.
  rewrite Z.min_r, Z.max_r by lia. rewrite Z.mod_small by lia. lia.
Qed.

(** ** Reading numbers *)
Lemma strtol_sp : forall n r, starts_digit r = false -> strtol (sp n ++ r) = (n, r).
Proof.
  intros n r H. pose proof (strtol_zdec n r H) as E. unfold sp. cbn [String.append].
  unfold strtol in *. change (skip_space (String " " (zdec n ++ r))) with (skip_space (zdec n ++ r)).
  assert (Hs : forall X, (if starts_digit X then read_digits 0 X else (0, (zdec n ++ r)%string)) = (n, r) ->
    (if starts_digit X then read_digits 0 X else (0, String " " (zdec n ++ r))) = (n, r)).
  { intros X. destruct (starts_digit X); auto. intros HX. injection HX as Hn Hr.
    exfalso. assert (HL : String.length (zdec n ++ r) = String.length r) by congruence.
    rewrite length_app in HL. assert (String.length (zdec n) = 0%nat) by lia.
    unfold zdec in H0. destruct (n <? 0) eqn:En; [cbn in H0; lia|]. apply Z.ltb_ge in En.
    pose proof (dec_pos_starts n "" En) as Hd. rewrite string_app_nil in Hd.
    destruct (dec_pos n); [discriminate Hd|discriminate H0]. }
  destruct (skip_space (zdec n ++ r)) as [|c X] eqn:Ek; auto.
  destruct c as [[] [] [] [] [] [] [] []]; auto.
  destruct (starts_digit X) eqn:Ed; [exact E|]. exfalso.
  injection E as Hn Hr. assert (HL : String.length (zdec n ++ r) = String.length r) by congruence.
  rewrite length_app in HL. assert (String.length (zdec n) = 0%nat) by lia.
  unfold zdec in H0. destruct (n <? 0) eqn:En; [cbn in H0; lia|]. apply Z.ltb_ge in En.
  pose proof (dec_pos_starts n "" En) as Hd. rewrite string_app_nil in Hd.
  destruct (dec_pos n); [discriminate Hd|discriminate H0].
Qed.
Lemma zdec_len : forall n, (0 < String.length (zdec n))%nat.
Proof.
  intros n. unfold zdec. destruct (n <? 0) eqn:En; [cbn; lia|]. apply Z.ltb_ge in En.
  pose proof (dec_pos_starts n "" En) as Hd. rewrite string_app_nil in Hd.
  destruct (dec_pos n); [discriminate Hd|cbn; lia].
Qed.
Lemma same_pos_app : forall a b, (0 < String.length a)%nat -> same_pos (a ++ b) b = false.
Proof. intros a b H. unfold same_pos. rewrite length_app. apply Nat.eqb_neq. lia. Qed.
Lemma same_pos_sp : forall n r, same_pos (sp n ++ r) r = false.
Proof. intros. apply same_pos_app. cbn. lia. Qed.
(** texts that may follow a number *)
Definition nodig (s : string) : Prop := starts_digit s = false.
Lemma nodig_sps : forall l r, nodig r -> nodig (sps l ++ r).
Proof. intros [|z l] r H; auto. reflexivity. Qed.
Lemma nodig_sp : forall z r, nodig (sp z ++ r).
Proof. reflexivity. Qed.
Lemma sps_app : forall a b, sps (a ++ b) = (sps a ++ sps b)%string.
Proof. induction a; intros; cbn [sps app]; auto. rewrite IHa, string_app_assoc. reflexivity. Qed.

Lemma read_vals_ok : forall l r, ints l -> nodig r -> read_vals (List.length l) (sps l ++ r) = Some (l, r).
Proof.
  induction l as [|z l IH]; intros r H Hr; auto. cbn [List.length sps read_vals].
  rewrite string_app_assoc. replace (is_nul (sp z ++ sps l ++ r)) with false by reflexivity.
  rewrite strtol_sp by (apply nodig_sps; auto). rewrite same_pos_sp.
  rewrite IH; auto; [|intros y Hy; apply H; right; auto]. rewrite to_int_ok; auto. apply H. left; auto.
Qed.
Lemma read_trans_ok : forall l fuel, ints l -> (List.length l < fuel)%nat ->
  read_trans fuel (sps l ++ nl) = Ok l.
Proof.
  induction l as [|z l IH]; intros [|f] H Hf; cbn [List.length] in *; try lia; [reflexivity|].
  cbn [sps read_trans]. rewrite string_app_assoc.
  rewrite strtol_sp by (apply nodig_sps; reflexivity). rewrite same_pos_sp.
  rewrite IH; [|intros y Hy; apply H; right; auto|lia]. cbn [bind]. rewrite to_int_ok; auto. apply H; left; auto.
Qed.
Lemma sps_len : forall l, (List.length l <= String.length (sps l))%nat.
Proof. induction l; cbn [sps List.length]; auto. rewrite length_app. cbn [sp String.append String.length]. lia. Qed.

(** ** One line *)
Definition row_of_f (r : frow) : row := Row (f_id r) (Some (f_init r)) (f_state r) (f_mode r) (f_rgrad r) (f_trans r).
Definition row_ok (n : nat) (r : frow) : Prop :=
  int_ok (f_id r) /\ List.length (f_state r) = n /\ ints (f_state r) /\ int_ok (f_mode r) /\
  int_ok (f_rgrad r) /\ ints (f_trans r).
(** format version 0 has no initial field *)
Definition mid (v1 : bool) (b : bool) : string := if v1 then sp (if b then 1 else 0) else "".
Definition row_text_v (v1 : bool) (r : frow) : string :=
  (zdec (f_id r) ++ sps (f_state r) ++ mid v1 (f_init r) ++ sps [f_mode r; f_rgrad r] ++ sps (f_trans r))%string.
Lemma row_text_v1 : forall r, row_text_v true r = row_text r.
Proof. reflexivity. Qed.
Definition row_of_v (v1 : bool) (r : frow) : row :=
  Row (f_id r) (Some (v1 && f_init r)) (f_state r) (f_mode r) (f_rgrad r) (f_trans r).
Lemma read_line_ok : forall (v1 : bool) n r, row_ok n r ->
  read_line n (if v1 then 1 else 0) (row_text_v v1 r ++ nl) =
  Ok (LRow (if v1 then 1 else 0) (row_of_v v1 r)).
Proof.
  intros v1 n r (Hid & Hn & Hst & Hm & Hr & Ht). unfold read_line, row_text_v. rewrite !string_app_assoc.
  assert (Hnd : forall r', nodig (mid v1 (f_init r) ++ sps [f_mode r; f_rgrad r] ++ r')).
  { intros r'. destruct v1; reflexivity. }
  rewrite strtol_zdec by (apply nodig_sps; apply Hnd).
  rewrite same_pos_app by apply zdec_len.
  replace ((if v1 then 1 else 0) <? 0) with false by (destruct v1; reflexivity). cbn [andb].
  rewrite to_int_ok by auto. rewrite <- Hn. rewrite read_vals_ok; auto.
  set (ver := if v1 then 1 else 0).
  assert (Hf : forall init, read_fields ver (f_id r) (f_state r) init (sps [f_mode r; f_rgrad r] ++ sps (f_trans r) ++ nl)%string =
    Ok (LRow ver (Row (f_id r) init (f_state r) (f_mode r) (f_rgrad r) (f_trans r)))).
  { intros init. unfold read_fields. cbn [sps]. rewrite !string_app_assoc.
    rewrite strtol_sp by reflexivity. rewrite same_pos_sp. cbn [orb].
    replace (is_nul _) with false by reflexivity.
    change ("" ++ sps (f_trans r) ++ nl)%string with (sps (f_trans r) ++ nl)%string.
    rewrite strtol_sp by (apply nodig_sps; reflexivity). rewrite same_pos_sp.
    rewrite read_trans_ok; auto; [|rewrite length_app; pose proof (sps_len (f_trans r)); cbn; lia].
    cbn [bind]. rewrite !to_int_ok by auto. reflexivity. }
  destruct v1; subst ver.
  - change (1 =? 1) with true. cbn iota. unfold mid.
    rewrite strtol_sp by (cbn [sps]; reflexivity).
    rewrite same_pos_sp. cbn [orb]. replace (is_nul _) with false by reflexivity.
    destruct (f_init r) eqn:Ei.
    + change (to_char 1) with 1. cbn [Z.eqb negb andb]. cbn [Pos.eqb]. rewrite Hf. unfold row_of_v. rewrite Ei. reflexivity.
    + change (to_char 0) with 0. cbn [Z.eqb negb andb]. rewrite Hf. unfold row_of_v. rewrite Ei. reflexivity.
  - change (0 =? 1) with false. change (0 =? 0) with true. cbn iota. unfold mid. cbn [String.append].
    rewrite Hf. reflexivity.
Qed.
Lemma row_not_skipped : forall v1 r, skipped (row_text_v v1 r ++ nl) = false.
Proof.
  intros v1 r. unfold row_text_v. rewrite !string_app_assoc. unfold zdec.
  destruct (f_id r <? 0) eqn:E; [reflexivity|]. apply Z.ltb_ge in E.
  match goal with |- context [(dec_pos ?n ++ ?x)%string] => pose proof (dec_pos_starts n x E) as Hd end.
  destruct (dec_pos (f_id r) ++ _)%string as [|c s]; [discriminate Hd|]. cbn in *.
  destruct c as [[] [] [] [] [] [] [] []]; try discriminate Hd; reflexivity.
Qed.

(** ** Lines of the text *)
Lemma eqb_newline : forall c, Ascii.eqb c newline = true <-> c = newline.
Proof. intros. apply Ascii.eqb_eq. Qed.
Lemma fgets_line : forall l rest k, has_newline l = false -> Z.of_nat (String.length l) < k ->
  fgets_all k (l ++ nl ++ rest) = (l ++ nl)%string :: fgets_lines rest.
Proof.
  induction l as [|c l IH]; intros rest k Hl Hk.
  - reflexivity.
  - cbn [has_newline] in Hl. apply orb_false_iff in Hl. destruct Hl as [Hc Hl].
    cbn [String.length] in Hk. cbn [String.append fgets_all]. rewrite Hc. cbn [orb].
    rewrite (proj2 (Z.eqb_neq _ _)) by lia. change (String newline rest) with (nl ++ rest)%string.
    rewrite IH by (auto; lia). reflexivity.
Qed.
Lemma short_head : forall l rest, short_lines (l ++ nl ++ rest) -> has_newline l = false ->
  fgets_lines (l ++ nl ++ rest) = (l ++ nl)%string :: fgets_lines rest.
Proof.
  intros l rest H Hl. apply fgets_line; auto. apply (H "" l (nl ++ rest)%string); auto.
Qed.
Lemma short_tail : forall a rest, short_lines (a ++ rest) -> short_lines rest.
Proof. intros a rest H x l b E. apply (H (a ++ x)%string l b). rewrite E, string_app_assoc. reflexivity. Qed.

Lemma has_newline_app : forall a b, has_newline (a ++ b) = has_newline a || has_newline b.
Proof. induction a; intros; cbn [String.append has_newline]; auto. rewrite IHa, orb_assoc. reflexivity. Qed.
Lemma dec_aux_newline : forall f n acc, 0 <= n -> has_newline acc = false -> has_newline (dec_aux f n acc) = false.
Proof.
  induction f; intros n acc Hn Ha; cbn [dec_aux]; auto.
  assert (Hm : 0 <= n mod 10 < 10) by (apply Z.mod_pos_bound; lia).
  assert (Hd : has_newline (String (digit (n mod 10)) acc) = false).
  { cbn [has_newline]. rewrite Ha, orb_false_r. destruct (Ascii.eqb _ newline) eqn:E; auto.
    apply eqb_newline in E. pose proof (code_digit _ Hm) as Hc. rewrite E in Hc. change (code newline) with 10 in Hc. lia. }
  destruct (n / 10 =? 0); auto. apply IHf; auto. apply Z.div_pos; lia.
Qed.
Lemma zdec_newline : forall n, has_newline (zdec n) = false.
Proof.
  intros n. unfold zdec. destruct (n <? 0) eqn:E.
  - apply Z.ltb_lt in E. change (has_newline ("-" ++ dec_pos (- n))) with (has_newline (dec_pos (- n))).
    apply dec_aux_newline; auto. lia.
  - apply Z.ltb_ge in E. apply dec_aux_newline; auto.
Qed.
Lemma sps_newline : forall l, has_newline (sps l) = false.
Proof.
  induction l; cbn [sps]; auto. rewrite has_newline_app, IHl. unfold sp.
  change (has_newline (" " ++ zdec a)) with (has_newline (zdec a)). rewrite zdec_newline. reflexivity.
Qed.
Lemma row_newline : forall v1 r, has_newline (row_text_v v1 r) = false.
Proof.
  intros v1 r. unfold row_text_v. rewrite !has_newline_app, zdec_newline, !sps_newline.
  destruct v1; cbn [mid]; [|reflexivity]. unfold sp.
  match goal with |- context [has_newline (" " ++ zdec ?n)] => change (has_newline (" " ++ zdec n)) with (has_newline (zdec n)) end.
  rewrite zdec_newline. reflexivity.
Qed.

(** ** All lines *)
Definition line_text_v (v1 : bool) (l : fline) : string :=
  match l with FComment s => ("#" ++ s)%string | FBlank => "" | FNode r => row_text_v v1 r end.
Fixpoint lines_text_v (v1 : bool) (ls : list fline) : string :=
  match ls with [] => "" | l :: r => (line_text_v v1 l ++ nl ++ lines_text_v v1 r)%string end.
Lemma lines_text_v1 : forall ls, lines_text_v true ls = lines_text ls.
Proof. induction ls as [|[] ls IH]; cbn [lines_text_v lines_text]; auto; rewrite IH; reflexivity. Qed.
Definition comments_ok (ls : list fline) : Prop := forall s, In (FComment s) ls -> has_newline s = false.
Lemma line_newline : forall v1 l ls, comments_ok (l :: ls) -> has_newline (line_text_v v1 l) = false.
Proof.
  intros v1 [s| |r] ls H; auto; [|apply row_newline]. cbn. apply H. left; auto.
Qed.
Lemma read_lines_ok : forall (v1 : bool) n ls rows, comments_ok ls -> (forall r, In r (rows_of ls) -> row_ok n r) ->
  short_lines (lines_text_v v1 ls) ->
  read_lines n (if v1 then 1 else 0) rows (fgets_lines (lines_text_v v1 ls)) =
  Ok (Some (if v1 then 1 else 0, rows ++ map (row_of_v v1) (rows_of ls))).
Proof.
  intros v1 n. induction ls as [|l ls IH]; intros rows Hc Hr Hs.
  - cbn. rewrite app_nil_r. reflexivity.
  - cbn [lines_text_v] in *. rewrite short_head; auto; [|apply (line_newline v1 l ls Hc)].
    rewrite <- string_app_assoc in Hs. apply short_tail in Hs.
    assert (Hc' : comments_ok ls) by (intros s H; apply Hc; right; auto).
    cbn [read_lines]. destruct l as [s| |r]; cbn [line_text_v].
    + cbn [skipped String.append]. change (Ascii.eqb "#" "#") with true. cbn [orb]. apply IH; auto.
    + cbn [skipped String.append nl]. change (Ascii.eqb newline "#") with false.
      change (Ascii.eqb newline newline) with true. cbn [orb]. apply IH; auto.
    + rewrite row_not_skipped. rewrite read_line_ok by (apply Hr; left; auto). cbn [bind rows_of map].
      rewrite IH; auto; [|intros; apply Hr; right; auto]. rewrite <- app_assoc. reflexivity.
Qed.
Lemma read_pre_ok : forall n ls rest, comments_ok ls -> rows_of ls = [] ->
  short_lines (lines_text ls ++ rest) -> forall rows,
  read_lines n (-1) rows (fgets_lines (lines_text ls ++ rest)) = read_lines n (-1) rows (fgets_lines rest).
Proof.
  intros n. induction ls as [|l ls IH]; intros rest Hc Hr Hs rows; auto.
  cbn [lines_text] in *. rewrite !string_app_assoc in *.
  assert (Hc' : comments_ok ls) by (intros s H; apply Hc; right; auto).
  assert (Hn : has_newline (line_text l) = false) by exact (line_newline true l ls Hc).
  rewrite short_head; auto. rewrite <- string_app_assoc in Hs. apply short_tail in Hs.
  cbn [read_lines]. destruct l as [s| |r]; [| |discriminate Hr].
  - cbn [line_text skipped String.append]. change (Ascii.eqb "#" "#") with true. cbn [orb]. apply IH; auto.
  - cbn [line_text skipped String.append nl]. change (Ascii.eqb newline "#") with false.
    change (Ascii.eqb newline newline) with true. cbn [orb]. apply IH; auto.
Qed.
Lemma read_version : forall (v1 : bool) n rest, short_lines (zdec (if v1 then 1 else 0) ++ nl ++ rest) ->
  read_lines n (-1) [] (fgets_lines (zdec (if v1 then 1 else 0) ++ nl ++ rest)) =
  read_lines n (if v1 then 1 else 0) [] (fgets_lines rest).
Proof.
  intros v1 n rest H. rewrite short_head; auto; [|apply zdec_newline].
  destruct v1; reflexivity.
Qed.
Lemma load_rows : forall (v1 : bool) n pre ls, comments_ok (pre ++ ls) -> rows_of pre = [] ->
  (forall r, In r (rows_of ls) -> row_ok n r) ->
  short_lines (lines_text pre ++ zdec (if v1 then 1 else 0) ++ nl ++ lines_text_v v1 ls) ->
  read_lines n (-1) [] (fgets_lines (lines_text pre ++ zdec (if v1 then 1 else 0) ++ nl ++ lines_text_v v1 ls)) =
  Ok (Some (if v1 then 1 else 0, map (row_of_v v1) (rows_of ls))).
Proof.
  intros v1 n pre ls Hc Hp Hr Hs.
  rewrite read_pre_ok; auto; [|intros s H; apply Hc; apply in_app_iff; auto].
  apply short_tail in Hs. rewrite read_version by auto.
  rewrite <- string_app_assoc in Hs. apply short_tail in Hs.
  rewrite read_lines_ok; auto. intros s H; apply Hc; apply in_app_iff; auto.
Qed.

(** ** Linking *)
Lemma find_row_some : forall rows id k, find_row rows id = Some k ->
  exists w, nth_error rows k = Some w /\ w_id w = id /\
    forall k' w', (k' < k)%nat -> nth_error rows k' = Some w' -> w_id w' <> id.
Proof.
  induction rows as [|w rows IH]; intros id k H; [discriminate|]. cbn [find_row] in H.
  destruct (Z.eqb_spec (w_id w) id) as [E|E].
  - injection H as <-. exists w. split; auto. split; auto. intros; lia.
  - destruct (find_row rows id) as [k0|] eqn:Ek; [|discriminate]. injection H as <-.
    destruct (IH _ _ Ek) as (w0 & H1 & H2 & H3). exists w0. split; auto. split; auto.
    intros [|k'] w' Hk Hn; [cbn in Hn; injection Hn as <-; auto|]. cbn in Hn. apply (H3 k' w'); auto. lia.
Qed.
Lemma find_row_none : forall rows id, find_row rows id = None -> forall w, In w rows -> w_id w <> id.
Proof.
  induction rows as [|w rows IH]; intros id H w' []; cbn [find_row] in H;
    destruct (Z.eqb_spec (w_id w) id); try discriminate.
  - subst. auto.
  - destruct (find_row rows id) eqn:E; [discriminate|]. apply (IH id E); auto.
Qed.
Definition node_at (W : list row) (j : nat) (y : lnode) : Prop :=
  exists w wi, find_row W (Z.of_nat j) = Some (l_addr y) /\ nth_error W (l_addr y) = Some w /\
    nth_error W j = Some wi /\ l_init y = w_init w /\ l_state y = w_state w /\ l_mode y = w_mode w /\
    l_rgrad y = w_rgrad w /\ resolve W (List.length (w_trans w)) (w_trans wi) = Ok (l_trans y).
Definition no_node (W : list row) (j : nat) : Prop :=
  find_row W (Z.of_nat j) = None \/
  exists k w wi, find_row W (Z.of_nat j) = Some k /\ nth_error W k = Some w /\ nth_error W j = Some wi /\
    resolve W (List.length (w_trans w)) (w_trans wi) = Crash.
Lemma resolve_cases : forall W n tr,
  (exists l, resolve W n tr = Ok l /\ (n <= List.length tr)%nat /\
     Forall2 (fun t k => find_row W t = Some k) (firstn n tr) l) \/
  (resolve W n tr = Crash /\ ((List.length tr < n)%nat \/ exists t, In t tr /\ find_row W t = None)).
Proof.
  induction n as [|n IH]; intros tr.
  - left. exists []. split; auto. split; [lia|]. rewrite firstn_O. constructor.
  - destruct tr as [|t tr]; [right; split; auto; left; cbn; lia|]. cbn [resolve firstn List.length].
    destruct (find_row W t) as [k|] eqn:Ek; [|right; split; auto; right; exists t; split; auto; left; auto].
    destruct (IH tr) as [(l & -> & Hn & HF)|[-> [H|(t' & H1 & H2)]]]; cbn [bind].
    + left. exists (k :: l). split; auto. split; [lia|]. constructor; auto.
    + right. split; auto. left. lia.
    + right. split; auto. right. exists t'. split; auto. right; auto.
Qed.
Lemma chain_cases : forall W n i, (i + n = List.length W)%nat ->
  (exists L, chain W n i = Ok L /\ List.length L = n /\ forall k y, nth_error L k = Some y -> node_at W (i + k) y) \/
  (chain W n i = Crash /\ exists j, (j < List.length W)%nat /\ no_node W j).
Proof.
  intros W. induction n as [|n IH]; intros i Hi.
  - left. exists []. split; auto. split; auto. intros [|k] y H; discriminate H.
  - cbn [chain]. destruct (find_row W (Z.of_nat i)) as [j|] eqn:Ej.
    2:{ right. split; auto. exists i. split; [lia|]. left; auto. }
    destruct (find_row_some _ _ _ Ej) as (w & Hw & _).
    destruct (nth_error W i) as [wi|] eqn:Ei; [|apply nth_error_None in Ei; lia].
    rewrite Hw. destruct (resolve_cases W (List.length (w_trans w)) (w_trans wi)) as [(l & El & _)|[El _]]; rewrite El; cbn [bind].
    2:{ right. split; auto. exists i. split; [lia|]. right. exists j, w, wi. auto. }
    destruct (IH (S i)) as [(L & -> & HL & HN)|[-> HB]]; [lia| |right; split; auto].
    cbn [bind]. left. eexists. split; [reflexivity|]. split; [cbn; lia|].
    intros [|k] y Hy; cbn in Hy.
    + injection Hy as <-. rewrite Nat.add_0_r. exists w, wi. cbn. repeat split; auto.
    + replace (i + S k)%nat with (S i + k)%nat by lia. auto.
Qed.

Section Mix.
  Variable v1 : bool.
  Variable rows : list frow.
  Let W := map (row_of_v v1) rows.
  Hypothesis targets : forall r t, In r rows -> In t (f_trans r) -> 0 <= t < Z.of_nat (List.length rows).
  Lemma nth_W : forall k w, nth_error W k = Some w -> exists r, nth_error rows k = Some r /\ w = row_of_v v1 r.
  Proof.
    intros k w H. unfold W in H. rewrite nth_error_map in H. destruct (nth_error rows k) as [r|]; [|discriminate].
    injection H as <-. eauto.
  Qed.
  Lemma missing : forall t, 0 <= t < Z.of_nat (List.length rows) -> find_row W t = None -> unreadable rows.
  Proof.
    intros t Ht H. left. exists (Z.to_nat t). split; [lia|]. intros r Hr E. rewrite Z2Nat.id in E by lia.
    apply (find_row_none _ _ H (row_of_v v1 r)); auto. apply in_map; auto.
  Qed.
  Lemma no_node_unreadable : forall j, (j < List.length W)%nat -> no_node W j -> unreadable rows.
  Proof.
    intros j Hj H. assert (Hj' : (j < List.length rows)%nat) by (unfold W in Hj; rewrite map_length in Hj; auto).
    destruct H as [H|(k & w & wi & H1 & H2 & H3 & H4)].
    - apply (missing (Z.of_nat j)); auto. lia.
    - destruct (nth_W _ _ H2) as (r & Hr & ->). destruct (nth_W _ _ H3) as (ri & Hri & ->).
      destruct (resolve_cases W (List.length (w_trans (row_of_v v1 r))) (w_trans (row_of_v v1 ri)))
        as [(l & El & _)|[_ [Hl|(t & Ht & Hn)]]]; [congruence| |].
      + right. exists j, r, ri. destruct (find_row_some _ _ _ H1) as (w' & Hw' & Hid & _).
        rewrite H2 in Hw'. injection Hw' as <-. split; [eapply nth_error_In; eauto|]. auto.
      + apply (missing t); auto. apply (targets ri); auto. eapply nth_error_In; eauto.
  Qed.
  Lemma chain_mix : (exists L, chain W (List.length W) 0 = Ok L /\
      (List.length L = List.length rows /\ NoDup (map l_addr L) /\
       forall i y, nth_error L i = Some y -> exists r ri, In r rows /\ f_id r = Z.of_nat i /\ nth_error rows i = Some ri /\
         l_init y = Some (v1 && f_init r) /\ l_state y = f_state r /\ l_mode y = f_mode r /\ l_rgrad y = f_rgrad r /\
         (List.length (f_trans r) <= List.length (f_trans ri))%nat /\
         Forall2 (fun t b => exists y', nth_error L (Z.to_nat t) = Some y' /\ l_addr y' = b)
           (firstn (List.length (f_trans r)) (f_trans ri)) (l_trans y))) \/
    (chain W (List.length W) 0 = Crash /\ unreadable rows).
  Proof.
    destruct (chain_cases W (List.length W) 0 eq_refl) as [(L & E & HL & HN)|[E (j & Hj & HB)]].
    2:{ right. split; auto. apply (no_node_unreadable j); auto. }
    left. exists L. split; auto. assert (HLr : List.length L = List.length rows) by (rewrite HL; apply map_length).
    split; auto. split.
    - apply NoDup_nth_error. intros a b Ha Eab. rewrite map_length in Ha.
      destruct (nth_error L a) as [ya|] eqn:Eya; [|apply nth_error_None in Eya; lia].
      rewrite !nth_error_map, Eya in Eab. cbn in Eab.
      destruct (nth_error L b) as [yb|] eqn:Eyb; [|discriminate]. cbn in Eab. injection Eab as Eab.
      destruct (HN _ _ Eya) as (w & _ & Fa & Wa & _). destruct (HN _ _ Eyb) as (w' & _ & Fb & Wb & _).
      cbn [plus] in *. destruct (find_row_some _ _ _ Fa) as (u & Hu & Ia & _).
      destruct (find_row_some _ _ _ Fb) as (u' & Hu' & Ib & _). rewrite Eab in Hu. rewrite Hu in Hu'. injection Hu' as <-. lia.
    - intros i y Hy. destruct (HN _ _ Hy) as (w & wi & Ff & Hw & Hwi & E1 & E2 & E3 & E4 & Er). cbn [plus] in *.
      destruct (nth_W _ _ Hw) as (r & Hr & ->). destruct (nth_W _ _ Hwi) as (ri & Hri & ->).
      exists r, ri. split; [eapply nth_error_In; eauto|].
      destruct (find_row_some _ _ _ Ff) as (u & Hu & Iu & _). rewrite Hw in Hu. injection Hu as <-.
      split; [exact Iu|]. split; auto. split; auto. split; auto. split; auto. split; auto.
      cbn [w_trans row_of_v] in Er.
      destruct (resolve_cases W (List.length (f_trans r)) (f_trans ri)) as [(l & El & Hn & HF)|[El _]]; [|congruence].
      rewrite El in Er. injection Er as <-. split; auto.
      assert (Ht : forall t, In t (firstn (List.length (f_trans r)) (f_trans ri)) -> 0 <= t < Z.of_nat (List.length rows)).
      { intros t Ht. apply (targets ri); [eapply nth_error_In; eauto|].
        rewrite <- (firstn_skipn (List.length (f_trans r)) (f_trans ri)). apply in_app_iff; auto. }
      revert Ht HF. generalize (firstn (List.length (f_trans r)) (f_trans ri)) l. clear - HN HLr.
      induction l as [|t ts IH]; intros l Ht HF; inversion HF; subst; constructor; auto.
      2:{ apply IH; auto. intros; apply Ht; right; auto. }
      specialize (Ht t (or_introl eq_refl)).
      destruct (nth_error L (Z.to_nat t)) as [y'|] eqn:Ey'; [|apply nth_error_None in Ey'; lia].
      exists y'. split; auto. destruct (HN _ _ Ey') as (_ & _ & Ff & _). cbn [plus] in Ff.
      rewrite Z2Nat.id in Ff by lia. congruence.
  Qed.
End Mix.

(** ** Files *)
Lemma good_row_ok : forall n N r, Z.of_nat N < 2 ^ 31 -> good_row n N r -> row_ok (Z.to_nat n) r.
Proof.
  intros n N r HN (H1 & H2 & H3 & H4 & H5 & H6). unfold row_ok.
  split; auto. split; [lia|]. split; auto. split; auto. split; auto.
  intros z Hz. apply H6 in Hz. unfold int_ok. lia.
Qed.
Lemma load_mix : forall state_len pre ls, good_file state_len pre ls ->
  (exists L, aut_aut_loadver state_len (file_text pre ls) = Ok (Some (L, 1)) /\ mixes (rows_of ls) L) \/
  (aut_aut_loadver state_len (file_text pre ls) = Crash /\ unreadable (rows_of ls)).
Proof.
  intros state_len pre ls (Hn & Hp & Hne & HN & Hc & Hr & Hs). unfold aut_aut_loadver, file_text in *.
  rewrite (proj2 (Z.ltb_ge _ _)) by lia.
  pose proof (load_rows true (Z.to_nat state_len) pre ls) as HL. rewrite lines_text_v1 in HL.
  cbn iota in HL. change (zdec 1) with "1"%string in HL.
  rewrite HL; auto; [|intros r H; eapply good_row_ok; eauto]. clear HL.
  cbn [bind]. destruct (map (row_of_v true) (rows_of ls)) as [|w W] eqn:EW.
  { apply map_eq_nil in EW. congruence. }
  rewrite <- EW. destruct (chain_mix true (rows_of ls)) as [(L & -> & HL)|[-> HB]].
  - intros r t H Ht. destruct (Hr r H) as (_ & _ & _ & _ & _ & H6). auto.
  - left. exists L. split; auto.
  - right. auto.
Qed.
Lemma load_in_order : forall state_len pre ls, good_file state_len pre ls ->
  (forall i r, nth_error (rows_of ls) i = Some r -> f_id r = Z.of_nat i) ->
  exists L, aut_aut_loadver state_len (file_text pre ls) = Ok (Some (L, 1)) /\ says (rows_of ls) L.
Proof.
  intros state_len pre ls H Ho. destruct (load_mix _ _ _ H) as [(L & E & HL & HD & HM)|[_ HB]].
  - exists L. split; auto. split; auto. split; auto. intros i y Hy.
    destruct (HM i y Hy) as (r & ri & H1 & H2 & H3 & H4 & H5 & H6 & H7 & _ & H8). exists r.
    assert (r = ri) as ->.
    { apply In_nth_error in H1. destruct H1 as [k Hk]. pose proof (Ho _ _ Hk) as Ek. rewrite H2 in Ek.
      apply Nat2Z.inj in Ek. subst k. congruence. }
    rewrite firstn_all in H8. repeat split; auto.
  - exfalso. destruct HB as [(i & Hi & HB)|(i & r & ri & H1 & H2 & H3 & H4)].
    + destruct (nth_error (rows_of ls) i) as [r|] eqn:Er; [|apply nth_error_None in Er; lia].
      apply (HB r); [eapply nth_error_In; eauto|]. apply Ho; auto.
    + apply In_nth_error in H1. destruct H1 as [k Hk]. pose proof (Ho _ _ Hk) as Ek. rewrite H2 in Ek.
      apply Nat2Z.inj in Ek. subst k. rewrite H3 in Hk. injection Hk as <-. lia.
Qed.

(** ** Dump, then load *)
Fixpoint rows_from (A : aut) (nodes : aut) (c : nat) : list frow :=
  match nodes with
  | [] => []
  | x :: r => FRow (Z.of_nat c) (astate x) (ainit x) (amode x) (argrad x) (map (anode_index A) (atrans x)) ::
              rows_from A r (S c)
  end.
Lemma take_state_all : forall st, take_state (List.length st) st = Ok st.
Proof. induction st; cbn; auto. rewrite IHst. reflexivity. Qed.
Lemma dump_nodes_ok : forall A n v1 nodes c, (forall x, In x nodes -> List.length (astate x) = n) ->
  dump_nodes A n v1 nodes (Z.of_nat c) = Ok (lines_text_v v1 (map FNode (rows_from A nodes c))).
Proof.
  intros A n v1. induction nodes as [|x nodes IH]; intros c H; [reflexivity|]. cbn [dump_nodes rows_from map].
  rewrite <- (H x (or_introl eq_refl)) at 1. rewrite take_state_all. cbn [bind].
  replace (Z.of_nat c + 1) with (Z.of_nat (S c)) by lia. rewrite IH by (intros; apply H; right; auto).
  cbn [bind]. f_equal. cbn [lines_text_v line_text_v]. unfold row_text_v.
  cbn [f_id f_state f_init f_mode f_rgrad f_trans]. unfold mid. rewrite !string_app_assoc. reflexivity.
Qed.
Lemma rows_from_nth : forall A nodes c i r, nth_error (rows_from A nodes c) i = Some r ->
  exists x, nth_error nodes i = Some x /\
    r = FRow (Z.of_nat (c + i)) (astate x) (ainit x) (amode x) (argrad x) (map (anode_index A) (atrans x)).
Proof.
  intros A. induction nodes as [|x nodes IH]; intros c i r H; [destruct i; discriminate|].
  destruct i as [|i]; cbn in H.
  - injection H as <-. exists x. rewrite Nat.add_0_r. auto.
  - destruct (IH _ _ _ H) as (x' & H1 & H2). exists x'. split; auto. rewrite H2. do 2 f_equal. lia.
Qed.
Lemma rows_from_length : forall A nodes c, List.length (rows_from A nodes c) = List.length nodes.
Proof. induction nodes; intros; cbn; auto. Qed.
Lemma rows_of_nodes : forall l, rows_of (map FNode l) = l.
Proof. induction l; cbn; congruence. Qed.
Lemma index_from_ok : forall A a c, In a (map aid A) -> exists k x, anode_index_from A a c = c + Z.of_nat k /\
  nth_error A k = Some x /\ aid x = a.
Proof.
  induction A as [|x A IH]; intros a c H; [destruct H|]. cbn [anode_index_from].
  destruct (Nat.eqb_spec (aid x) a) as [E|E].
  - exists O, x. split; [lia|]. auto.
  - destruct H as [H|H]; [congruence|]. destruct (IH a (c + 1) H) as (k & x' & H1 & H2 & H3).
    exists (S k), x'. split; [rewrite H1; lia|]. auto.
Qed.
Lemma index_ok : forall A a, In a (map aid A) -> exists k x, anode_index A a = Z.of_nat k /\
  nth_error A k = Some x /\ aid x = a.
Proof. intros. destruct (index_from_ok A a 0 H) as (k & x & H1 & H2). exists k, x. split; auto. Qed.

Lemma dump_load : forall (v1 : bool) state_len A, writable state_len A ->
  exists text, aut_aut_dumpver A state_len (if v1 then 1 else 0) = Ok (text, 0) /\
    (short_lines text -> exists L, aut_aut_loadver state_len text = Ok (Some (L, if v1 then 1 else 0)) /\
       same_aut (fun x => Some (v1 && ainit x)) A L).
Proof.
  intros v1 state_len A (Hne & Hn & Hd & HN & Hx).
  assert (Hlen : forall x, In x A -> List.length (astate x) = Z.to_nat state_len).
  { intros x H. destruct (Hx x H) as (H1 & _). lia. }
  set (rows := rows_from A A 0).
  exists (zdec (if v1 then 1 else 0) ++ nl ++ lines_text_v v1 (map FNode rows))%string. split.
  { unfold aut_aut_dumpver. replace (((if v1 then 1 else 0) =? 0) || ((if v1 then 1 else 0) =? 1)) with true by (destruct v1; auto).
    replace ((if v1 then 1 else 0) =? 1) with v1 by (destruct v1; auto).
    rewrite (dump_nodes_ok A (Z.to_nat state_len) v1 A 0 : _ -> dump_nodes A _ v1 A 0 = _) by auto. reflexivity. }
  intros Hs. unfold aut_aut_loadver. rewrite (proj2 (Z.ltb_ge _ _)) by lia.
  assert (Ht : forall r t, In r rows -> In t (f_trans r) -> 0 <= t < Z.of_nat (List.length rows)).
  { intros r t Hr Ht. apply In_nth_error in Hr. destruct Hr as [k Hk].
    destruct (rows_from_nth _ _ _ _ _ Hk) as (x & Hxk & ->). cbn [f_trans] in Ht.
    apply in_map_iff in Ht. destruct Ht as (a & <- & Ha). apply nth_error_In in Hxk.
    destruct (Hx x Hxk) as (_ & _ & _ & _ & Hi). destruct (index_ok A a (Hi a Ha)) as (j & x' & -> & Hj & _).
    unfold rows. rewrite rows_from_length. assert (j < List.length A)%nat by (apply nth_error_Some; congruence). lia. }
  assert (Hr : forall r, In r (rows_of (map FNode rows)) -> row_ok (Z.to_nat state_len) r).
  { intros r Hr. rewrite rows_of_nodes in Hr. pose proof (Ht r) as Htr. specialize (fun t => Htr t Hr).
    apply In_nth_error in Hr. destruct Hr as [k Hk].
    assert (Hk' : (k < List.length A)%nat). { rewrite <- (rows_from_length A A 0). apply nth_error_Some. fold rows. congruence. }
    destruct (rows_from_nth _ _ _ _ _ Hk) as (x & Hxk & ->). pose proof (nth_error_In _ _ Hxk) as Hin.
    destruct (Hx x Hin) as (H1 & H2 & H3 & H4 & _). unfold row_ok. cbn [f_id f_state f_mode f_rgrad f_trans] in *.
    split; [unfold int_ok; lia|]. split; auto. split; auto. split; auto. split; auto.
    intros z Hz. specialize (Htr z Hz). unfold rows in Htr. rewrite rows_from_length in Htr. unfold int_ok. lia. }
  pose proof (load_rows v1 (Z.to_nat state_len) [] (map FNode rows)) as HL. cbn [lines_text String.append app] in HL.
  rewrite HL; auto; clear HL.
  2:{ intros s H. apply in_map_iff in H. destruct H as (? & H & _). discriminate H. }
  cbn [bind]. rewrite rows_of_nodes. destruct (map (row_of_v v1) rows) as [|w W] eqn:EW.
  { apply map_eq_nil in EW. unfold rows in EW. destruct A; [congruence|discriminate EW]. }
  rewrite <- EW. clear w W EW.
  assert (Ho : forall i r, nth_error rows i = Some r -> f_id r = Z.of_nat i).
  { intros i r H. destruct (rows_from_nth _ _ _ _ _ H) as (x & _ & ->). reflexivity. }
  destruct (chain_mix v1 rows Ht) as [(L & -> & HL & HD & HM)|[_ HB]]; cbn [bind].
  2:{ exfalso. destruct HB as [(i & Hi & HB)|(i & r & ri & H1 & H2 & H3 & H4)].
      - destruct (nth_error rows i) as [r|] eqn:Er; [|apply nth_error_None in Er; lia].
        apply (HB r); [eapply nth_error_In; eauto|]. apply Ho; auto.
      - apply In_nth_error in H1. destruct H1 as [k Hk]. pose proof (Ho _ _ Hk) as Ek. rewrite H2 in Ek.
        apply Nat2Z.inj in Ek. subst k. rewrite H3 in Hk. injection Hk as <-. lia. }
  exists L. split; [reflexivity|]. split; auto.
  assert (HLA : List.length L = List.length A) by (rewrite HL; apply rows_from_length).
  assert (Hnode : forall i x y, nth_error A i = Some x -> nth_error L i = Some y -> same_node A L (fun x => Some (v1 && ainit x)) x y).
  { intros i x y Hi Hy. destruct (HM i y Hy) as (r & ri & H1 & H2 & H3 & H4 & H5 & H6 & H7 & _ & H8).
    assert (r = ri) as ->.
    { apply In_nth_error in H1. destruct H1 as [k Hk]. pose proof (Ho _ _ Hk) as Ek. rewrite H2 in Ek.
      apply Nat2Z.inj in Ek. subst k. congruence. }
    destruct (rows_from_nth _ _ _ _ _ H3) as (x' & Hx' & ->). rewrite Hi in Hx'. injection Hx' as <-.
    cbn [f_init f_state f_mode f_rgrad f_trans] in *. rewrite firstn_all in H8.
    split; auto. split; auto. split; auto. split; auto.
    assert (Hin : incl (atrans x) (map aid A)) by (destruct (Hx x (nth_error_In _ _ Hi)) as (_ & _ & _ & _ & Hi'); auto).
    revert H8 Hin. generalize (atrans x) (l_trans y). clear.
    induction l as [|a l IH]; intros bs HF Hin; inversion HF; subst; constructor.
    - destruct (index_ok A a (Hin a (or_introl eq_refl))) as (k & x' & Ek & Hk & Ha).
      match goal with H : exists y', _ |- _ => destruct H as (y' & Hy' & Eb) end. rewrite Ek, Nat2Z.id in Hy'. exists k, x', y'. auto.
    - apply IH; auto. intros z Hz. apply Hin. right; auto. }
  clear - HLA Hnode. assert (HF : forall A' L', (List.length L' = List.length A') ->
    (forall i x y, nth_error A' i = Some x -> nth_error L' i = Some y -> same_node A L (fun x => Some (v1 && ainit x)) x y) ->
    Forall2 (same_node A L (fun x => Some (v1 && ainit x))) A' L').
  { induction A' as [|x A' IH]; intros [|y L'] Hl H; try discriminate; constructor.
    - apply (H O); reflexivity.
    - apply IH; [cbn in Hl; lia|]. intros i x' y' H1 H2. apply (H (S i)); auto. }
  apply HF; auto.
Qed.

(** ** When lines are short *)
Lemma dec_aux_len : forall f n acc k, 0 <= n < 10 ^ Z.of_nat (S k) ->
  (String.length (dec_aux f n acc) <= S k + String.length acc)%nat.
Proof.
  induction f; intros n acc k H; cbn [dec_aux]; [lia|].
  destruct (n / 10 =? 0) eqn:E; [cbn; lia|]. apply Z.eqb_neq in E.
  assert (Hd : 0 <= n / 10) by (apply Z.div_pos; lia).
  destruct k as [|k]; [exfalso; apply E; apply Z.div_small; cbn in H; lia|].
  eapply Nat.le_trans; [apply (IHf _ _ k)|cbn; lia]. split; auto.
  apply Z.div_lt_upper_bound; [lia|]. rewrite Nat2Z.inj_succ, Z.pow_succ_r in H by lia. lia.
Qed.
Lemma zdec_int_len : forall n, int_ok n -> (String.length (zdec n) <= 11)%nat.
Proof.
  intros n H. unfold int_ok in H. unfold zdec. destruct (n <? 0) eqn:E.
  - apply Z.ltb_lt in E. cbn [String.append String.length]. unfold dec_pos.
    pose proof (dec_aux_len (S (Z.to_nat (Z.log2 (- n)))) (- n) "" 9) as HL. cbn [String.length] in HL.
    rewrite Nat.add_0_r in HL. apply le_n_S. apply HL. split; [lia|]. cbn. lia.
  - apply Z.ltb_ge in E. unfold dec_pos.
    pose proof (dec_aux_len (S (Z.to_nat (Z.log2 n))) n "" 9) as HL. cbn [String.length] in HL.
    rewrite Nat.add_0_r in HL. eapply Nat.le_trans; [apply HL; split; [lia|cbn; lia]|lia].
Qed.
Lemma prefix_len : forall x l b rest, (x ++ b)%string = (l ++ nl ++ rest)%string -> has_newline x = false ->
  (String.length x <= String.length l)%nat.
Proof.
  induction x as [|c x IH]; intros l b rest H Hx; [cbn; lia|]. cbn [has_newline] in Hx.
  apply orb_false_iff in Hx. destruct Hx as [Hc Hx]. destruct l as [|d l]; cbn [String.append nl] in H.
  - injection H as -> _. discriminate Hc.
  - injection H as -> H. cbn [String.length]. apply le_n_S. apply (IH l b rest); auto.
Qed.
Lemma short_cons : forall l rest, Z.of_nat (String.length l) < 4095 -> short_lines rest -> short_lines (l ++ nl ++ rest).
Proof.
  intros l rest Hl Hr a. revert l Hl. induction a as [|c a IH]; intros l Hl x b H Hx.
  - symmetry in H. apply (prefix_len x l b rest) in H; auto. lia.
  - destruct l as [|d l]; cbn [String.append nl] in H.
    + injection H as _ H. apply (Hr a x b); auto.
    + injection H as _ H. cbn [String.length] in Hl. apply (IH l) with (b := b); auto. lia.
Qed.
Lemma sps_int_len : forall l, ints l -> (String.length (sps l) <= 12 * List.length l)%nat.
Proof.
  induction l as [|z l IH]; intros H; cbn [sps List.length]; [cbn; lia|].
  rewrite length_app. unfold sp. cbn [String.append String.length].
  assert (String.length (zdec z) <= 11)%nat by (apply zdec_int_len; apply H; left; auto).
  assert (String.length (sps l) <= 12 * List.length l)%nat by (apply IH; intros y Hy; apply H; right; auto). lia.
Qed.
Lemma row_len : forall v1 n r, row_ok n r ->
  (String.length (row_text_v v1 r) <= 12 * (n + List.length (f_trans r) + 4))%nat.
Proof.
  intros v1 n r (H1 & H2 & H3 & H4 & H5 & H6). unfold row_text_v. rewrite !length_app.
  pose proof (zdec_int_len _ H1). pose proof (sps_int_len _ H3) as Hs. rewrite H2 in Hs.
  pose proof (sps_int_len _ H6). assert (Hm : ints [f_mode r; f_rgrad r]) by (intros z [<-|[<-|[]]]; auto).
  pose proof (sps_int_len _ Hm) as Hm2. cbn [List.length] in Hm2.
  assert (String.length (mid v1 (f_init r)) <= 2)%nat by (destruct v1; destruct (f_init r); cbn; lia). lia.
Qed.
Lemma dump_short : forall (v1 : bool) state_len A, writable state_len A ->
  (forall x, In x A -> 12 * (state_len + Z.of_nat (List.length (atrans x)) + 4) < 4095) ->
  forall text r, aut_aut_dumpver A state_len (if v1 then 1 else 0) = Ok (text, r) -> short_lines text.
Proof.
  intros v1 state_len A (Hne & Hn & Hd & HN & Hx) Hb text r0 E.
  assert (Hlen : forall x, In x A -> List.length (astate x) = Z.to_nat state_len).
  { intros x H. destruct (Hx x H) as (H1 & _). lia. }
  unfold aut_aut_dumpver in E. replace (((if v1 then 1 else 0) =? 0) || ((if v1 then 1 else 0) =? 1)) with true in E by (destruct v1; auto).
  replace ((if v1 then 1 else 0) =? 1) with v1 in E by (destruct v1; auto).
  rewrite (dump_nodes_ok A (Z.to_nat state_len) v1 A 0 : _ -> dump_nodes A _ v1 A 0 = _) in E by auto.
  cbn [bind] in E. injection E as <- _. apply short_cons; [destruct v1; cbn; lia|].
  assert (Hg : forall nodes c, incl nodes A -> (c + List.length nodes <= List.length A)%nat ->
    short_lines (lines_text_v v1 (map FNode (rows_from A nodes c)))).
  2:{ apply Hg; [intros z Hz; auto|lia]. }
  induction nodes as [|x nodes IH]; intros c Hi Hc.
  - intros a l b H _. destruct a, l, b; try discriminate H; cbn; lia.
  - cbn [rows_from map lines_text_v]. apply short_cons.
    2:{ apply IH; [intros z Hz; apply Hi; right; auto|cbn in Hc; lia]. }
    cbn [line_text_v]. assert (HA : In x A) by (apply Hi; left; auto).
    destruct (Hx x HA) as (H1 & H2 & H3 & H4 & H5).
    pose proof (row_len v1 (Z.to_nat state_len)
      (FRow (Z.of_nat c) (astate x) (ainit x) (amode x) (argrad x) (map (anode_index A) (atrans x)))) as HL.
    cbn [f_trans] in HL. rewrite map_length in HL. specialize (Hb x HA). cbn [List.length] in Hc.
    assert (HR : row_ok (Z.to_nat state_len)
      (FRow (Z.of_nat c) (astate x) (ainit x) (amode x) (argrad x) (map (anode_index A) (atrans x)))).
    { unfold row_ok. cbn [f_id f_state f_mode f_rgrad f_trans]. split; [unfold int_ok; lia|].
      split; auto. split; auto. split; auto. split; auto. intros z Hz. apply in_map_iff in Hz.
      destruct Hz as (a & <- & Ha). destruct (index_ok A a (H5 a Ha)) as (j & x' & -> & Hj & _).
      assert (j < List.length A)%nat by (apply nth_error_Some; congruence). unfold int_ok. lia. }
    specialize (HL HR). lia.
Qed.

(** a file without a version line *)
Lemma read_line_noversion : forall n r, row_ok n r -> (0 < n)%nat ->
  read_line n (-1) (row_text_v false r ++ nl) = read_line n 0 (row_text_v false r ++ nl).
Proof.
  intros n r (_ & Hn & _) Hpos. unfold read_line, row_text_v. rewrite !string_app_assoc.
  rewrite strtol_zdec by (apply nodig_sps; reflexivity).
  change (-1 <? 0) with true. change (0 <? 0) with false. cbn [andb].
  destruct (f_state r) as [|v l]; [cbn in Hn; lia|]. reflexivity.
Qed.
Lemma dump_noversion : forall state_len A, writable state_len A ->
  exists body, aut_aut_dumpver A state_len 0 = Ok (("0" ++ nl ++ body)%string, 0) /\
    (short_lines ("0" ++ nl ++ body) ->
     aut_aut_loadver state_len body = aut_aut_loadver state_len ("0" ++ nl ++ body)).
Proof.
  intros state_len A HW. pose proof HW as (Hne & Hn & Hd & HN & Hx).
  assert (Hlen : forall x, In x A -> List.length (astate x) = Z.to_nat state_len).
  { intros x H. destruct (Hx x H) as (H1 & _). lia. }
  set (rows := rows_from A A 0).
  exists (lines_text_v false (map FNode rows)). split.
  { unfold aut_aut_dumpver. change ((0 =? 0) || (0 =? 1)) with true. change (0 =? 1) with false.
    rewrite (dump_nodes_ok A (Z.to_nat state_len) false A 0 : _ -> dump_nodes A _ false A 0 = _) by auto.
    reflexivity. }
  intros Hs. unfold aut_aut_loadver. rewrite (proj2 (Z.ltb_ge _ _)) by lia.
  change ("0" ++ nl ++ lines_text_v false (map FNode rows))%string with
    (zdec (if false then 1 else 0) ++ nl ++ lines_text_v false (map FNode rows))%string in *.
  rewrite (read_version false) by auto.
  replace (read_lines (Z.to_nat state_len) (-1) [] (fgets_lines (lines_text_v false (map FNode rows))))
    with (read_lines (Z.to_nat state_len) 0 [] (fgets_lines (lines_text_v false (map FNode rows)))); auto.
  rewrite <- string_app_assoc in Hs. apply short_tail in Hs.
  destruct A as [|x A]; [congruence|]. unfold rows in *. cbn [rows_from map lines_text_v line_text_v] in *.
  rewrite short_head; auto using row_newline. cbn [read_lines]. rewrite row_not_skipped.
  set (r := FRow (Z.of_nat 0) (astate x) (ainit x) (amode x) (argrad x) (map (anode_index (x :: A)) (atrans x))).
  assert (E : read_line (Z.to_nat state_len) (-1) (row_text_v false r ++ nl) =
              read_line (Z.to_nat state_len) 0 (row_text_v false r ++ nl)).
  { apply read_line_noversion; [|lia]. destruct (Hx x (or_introl eq_refl)) as (H1 & H2 & H3 & H4 & H5).
    unfold row_ok, r. cbn [f_id f_state f_mode f_rgrad f_trans].
    split; [unfold int_ok; lia|]. split; [lia|]. split; auto. split; auto. split; auto.
    intros z Hz. apply in_map_iff in Hz. destruct Hz as (a & <- & Ha).
    destruct (index_ok (x :: A) a (H5 a Ha)) as (j & x' & -> & Hj & _).
    assert (j < List.length (x :: A))%nat by (apply nth_error_Some; congruence). unfold int_ok. lia. }
  rewrite E. reflexivity.
Qed.
