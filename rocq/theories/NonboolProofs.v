(** The preparation of a specification, on the level of formulas. *)
From Coq Require Import List ZArith Lia Bool Arith String.
From Verif Require Import Base Strs Ptree Form Solve FSpec Nonbool RSpec PtreeProofs ExpProofs SolveProofs.
Import ListNotations.
Open Scope string_scope.
Open Scope list_scope.
Open Scope Z_scope.

Lemma nbits_width : forall d, 0 <= d -> nbits d = width d.
Proof.
  intros d H. unfold nbits, width, ceil_log2. destruct (0 <? d) eqn:E.
  - apply Z.ltb_lt in E. assert (0 < Z.log2_up (d + 1)) by (apply Z.log2_up_pos; lia). lia.
  - apply Z.ltb_ge in E. assert (d = 0) by lia. subst. reflexivity.
Qed.
Lemma maxbitval_eq : forall d, 0 <= d -> maxbitval d = 2 ^ nbits d.
Proof.
  intros d H. unfold maxbitval, nbits. destruct (0 <? d); reflexivity.
Qed.
Lemma tree_of_nn : forall f, tree_of f <> NULL.
Proof. intros f; destruct f; discriminate. Qed.

(** ** Formulas of a specification *)
Definition map_forms (g : form -> form) (R : rspec) : rspec := {|
  rs_evars := rs_evars R; rs_svars := rs_svars R;
  rs_einit := option_map g (rs_einit R); rs_sinit := option_map g (rs_sinit R);
  rs_etrans := map g (rs_etrans R); rs_strans := map g (rs_strans R);
  rs_egoals := map g (rs_egoals R); rs_sgoals := map g (rs_sgoals R) |}.
Definition opt_list (o : option form) : list form := match o with None => [] | Some f => [f] end.
Definition all_forms (R : rspec) : list form :=
  opt_list (rs_sinit R) ++ opt_list (rs_einit R) ++ rs_etrans R ++ rs_strans R ++ rs_egoals R ++ rs_sgoals R.
Lemma opt_list_map : forall g o, opt_list (option_map g o) = map g (opt_list o).
Proof. intros g []; reflexivity. Qed.
Lemma all_forms_map : forall g R, all_forms (map_forms g R) = map g (all_forms R).
Proof. intros. unfold all_forms, map_forms. simpl. rewrite !map_app, !opt_list_map. reflexivity. Qed.
Lemma map_forms_comp : forall g g' R, map_forms g' (map_forms g R) = map_forms (fun f => g' (g f)) R.
Proof.
  intros g g' R. unfold map_forms. simpl. rewrite !map_map.
  destruct (rs_einit R), (rs_sinit R); reflexivity.
Qed.
Lemma map_forms_ext : forall g g' R, (forall f, g f = g' f) -> map_forms g R = map_forms g' R.
Proof.
  intros g g' R H. unfold map_forms. f_equal; try (apply map_ext; auto).
  - destruct (rs_einit R); simpl; congruence.
  - destruct (rs_sinit R); simpl; congruence.
Qed.
Lemma map_forms_id : forall R, map_forms (fun f => f) R = R.
Proof.
  intros [ev sv ei si et st eg sg]. unfold map_forms. simpl. rewrite !map_id. destruct ei, si; reflexivity.
Qed.

(** ** Blocking values out of the domain *)
Definition f_or_true (o : option form) : form := match o with None => FTrue | Some f => f end.
Definition blocker (x : string) (d : Z) (p : bool) : form := unreach x p (d + 1) (maxbitval d - 1).
Definition fblock_env (flags : init_flags_t) (x : string) (d : Z) (R : rspec) : rspec :=
  if d <? maxbitval d - 1 then
    let on_sys := is_one_side flags && match rs_sinit R with None => false | _ => true end in
    {| rs_evars := rs_evars R; rs_svars := rs_svars R;
       rs_einit := if on_sys then rs_einit R else Some (FAnd (f_or_true (rs_einit R)) (blocker x d false));
       rs_sinit := if on_sys then Some (FAnd (f_or_true (rs_sinit R)) (blocker x d false)) else rs_sinit R;
       rs_etrans := rs_etrans R ++ [blocker x d false; blocker x d true];
       rs_strans := rs_strans R;
       rs_egoals := rs_egoals R; rs_sgoals := rs_sgoals R |}
  else R.
Definition fblock_sys (flags : init_flags_t) (x : string) (d : Z) (R : rspec) : rspec :=
  if d <? maxbitval d - 1 then
    let on_env := is_one_side flags && match rs_sinit R with None => true | _ => false end in
    {| rs_evars := rs_evars R; rs_svars := rs_svars R;
       rs_einit := if on_env then Some (FAnd (f_or_true (rs_einit R)) (blocker x d false)) else rs_einit R;
       rs_sinit := if on_env then rs_sinit R else Some (FAnd (f_or_true (rs_sinit R)) (blocker x d false));
       rs_etrans := rs_etrans R;
       rs_strans := rs_strans R ++ [blocker x d false; blocker x d true];
       rs_egoals := rs_egoals R; rs_sgoals := rs_sgoals R |}
  else R.
Definition fblock_all (block : string -> Z -> rspec -> rspec) (vs : list vdecl) (R : rspec) : rspec :=
  fold_left (fun R v => if snd v =? -1 then R else block (fst v) (snd v) R) vs R.

Lemma is_null_opt : forall o, is_null (opt_tree o) = match o with None => true | _ => false end.
Proof. intros [f|]; auto. simpl. pose proof (tree_of_nn f). destruct (tree_of f); [congruence|reflexivity]. Qed.
Lemma or_true_opt : forall o, or_true (opt_tree o) = tree_of (f_or_true o).
Proof.
  intros [f|]; auto. simpl. pose proof (tree_of_nn f). unfold or_true.
  destruct (tree_of f); [congruence|reflexivity].
Qed.
Lemma blocker_tree : forall x d (p : bool), d < maxbitval d - 1 ->
  unreach_expanded_bool x (d + 1) (maxbitval d - 1) (if p then PT_NEXT_VARIABLE else PT_VARIABLE) =
  tree_of (blocker x d p).
Proof. intros. apply unreach_tree. lia. Qed.
Lemma and_tree_of : forall f g, and_tree (tree_of f) (tree_of g) = tree_of (FAnd f g).
Proof. reflexivity. Qed.
Lemma block_env_raw : forall flags x d R, block_env flags x d (raw_of R) = raw_of (fblock_env flags x d R).
Proof.
  intros flags x d R. unfold block_env, fblock_env. destruct (d <? maxbitval d - 1) eqn:E; auto.
  apply Z.ltb_lt in E. cbn [raw_of r_sinit r_einit r_evars r_svars r_etrans r_strans r_egoals r_sgoals].
  pose proof (blocker_tree x d false E) as B1. pose proof (blocker_tree x d true E) as B2. simpl in B1, B2.
  rewrite is_null_opt, B1, B2, or_true_opt, and_tree_of.
  unfold raw_of. cbn [rs_evars rs_svars rs_einit rs_sinit rs_etrans rs_strans rs_egoals rs_sgoals].
  rewrite map_app. destruct (is_one_side flags), (rs_sinit R); cbn [andb negb]; reflexivity.
Qed.
Lemma block_sys_raw : forall flags x d R, block_sys flags x d (raw_of R) = raw_of (fblock_sys flags x d R).
Proof.
  intros flags x d R. unfold block_sys, fblock_sys. destruct (d <? maxbitval d - 1) eqn:E; auto.
  apply Z.ltb_lt in E. cbn [raw_of r_sinit r_einit r_evars r_svars r_etrans r_strans r_egoals r_sgoals].
  pose proof (blocker_tree x d false E) as B1. pose proof (blocker_tree x d true E) as B2. simpl in B1, B2.
  rewrite is_null_opt, B1, B2, !or_true_opt, !and_tree_of.
  unfold raw_of. cbn [rs_evars rs_svars rs_einit rs_sinit rs_etrans rs_strans rs_egoals rs_sgoals].
  rewrite map_app. destruct (is_one_side flags), (rs_sinit R); cbn [andb negb]; reflexivity.
Qed.
Lemma block_all_raw : forall blk fblk, (forall x d R, blk x d (raw_of R) = raw_of (fblk x d R)) ->
  forall vs R, block_all blk (vlist vs) (raw_of R) = Ok (raw_of (fblock_all fblk vs R)).
Proof.
  intros blk fblk H. induction vs as [|[x d] vs IH]; intros R; auto.
  cbn [vlist block_all]. unfold fblock_all. cbn [fold_left fst snd].
  destruct (d =? -1); [apply IH|]. rewrite H. apply IH.
Qed.

(** ** Expansion of all formulas *)
Definition expandS (vs : list vdecl) (f : form) : form :=
  fold_left (fun f v => if 0 <=? snd v then expand1 (fst v) (snd v) f else f) vs f.

Lemma bad_ne_boolean : forall x d f, boolean f = true -> bad_ne x d f = false.
Proof.
  induction f; simpl; intros H; auto; try discriminate;
    apply andb_true_iff in H; destruct H; rewrite IHf1, IHf2; auto.
Qed.
Lemma bad_ne_expand1 : forall y e, 0 <= e -> forall x d f, bad_ne x d f = false ->
  bad_ne x d (expand1 y e f) = false.
Proof.
  intros y e He x d. induction f; intros H; cbn [expand1 bad_ne] in *; auto.
  - destruct (String.eqb x0 y); auto. apply bad_ne_boolean. apply pure_cmp; auto.
  - apply orb_false_iff in H. destruct H. rewrite IHf1, IHf2; auto.
  - apply orb_false_iff in H. destruct H. rewrite IHf1, IHf2; auto.
  - apply orb_false_iff in H. destruct H. rewrite IHf1, IHf2; auto.
  - apply orb_false_iff in H. destruct H. rewrite IHf1, IHf2; auto.
Qed.

Lemma expand_opt_ok : forall x d f fuel, 0 <= d -> bad_ne x d f = false -> (fuel_for d f <= fuel)%nat ->
  expand_opt fuel (tree_of f) x d = Ok (Some (tree_of (expand1 x d f))).
Proof.
  intros. unfold expand_opt. rewrite etb_ok by auto. cbn [bind].
  pose proof (tree_of_nn (expand1 x d f)). destruct (tree_of (expand1 x d f)); [congruence|reflexivity].
Qed.
Lemma expand_init_ok : forall x d o fuel, 0 <= d ->
  (forall f, In f (opt_list o) -> bad_ne x d f = false /\ (fuel_for d f <= fuel)%nat) ->
  expand_init fuel (opt_tree o) x d = Ok (Some (opt_tree (option_map (expand1 x d) o))).
Proof.
  intros x d [f|] fuel Hd H; auto. destruct (H f (or_introl eq_refl)).
  cbn [opt_tree option_map]. unfold expand_init. rewrite expand_opt_ok by auto.
  pose proof (tree_of_nn f). destruct (tree_of f); [congruence|reflexivity].
Qed.
Lemma expand_list_ok : forall x d l fuel, 0 <= d ->
  (forall f, In f l -> bad_ne x d f = false /\ (fuel_for d f <= fuel)%nat) ->
  expand_list fuel (map tree_of l) x d = Ok (Some (map tree_of (map (expand1 x d) l))).
Proof.
  intros x d l fuel Hd. induction l as [|f l IH]; intros H; auto.
  destruct (H f (or_introl eq_refl)). cbn [map expand_list]. rewrite expand_opt_ok by auto.
  cbn [bind]. rewrite IH by (intros; apply H; right; auto). reflexivity.
Qed.
Definition fuel_max (d : Z) (l : list form) : nat := fold_right (fun f m => Nat.max (fuel_for d f) m) O l.
Lemma fuel_max_In : forall d l f, In f l -> (fuel_for d f <= fuel_max d l)%nat.
Proof. induction l; simpl; intros f []; [subst; lia|]. apply IHl in H. lia. Qed.

Lemma expand_var_ok : forall x d R fuel, 0 <= d ->
  (forall f, In f (all_forms R) -> bad_ne x d f = false) -> (fuel_max d (all_forms R) <= fuel)%nat ->
  expand_var fuel x d (raw_of R) = Ok (Some (raw_of (map_forms (expand1 x d) R))).
Proof.
  intros x d R fuel Hd Hb Hf.
  assert (H : forall f, In f (all_forms R) -> bad_ne x d f = false /\ (fuel_for d f <= fuel)%nat).
  { intros f Hin. split; auto. pose proof (fuel_max_In d _ f Hin). lia. }
  unfold all_forms in H. unfold expand_var. cbn [raw_of r_sinit r_einit r_evars r_svars r_etrans r_strans r_egoals r_sgoals].
  rewrite expand_init_ok by (auto; intros; apply H; rewrite !in_app_iff; tauto). unfold obind at 1. cbn [bind].
  rewrite expand_init_ok by (auto; intros; apply H; rewrite !in_app_iff; tauto). unfold obind at 1. cbn [bind].
  rewrite expand_list_ok by (auto; intros; apply H; rewrite !in_app_iff; tauto). unfold obind at 1. cbn [bind].
  rewrite expand_list_ok by (auto; intros; apply H; rewrite !in_app_iff; tauto). unfold obind at 1. cbn [bind].
  rewrite expand_list_ok by (auto; intros; apply H; rewrite !in_app_iff; tauto). unfold obind at 1. cbn [bind].
  rewrite expand_list_ok by (auto; intros; apply H; rewrite !in_app_iff; tauto). unfold obind at 1. cbn [bind].
  reflexivity.
Qed.
Lemma expand_vars_ok : forall vs R,
  (forall x d, In (x, d) vs -> 0 <= d -> forall f, In f (all_forms R) -> bad_ne x d f = false) ->
  exists N, forall fuel, (N <= fuel)%nat ->
  expand_vars fuel (vlist vs) (raw_of R) = Ok (Some (raw_of (map_forms (expandS vs) R))).
Proof.
  induction vs as [|[x d] vs IH]; intros R H.
  - exists O. intros. cbn [vlist expand_vars]. unfold expandS. simpl. rewrite map_forms_id. reflexivity.
  - cbn [vlist expand_vars]. destruct (0 <=? d) eqn:E.
    + apply Z.leb_le in E. destruct (IH (map_forms (expand1 x d) R)) as [N HN].
      { intros y e Hy He f Hf. rewrite all_forms_map in Hf. apply in_map_iff in Hf.
        destruct Hf as (g & <- & Hg). apply bad_ne_expand1; auto. apply H; auto. right; auto. }
      exists (Nat.max N (fuel_max d (all_forms R))). intros fuel Hf.
      rewrite expand_var_ok; auto; [|intros; apply H; auto; left; auto|lia].
      unfold obind. cbn [bind]. rewrite HN by lia. rewrite map_forms_comp.
      do 3 f_equal. apply map_forms_ext. intros f. unfold expandS. cbn [fold_left fst snd].
      rewrite (proj2 (Z.leb_le 0 d)) by auto. reflexivity.
    + destruct (IH R) as [N HN]; [intros; apply (H x0 d0); auto; right; auto|].
      exists N. intros fuel Hf. rewrite HN by auto. do 3 f_equal. apply map_forms_ext.
      intros f. unfold expandS. cbn [fold_left fst snd]. rewrite E. reflexivity.
Qed.


(** ** The whole preparation *)
Definition fdefaults (R : rspec) : rspec := {|
  rs_evars := rs_evars R; rs_svars := rs_svars R; rs_einit := rs_einit R; rs_sinit := rs_sinit R;
  rs_etrans := match rs_etrans R with [] => [FTrue] | l => l end;
  rs_strans := match rs_strans R with [] => [FTrue] | l => l end;
  rs_egoals := rs_egoals R;
  rs_sgoals := match rs_sgoals R with [] => [FTrue] | l => l end |}.
Definition fblocked (flags : init_flags_t) (R : rspec) : rspec :=
  fblock_all (fblock_sys flags) (rs_svars R) (fblock_all (fblock_env flags) (rs_evars R) R).
(** the variable declarations afterwards; [b] is the domain given to a bit *)
Definition bit_decls (b : Z) (vs : list vdecl) : list vdecl :=
  flat_map (fun v => if 0 <=? snd v then map (fun y => (y, b)) (bit_names (fst v) (snd v)) else [v]) vs.
Definition and_all (l : list form) : form := match l with [] => FTrue | f :: r => chain FAnd f r end.
(** the specification handed to the solver *)
Definition solver_spec (b : Z) (flags : init_flags_t) (R : rspec) : fspec :=
  let R1 := map_forms (expandS (rs_vars R)) (fblocked flags (fdefaults R)) in
  {| fs_evars := bit_decls b (rs_evars R); fs_svars := bit_decls b (rs_svars R);
     fs_einit := rs_einit R1; fs_sinit := rs_sinit R1;
     fs_etrans := and_all (rs_etrans R1); fs_strans := and_all (rs_strans R1);
     fs_egoals := rs_egoals R1; fs_sgoals := rs_sgoals R1 |}.

Lemma fblock_all_inv : forall (P : rspec -> Prop) blk vs R,
  P R -> (forall x d R, In (x, d) vs -> d <> -1 -> P R -> P (blk x d R)) -> P (fblock_all blk vs R).
Proof.
  intros P blk vs. induction vs as [|[x d] vs IH]; intros R HR H; auto.
  unfold fblock_all. cbn [fold_left fst snd]. apply IH.
  - destruct (d =? -1) eqn:E; auto. apply Z.eqb_neq in E. apply H; auto. left; auto.
  - intros; apply H; auto. right; auto.
Qed.
Lemma fblock_env_vars : forall flags x d R,
  rs_evars (fblock_env flags x d R) = rs_evars R /\ rs_svars (fblock_env flags x d R) = rs_svars R.
Proof. intros. unfold fblock_env. destruct (d <? _); auto. Qed.
Lemma fblock_sys_vars : forall flags x d R,
  rs_evars (fblock_sys flags x d R) = rs_evars R /\ rs_svars (fblock_sys flags x d R) = rs_svars R.
Proof. intros. unfold fblock_sys. destruct (d <? _); auto. Qed.
Lemma fblock_all_vars : forall blk, (forall x d R, rs_evars (blk x d R) = rs_evars R /\ rs_svars (blk x d R) = rs_svars R) ->
  forall vs R, rs_evars (fblock_all blk vs R) = rs_evars R /\ rs_svars (fblock_all blk vs R) = rs_svars R.
Proof.
  intros blk H vs R.
  apply (fblock_all_inv (fun R' => rs_evars R' = rs_evars R /\ rs_svars R' = rs_svars R)); auto.
  intros x d R' _ _ [H1 H2]. destruct (H x d R'). split; congruence.
Qed.
Lemma fblocked_vars : forall flags R,
  rs_evars (fblocked flags R) = rs_evars R /\ rs_svars (fblocked flags R) = rs_svars R.
Proof.
  intros. unfold fblocked.
  destruct (fblock_all_vars _ (fblock_sys_vars flags) (rs_svars R) (fblock_all (fblock_env flags) (rs_evars R) R)).
  destruct (fblock_all_vars _ (fblock_env_vars flags) (rs_evars R) R). split; congruence.
Qed.

(** formulas after blocking: the old ones and blockers, combined by FAnd *)
Section Hered.
  Variable P : form -> Prop.
  Hypothesis PT : P FTrue.
  Hypothesis PA : forall f g, P f -> P g -> P (FAnd f g).
  Lemma fblock_env_hered : forall flags x d R, P (blocker x d false) -> P (blocker x d true) ->
    (forall f, In f (all_forms R) -> P f) -> forall f, In f (all_forms (fblock_env flags x d R)) -> P f.
  Proof.
    intros flags x d R B1 B2 H f Hf. unfold fblock_env in Hf.
    assert (H0 : forall o, (forall f, In f (opt_list o) -> P f) -> P (f_or_true o)).
    { intros [g|] Ho; [apply Ho; left; auto|exact PT]. }
    assert (He : forall f, In f (opt_list (rs_einit R)) -> P f).
    { intros; apply H; unfold all_forms; rewrite !in_app_iff; tauto. }
    assert (Hs : forall f, In f (opt_list (rs_sinit R)) -> P f).
    { intros; apply H; unfold all_forms; rewrite !in_app_iff; tauto. }
    destruct (d <? maxbitval d - 1); [|apply H; auto].
    unfold all_forms in Hf. cbn [rs_evars rs_svars rs_einit rs_sinit rs_etrans rs_strans rs_egoals rs_sgoals] in Hf.
    destruct (is_one_side flags && match rs_sinit R with None => false | _ => true end);
      rewrite !in_app_iff in Hf; cbn [opt_list In] in Hf;
      (intuition subst; auto); apply H; unfold all_forms; rewrite !in_app_iff; tauto.
  Qed.
  Lemma fblock_sys_hered : forall flags x d R, P (blocker x d false) -> P (blocker x d true) ->
    (forall f, In f (all_forms R) -> P f) -> forall f, In f (all_forms (fblock_sys flags x d R)) -> P f.
  Proof.
    intros flags x d R B1 B2 H f Hf. unfold fblock_sys in Hf.
    assert (H0 : forall o, (forall f, In f (opt_list o) -> P f) -> P (f_or_true o)).
    { intros [g|] Ho; [apply Ho; left; auto|exact PT]. }
    assert (He : forall f, In f (opt_list (rs_einit R)) -> P f).
    { intros; apply H; unfold all_forms; rewrite !in_app_iff; tauto. }
    assert (Hs : forall f, In f (opt_list (rs_sinit R)) -> P f).
    { intros; apply H; unfold all_forms; rewrite !in_app_iff; tauto. }
    destruct (d <? maxbitval d - 1); [|apply H; auto].
    unfold all_forms in Hf. cbn [rs_evars rs_svars rs_einit rs_sinit rs_etrans rs_strans rs_egoals rs_sgoals] in Hf.
    destruct (is_one_side flags && match rs_sinit R with None => true | _ => false end);
      rewrite !in_app_iff in Hf; cbn [opt_list In] in Hf;
      (intuition subst; auto); apply H; unfold all_forms; rewrite !in_app_iff; tauto.
  Qed.
  Lemma fblocked_hered : forall flags R, 
    (forall x d, In (x, d) (rs_vars R) -> P (blocker x d false) /\ P (blocker x d true)) ->
    (forall f, In f (all_forms R) -> P f) -> forall f, In f (all_forms (fblocked flags R)) -> P f.
  Proof.
    intros flags R B H. unfold fblocked.
    apply (fblock_all_inv (fun R' => forall f, In f (all_forms R') -> P f)).
    - apply (fblock_all_inv (fun R' => forall f, In f (all_forms R') -> P f)); auto.
      intros x d R' Hin _ HR'. apply fblock_env_hered; auto; apply B; unfold rs_vars; apply in_or_app; auto.
    - intros x d R' Hin _ HR'. apply fblock_sys_hered; auto; apply B; unfold rs_vars; apply in_or_app; auto.
  Qed.
  Lemma fdefaults_hered : forall R, (forall f, In f (all_forms R) -> P f) ->
    forall f, In f (all_forms (fdefaults R)) -> P f.
  Proof.
    intros R H f Hf. unfold all_forms, fdefaults in Hf. cbn [rs_evars rs_svars rs_einit rs_sinit rs_etrans rs_strans rs_egoals rs_sgoals] in Hf.
    rewrite !in_app_iff in Hf.
    assert (HD : forall l, (forall f, In f l -> P f) -> In f (match l with [] => [FTrue] | f0 :: l0 => f0 :: l0 end) -> P f).
    { intros [|g l] Hl Hin; [destruct Hin as [<-|[]]; auto|]. apply Hl; auto. }
    destruct Hf as [Hf|[Hf|[Hf|[Hf|[Hf|Hf]]]]];
      try (apply H; unfold all_forms; rewrite !in_app_iff; tauto);
      (eapply HD; [|exact Hf]; intros g Hg; apply H; unfold all_forms; rewrite !in_app_iff; tauto).
  Qed.
End Hered.

Lemma expand_items_ok : forall vs, expand_items (vlist vs) = Ok (vlist (bit_decls 0 vs)).
Proof.
  induction vs as [|[x d] vs IH]; auto. cbn [vlist expand_items]. rewrite IH. cbn [bind].
  unfold bit_decls. cbn [flat_map fst snd]. destruct (0 <=? d) eqn:E; [|reflexivity].
  apply Z.leb_le in E. rewrite var_to_bool_eq by auto. rewrite <- link_vlist.
  pose proof (nbits_pos d E). unfold bit_names. rewrite (zseq_cons 0) by lia. reflexivity.
Qed.
Lemma nonbool_items_ok : forall vs, nonbool_items (vlist vs) = vlist (filter (fun v => 0 <=? snd v) vs).
Proof.
  induction vs as [|[x d] vs IH]; auto. cbn [vlist nonbool_items filter snd].
  destruct (0 <=? d); rewrite IH; reflexivity.
Qed.

Lemma with_defaults_raw : forall R, with_defaults (raw_of R) = raw_of (fdefaults R).
Proof.
  intros [ev sv ei si et st eg sg]. unfold with_defaults, raw_of, fdefaults. simpl.
  destruct et, st, sg; reflexivity.
Qed.
Lemma fblock_etrans_ne : forall flags x d R, rs_etrans R <> [] /\ rs_strans R <> [] ->
  (rs_etrans (fblock_env flags x d R) <> [] /\ rs_strans (fblock_env flags x d R) <> []) /\
  (rs_etrans (fblock_sys flags x d R) <> [] /\ rs_strans (fblock_sys flags x d R) <> []).
Proof.
  intros flags x d R [H1 H2]. unfold fblock_env, fblock_sys.
  destruct (d <? maxbitval d - 1); cbn [rs_etrans rs_strans]; auto.
  repeat split; auto; intros Hc; apply app_eq_nil in Hc; destruct Hc; discriminate.
Qed.
Lemma fblocked_ne : forall flags R, rs_etrans R <> [] /\ rs_strans R <> [] ->
  rs_etrans (fblocked flags R) <> [] /\ rs_strans (fblocked flags R) <> [].
Proof.
  intros flags R H. unfold fblocked.
  apply (fblock_all_inv (fun R' => rs_etrans R' <> [] /\ rs_strans R' <> [])).
  - apply (fblock_all_inv (fun R' => rs_etrans R' <> [] /\ rs_strans R' <> [])); auto.
    intros x d R' _ _ H'. apply (fblock_etrans_ne flags x d R' H').
  - intros x d R' _ _ H'. apply (fblock_etrans_ne flags x d R' H').
Qed.
Lemma blocker_bad : forall y e p x d, bad_ne x d (blocker y e p) = false.
Proof. intros. apply (unreach_scope y p (e + 1) (maxbitval e - 1)). Qed.

Lemma prepare_ok : forall flags R,
  (forall x d, In (x, d) (rs_vars R) -> 0 <= d -> forall f, In f (all_forms R) -> bad_ne x d f = false) ->
  exists N, forall fuel, (N <= fuel)%nat ->
  prepare fuel flags (raw_of R) =
  Ok (Some (spec_of (solver_spec 0 flags R), vlist (filter (fun v => 0 <=? snd v) (rs_vars R)))).
Proof.
  intros flags R Hb.
  set (R1 := fdefaults R). set (R2 := fblocked flags R1).
  destruct (fblocked_vars flags R1) as [V1 V2]. fold R2 in V1, V2.
  destruct (expand_vars_ok (rs_vars R) R2) as [N HN].
  { intros x d Hin Hd. apply fblocked_hered; auto.
    - intros f g Hf Hg. simpl. rewrite Hf, Hg. reflexivity.
    - intros y e _. split; apply blocker_bad.
    - apply fdefaults_hered; auto. }
  exists N. intros fuel Hf. unfold prepare, expand_nonbool_GR1.
  rewrite with_defaults_raw. fold R1. cbn [raw_of r_evars].
  rewrite (block_all_raw _ (fblock_env flags)) by apply block_env_raw. cbn [bind].
  cbn [raw_of r_svars].
  destruct (fblock_all_vars _ (fblock_env_vars flags) (rs_evars R1) R1) as [W1 W2]. rewrite W2.
  rewrite (block_all_raw _ (fblock_sys flags)) by apply block_sys_raw. cbn [bind].
  change (fblock_all (fblock_sys flags) (rs_svars R1) (fblock_all (fblock_env flags) (rs_evars R1) R1)) with R2.
  cbn [raw_of r_evars r_svars]. rewrite V1, V2, link_vlist.
  change (rs_evars R1 ++ rs_svars R1) with (rs_vars R).
  fold (raw_of R2). unfold raw_of in HN. cbn [rs_evars rs_svars rs_einit rs_sinit rs_etrans rs_strans rs_egoals rs_sgoals] in HN.
  rewrite V1, V2 in HN. unfold obind. unfold raw_of. rewrite V1, V2, HN by auto. cbn [bind].
  cbn [r_evars r_svars rs_evars rs_svars map_forms]. rewrite V1, V2.
  unfold expand_nonbool_variables. rewrite !expand_items_ok. cbn [bind]. rewrite link_vlist, nonbool_items_ok.
  cbn [r_etrans r_strans map_forms rs_etrans rs_strans].
  destruct (fblocked_ne flags R1) as [Ne1 Ne2].
  { unfold R1, fdefaults. cbn [rs_etrans rs_strans]. destruct (rs_etrans R), (rs_strans R); split; discriminate. }
  fold R2 in Ne1, Ne2. unfold solver_spec. fold R1. fold R2.
  destruct (rs_etrans R2) as [|f1 l1] eqn:E1; [congruence|].
  destruct (rs_strans R2) as [|f2 l2] eqn:E2; [congruence|].
  cbn [map]. do 3 f_equal. unfold spec_of. cbn [map_forms fs_evars fs_svars fs_einit fs_sinit fs_etrans fs_strans fs_egoals fs_sgoals rs_etrans rs_strans rs_einit rs_sinit rs_egoals rs_sgoals].
  rewrite E1, E2. cbn [map and_all]. rewrite <- !merge_and. reflexivity.
Qed.
