(** rm_sysgoal and add_metric_sysgoal on specifications with integer variables, as
    gr1c-patch calls them. *)
From Coq Require Import List ZArith Lia Bool Arith String.
From Verif Require Import Base Strs Game Bdd BGame Support SupportProofs EnumProofs Ops OpsProofs Ptree Form Solve FSpec Nonbool RSpec
  PtreeProofs ExpProofs SolveProofs RealProofs Automaton AutProofs Synth SynthSets SynthSpec NonboolProofs EncProofs
  PipeProofs PipeVerdict NbStateProofs NbProps MainProofs Reach ReachSpec ReachProofs AutIO AutIOSpec AutIOProofs
  Hotswap HotSpec HotProofs HotForm HotSem HotCore HotFollow HotTotal HotLoad HotSynth Metric MetricSpec AddGoal AddSpec AddCore AddLoad HotInt.
Import ListNotations.
Open Scope list_scope.
Open Scope nat_scope.

Lemma ws_relabel : forall g f A, with_states g (map (relabel f) A) = map (relabel f) (with_states g A).
Proof. intros g f A. unfold with_states. rewrite !map_map. apply map_ext. intros x. destruct x; reflexivity. Qed.

Section IntPatch.
  Variables (flags : init_flags_t) (R : rspec).
  Hypothesis HT : well_typed R.
  Hypothesis HN : NoDup (names (rs_vars R)).
  Hypothesis HB : bits_distinct (rs_vars R).
  Hypothesis HP : prefix_free (rs_vars R).
  Hypothesis HD : int_domains (rs_vars R).
  Let vs := rs_vars R.
  Let es := rs_evars R.
  Let ss := rs_svars R.
  Let F := fspec_of R.
  Let F0 := solver_spec 0 flags R.
  Let F' := solver_spec (-1) flags R.
  Let E := expandS vs.
  Hypothesis Hgoals : rs_sgoals R <> [].
  Variables (orc : oracle) (alloc : nat -> aut -> nat).
  Hypothesis Horc : oracle_ok (2 * List.length (all_bits vs)) orc.
  Hypothesis Halloc : forall t A, ~ In (alloc t A) (ids A).
  Let S1 := F'_scoped flags R HT HN.
  Let S2 := F'_boolean flags R HT HN.
  Let k := List.length (rs_sgoals R).
  Lemma tools' : tools_ok F' orc alloc.
  Proof. split; [exact (Horc' flags R HB orc Horc)|exact Halloc]. Qed.
  Lemma goals_len : List.length (fs_sgoals F') = k.
  Proof. unfold F'. rewrite (sgoals_eq flags R Hgoals). cbn [regoal fs_sgoals]. apply map_length. Qed.
  Lemma goals_len0 : List.length (sys_goals (spec_of F0)) = k.
  Proof. rewrite <- goals_len. unfold F0, F'. cbn [spec_of sys_goals]. rewrite map_length. reflexivity. Qed.
  Lemma regoal_F : F = regoal (rs_sgoals R) F.
  Proof. reflexivity. Qed.
  Lemma regoal_F' : F' = regoal (map E (rs_sgoals R)) F'.
  Proof. exact (sgoals_eq flags R Hgoals). Qed.
  Lemma without_F' : forall d, without d F' = regoal (map E (firstn d (rs_sgoals R) ++ skipn (S d) (rs_sgoals R))) F'.
  Proof.
    intros d. rewrite map_app, <- firstn_map, <- skipn_map.
    change (without d F') with (regoal (firstn d (fs_sgoals F') ++ skipn (S d) (fs_sgoals F')) F').
    rewrite regoal_F' at 1 2. reflexivity.
  Qed.
  Lemma with_F' : forall d g, AddSpec.with_goal d (E g) F' = regoal (map E (firstn d (rs_sgoals R) ++ g :: skipn d (rs_sgoals R))) F'.
  Proof.
    intros d g. rewrite map_app. cbn [map]. rewrite <- firstn_map, <- skipn_map.
    change (AddSpec.with_goal d (E g) F') with (regoal (firstn d (fs_sgoals F') ++ E g :: skipn d (fs_sgoals F')) F').
    rewrite regoal_F' at 1 2. reflexivity.
  Qed.
  Lemma some_typed : forall d f, In f (firstn d (rs_sgoals R) ++ skipn (S d) (rs_sgoals R)) -> typed R [] f.
  Proof.
    intros d f Hf. apply (sgoal_typed R HT). apply in_app_or in Hf. rewrite <- (firstn_skipn d (rs_sgoals R)). apply in_or_app.
    destruct Hf as [Hf|Hf]; [left; auto|right]. clear - Hf. revert d Hf. induction (rs_sgoals R) as [|g l IH]; intros d Hf; [rewrite skipn_nil in Hf; destruct Hf|].
    destruct d as [|d]; [right; exact Hf|]. cbn [skipn]. apply IH. exact Hf.
  Qed.
  Lemma free_env : es = [] -> rs_etrans R = [] -> forall s e, g_etr (game_of F') s e = true.
  Proof.
    intros He Ht s e. cbn [game_of g_etr]. unfold F', solver_spec. cbn [fs_etrans map_forms rs_etrans].
    assert (K : rs_etrans (fblocked flags (fdefaults R)) = [FTrue]).
    { unfold fblocked. apply (fblock_all_inv (fun R => rs_etrans R = [FTrue])).
      - cbn [fdefaults rs_evars]. fold es. rewrite He. cbn. rewrite Ht. reflexivity.
      - intros x d0 R0 _ _ H. unfold fblock_sys. destruct (_ <? _)%Z; exact H. }
    rewrite K. cbn [map and_all chain]. assert (Q : expandS (rs_vars R) FTrue = FTrue).
    { unfold expandS. clear. induction (rs_vars R) as [|v l IH]; [reflexivity|]. cbn [fold_left].
      destruct (0 <=? snd v)%Z; exact IH. }
    rewrite Q. reflexivity.
  Qed.
  (** the file read back and expanded *)
  Lemma expanded : forall A, A <> [] -> fitA R A -> 1 <= List.length vs ->
    aut_expand_bool A (evar_list (spec_of F0)) (svar_list (spec_of F0)) (vlist (NbStateProofs.ints vs)) =
    Ok (with_states (enc vs) A, 0%Z).
  Proof.
    intros A Hne Hfit Hl. unfold F0. cbn [spec_of evar_list svar_list solver_spec fs_evars fs_svars]. unfold vs, rs_vars.
    apply expand_bool_ok; auto.
    - apply runs_of; auto.
    - intros Q. unfold vs, rs_vars in Hl. rewrite Q in Hl. cbn in Hl. lia.
    - intros x Hx. pose proof (Hfit x Hx) as K. apply (state_repr R) in K. symmetry. apply repr_len in K. auto.
  Qed.
  Lemma fit_relabel : forall f A, fitA R A -> fitA R (map (relabel f) A).
  Proof. intros f A H x Hx. apply in_map_iff in Hx. destruct Hx as (y & <- & Hy). exact (H y Hy). Qed.

  Section File.
  Variables (n : Z) (A : aut) (text : String.string).
  Hypothesis Hco : correct F A.
  Hypothesis Hw : writable n A.
  Hypothesis Hdump : aut_aut_dump A n = Ok text.
  Hypothesis Hsh : short_lines text.
  Let fA : fitA R A := co_states _ _ Hco.
  Lemma vs_pos : 1 <= List.length vs.
  Proof.
    destruct Hw as (Hne & Hn & _ & _ & Hx). destruct A as [|x A0] eqn:Q; [congruence|].
    assert (Hi : In x (x :: A0)) by (left; auto). destruct (Hx x Hi) as (Hl & _).
    pose proof (fA x Hi) as K. apply (state_repr R) in K. apply repr_len in K. fold vs in K. lia.
  Qed.
  Lemma correct' : correct F' (with_states (enc vs) A).
  Proof.
    rewrite regoal_F'. apply (correct_h flags R HT HN HB A fA (rs_sgoals R)); [|exact Hco]. exact (sgoal_typed R HT).
  Qed.

  Section Relab.
    Variable f : nat -> nat.
    Hypothesis Hf : forall a b, In a (ids A) -> In b (ids A) -> f a = f b -> a = b.
    Hypothesis Hcl : closed A.
    Let A' := with_states (enc vs) A.
    Lemma Hf' : forall a b, In a (ids A') -> In b (ids A') -> f a = f b -> a = b.
    Proof. unfold A', vs. rewrite ws_ids. exact Hf. Qed.
    Lemma Hcl' : closed A'.
    Proof.
      intros x t Hx Ht. unfold A', vs in *. rewrite ws_ids. apply ws_In in Hx. destruct Hx as (y & Hy & ->).
      rewrite (proj1 (proj2 (h_id R y))) in Ht. apply (Hcl y); auto.
    Qed.
    Lemma Hnd' : NoDup (ids A').
    Proof. unfold A', vs. rewrite ws_ids. apply Hco. Qed.
    Lemma all_enc : forall x, In x (map (relabel f) A') -> exists s, astate x = enc vs s /\ In s (fs_states F).
    Proof.
      intros x Hx. apply in_map_iff in Hx. destruct Hx as (y & <- & Hy). apply ws_In in Hy. destruct Hy as (z & Hz & ->).
      exists (astate z). split; [|apply fA; auto]. cbn [relabel astate]. apply h_id.
    Qed.
  End Relab.
  Lemma compacted : forall B', (forall y, In y B' -> exists s, astate y = enc vs s /\ In s (fs_states F)) ->
    compact_all B' (vlist (bit_decls 0 es)) (vlist (bit_decls 0 ss)) (vlist (NbStateProofs.ints vs)) = Ok (back R B', vlist es, vlist ss).
  Proof.
    intros B' H. destruct (back_ok R B' H) as (H1 & H2). rewrite H2 at 1. unfold vs, rs_vars, es, ss.
    rewrite (compact_ok (rs_evars R) (rs_svars R)); auto.
    - apply runs_of; auto.
    - intros x Hx. apply (state_repr R). apply H1. auto.
  Qed.
  Section Remove.
  Variable d : nat.
  Hypothesis Hd : d < k.
  Hypothesis Hk3 : 3 <= k.
  Let Hd' : d < List.length (fs_sgoals F').
  Proof. rewrite goals_len. exact Hd. Qed.
  Let Hk3' : 3 <= List.length (fs_sgoals F').
  Proof. rewrite goals_len. exact Hk3. Qed.
  Lemma rm_int_unfold : exists f et st eg,
      (forall a b, In a (ids A) -> In b (ids A) -> f a = f b -> a = b) /\ closed A /\
      no_primed_sys (List.length (fs_evars F')) (List.length (fs_svars F')) et /\
      Forall (Good (List.length (fs_evars F')) (List.length (fs_svars F'))) eg /\ 0 < List.length eg /\
      (forall s e w, bitvec (List.length (fs_evars F') + List.length (fs_svars F')) s -> bitvec (List.length (fs_evars F')) e ->
         bitvec (List.length (fs_svars F')) w -> ev et (s ++ e ++ w) = g_etr (game_of F') s e) /\
      (forall s s', bitvec (List.length (fs_evars F') + List.length (fs_svars F')) s -> bitvec (List.length (fs_evars F') + List.length (fs_svars F')) s' ->
         ev st (s ++ s') = g_str (game_of F') s s') /\
      Forall2 (fun f d => forall s, bitvec (List.length (fs_evars F') + List.length (fs_svars F')) s ->
         evS (List.length (fs_evars F') + List.length (fs_svars F')) d s = holds F' f s) (egoals1 F') eg /\
      forall fuel, rm_sysgoal (spec_of F0) (vlist (NbStateProofs.ints vs)) orc alloc fuel n text (Z.of_nat d) =
        rm_core (Z.of_nat d) (Z.of_nat (List.length (fs_sgoals F'))) (List.length (fs_evars F')) (List.length (fs_svars F')) orc alloc et st eg fuel
          (untouched (map (relabel f) A)) (map (relabel f) (with_states (enc vs) A)).
  Proof.
    destruct (file_relabel F n A text Hco Hw Hdump Hsh) as (f & L & EL & Eof & Hne & Hf & Hcl).
    destruct (spec_BDDs_ok F' S1 S2) as
      (et & st & eg & sg & Hb & Hnp & Hgeg & Hgsg & _ & Hlsg & Hleg & Het & Hst & Heg & Hsg).
    exists f, et, st, eg. repeat (split; [assumption|]). intros fuel.
    unfold rm_sysgoal. rewrite goals_len0, goals_len.
    replace ((Z.of_nat d <? 0)%Z || (Z.of_nat k <=? Z.of_nat d)%Z) with false by lia.
    replace (Z.of_nat k <? 3)%Z with false by lia.
    rewrite EL. cbn [bind]. rewrite Eof. cbn [bind]. rewrite expanded; auto; [|apply fit_relabel; exact fA|exact vs_pos].
    cbn [bind snd fst Z.eqb]. rewrite <- (same_spec_BDDs F0 F' (solver_spec_same 0 (-1) flags R)) in Hb.
    unfold spec_BDDs in Hb.
    destruct (to_BDD (spec_of F0) (env_trans (spec_of F0))) as [et'| |]; cbn [bind] in Hb |- *; try discriminate.
    destruct (to_BDD (spec_of F0) (sys_trans (spec_of F0))) as [st'| |]; cbn [bind] in Hb |- *; try discriminate.
    destruct (map_out (to_BDD (spec_of F0)) (env_goals' (spec_of F0))) as [eg'| |]; cbn [bind] in Hb |- *; try discriminate.
    destruct (map_out (to_BDD (spec_of F0)) (sys_goals (spec_of F0))) as [sg'| |]; cbn [bind] in Hb |- *; try discriminate.
    injection Hb as -> -> -> ->.
    rewrite (same_num_env F0 F' (solver_spec_same 0 (-1) flags R)), (same_num_sys F0 F' (solver_spec_same 0 (-1) flags R)).
    rewrite num_env_eq, num_sys_eq. rewrite ws_relabel. reflexivity.
  Qed.
  Lemma rm_int : in_order F A -> not_skipped F d A ->
    forall fuel B', rm_sysgoal (spec_of F0) (vlist (NbStateProofs.ints vs)) orc alloc fuel n text (Z.of_nat d) = Ok B' -> B' <> [] ->
    correct (without d F) (back R B') /\ keeps F d A (back R B') /\
    compact_all B' (vlist (bit_decls 0 es)) (vlist (bit_decls 0 ss)) (vlist (NbStateProofs.ints vs)) = Ok (back R B', vlist es, vlist ss).
  Proof.
    intros Hord Hns fuel B' H HBn.
    destruct rm_int_unfold as (f & et & st & eg & Hf & Hcl & Hnp & Hgeg & Hleg & Het & Hst & Heg & Eq). rewrite Eq in H.
    assert (Hord' : in_order F' (with_states (enc vs) A)).
    { rewrite regoal_F'. apply (order_h flags R HN HB A fA (rs_sgoals R)); [exact (sgoal_typed R HT)|exact Hord]. }
    assert (Hns' : not_skipped F' d (with_states (enc vs) A)).
    { rewrite regoal_F'. apply (skip_h flags R A (rs_sgoals R)). exact Hns. }
    destruct (HotCore.core_ok F' S2 orc alloc tools' d Hd' Hk3' (map (relabel f) (with_states (enc vs) A))
      (rl_correct f _ (Hf' f Hf) Hnd' (Hcl' Hcl) F' correct')
      et st eg Hnp Hgeg Het Hst Heg (rl_order f _ (Hf' f Hf) (Hcl' Hcl) F' Hord') (rl_skip f _ (Hf' f Hf) (Hcl' Hcl) F' d Hns') _ _ _ H HBn) as (H1 & H2 & H3).
    pose proof (H3 _ (all_enc f) (enc_closed flags R HT HN HB)) as Henc.
    destruct (back_ok R B' Henc) as (Hfit & Hback).
    split; [|split].
    - apply (correct_h flags R HT HN HB (back R B') Hfit (firstn d (rs_sgoals R) ++ skipn (S d) (rs_sgoals R))); [exact (some_typed d)|].
      rewrite without_F' in H1. rewrite <- Hback. exact H1.
    - pose proof (rl_keeps f _ F' d B' H2) as H2'. rewrite regoal_F' in H2'.
      apply (keeps_h flags R A (back R B') fA Hfit (rs_sgoals R) d). rewrite <- Hback. exact H2'.
    - apply compacted. exact Henc.
  Qed.
  Lemma rm_int_total : (forall s, In s (fs_states F) -> exists e, legal_env (game_of F) s e) -> (es <> [] \/ rs_etrans R = []) ->
    seeks F A -> apart F (after F d) (after F (after F d)) -> exits_fit F d A ->
    exists N, forall fuel, N <= fuel -> exists B',
      rm_sysgoal (spec_of F0) (vlist (NbStateProofs.ints vs)) orc alloc fuel n text (Z.of_nat d) = Ok B' /\ (B' <> [] <-> taken_up F d A).
  Proof.
    intros Hmov Henv Hse Hap Hfit.
    destruct rm_int_unfold as (f & et & st & eg & Hf & Hcl & Hnp & Hgeg & Hleg & Het & Hst & Heg & Eq).
    assert (Hnoe : fs_evars F' = [] -> forall s, In s (fs_states F') -> g_etr (game_of F') s [] = true).
    { intros He s Hs. apply (evars_iff flags R) in He. destruct Henv as [K|K]; [contradiction (K He)|]. apply free_env; auto. }
    pose proof (rl_correct f _ (Hf' f Hf) Hnd' (Hcl' Hcl) F' correct') as Hco'.
    assert (Hse' : seeks F' (with_states (enc vs) A)).
    { rewrite regoal_F'. apply (seeks_h flags R HN HB A fA (rs_sgoals R)); [exact (sgoal_typed R HT)|exact Hse]. }
    assert (Hap' : forall x, In x (map (relabel f) (with_states (enc vs) A)) -> sgoal F' (after F' d) (astate x) = true ->
      sgoal F' (after F' (after F' d)) (astate x) = true -> False).
    { intros x Hx. destruct (all_enc f x Hx) as (s & -> & Hs). rewrite regoal_F', !(after_h flags R (rs_sgoals R)).
      unfold vs. rewrite !(sgoal_h flags R HN HB (rs_sgoals R) (sgoal_typed R HT)) by exact Hs. apply (Hap s Hs). }
    destruct (core_total F' S2 orc alloc tools' d Hd' Hk3' (map (relabel f) (with_states (enc vs) A)) Hco' et st eg Hnp Hgeg Hleg Het Hst Heg
      _ (all_enc f) (enc_closed flags R HT HN HB) (enc_moves flags R HT HN HB Hmov) Hnoe (rl_seeks f _ (Hf' f Hf) (Hcl' Hcl) F' Hse') Hap') as (N & HN').
    { apply rl_fit; [exact (Hf' f Hf)|exact Hnd'|exact (Hcl' Hcl)|].
      rewrite regoal_F'. apply (fit_h flags R A fA (rs_sgoals R)). exact Hfit. }
    exists N. intros fuel Hfu. destruct (HN' fuel Hfu) as (B & HBq & Hiff). exists B.
    assert (Hu : untouched (map (relabel f) A) = []).
    { rewrite <- (none_untouched F' _ Hco' _ (all_enc f) (enc_moves flags R HT HN HB Hmov)). unfold untouched, with_states.
      rewrite map_map. clear. induction A as [|x l IH]; [reflexivity|]. cbn [map filter]. destruct x. cbn. unfold no_trans in *. cbn.
      destruct (map f atrans); cbn; [f_equal|]; exact IH. }
    rewrite Eq, Hu. split; [exact HBq|]. rewrite Hiff. rewrite rl_taken by (exact (Hf' f Hf) || exact (Hcl' Hcl)).
    rewrite regoal_F'. apply (taken_h flags R A (rs_sgoals R)).
  Qed.
  End Remove.
  Section Add.
  Variable g : form.
  Hypothesis Hg : typed R [] g.
  Hypothesis Hk2 : 2 <= k.
  Variable fs : list (Z * Z).
  Hypothesis Hfs : fields_in (List.length (fs_evars F') + List.length (fs_svars F')) fs.
  Lemma add_int : forall fuel B', 2 ^ List.length (all_bits vs) <= fuel ->
    add_metric_sysgoal (spec_of F0) (vlist (NbStateProofs.ints vs)) orc alloc fuel n text fs (tree_of (E g)) = Ok B' -> B' <> [] ->
    exists i, place fs F' (E g) i /\ i < k /\
      (in_order F A -> proceeds F A -> apart F i (after F i) -> new_apart F g (after F i) ->
       correct (AddSpec.with_goal (S i) g F) (back R B') /\ AddSpec.starts F (after F i) A (back R B') /\
       ((forall s, In s (fs_states F) -> exists e, legal_env (game_of F) s e) ->
        in_order_but (AddSpec.with_goal (S i) g F) (moved i (after F i)) (S i) (back R B')) /\
       compact_all B' (vlist (bit_decls 0 es)) (vlist (bit_decls 0 ss)) (vlist (NbStateProofs.ints vs)) = Ok (back R B', vlist es, vlist ss)).
  Proof.
    intros fuel B' Hfu H HBn.
    destruct (file_relabel F n A text Hco Hw Hdump Hsh) as (f & L & EL & Eof & Hne & Hf & Hcl).
    destruct (spec_BDDs_ok F' S1 S2) as
      (et & st & eg & sg & Hb & Hnp & Hgeg & Hgsg & _ & Hlsg & Hleg & Het & Hst & Heg & Hsg).
    destruct (state_scope flags R HN g Hg) as (Hgs & Hgb). fold vs F' in Hgs, Hgb. fold E in Hgs, Hgb.
    destruct (state_form_BDD F' (E g) Hgb Hgs) as (gd & Egd & Hgd & Hgde).
    assert (Hfu' : 2 ^ (List.length (fs_evars F') + List.length (fs_svars F')) <= fuel).
    { cbn [F' solver_spec fs_evars fs_svars]. rewrite !bit_decls_len, <- total_app. change (rs_evars R ++ rs_svars R) with (rs_vars R).
      rewrite <- (all_bits_len R HB). exact Hfu. }
    destruct (place_ok F' S2 orc (proj1 tools') (E g) gd fs fuel Hgd Hgde Hfs Hfu' sg ltac:(rewrite goals_len; lia) Hgsg Hsg) as (i & Ei & Hpl).
    assert (Hi : i < k) by (rewrite <- goals_len; apply Hpl).
    exists i. split; [exact Hpl|]. split; [exact Hi|]. intros Hord Hpro Hap Hna.
    unfold add_metric_sysgoal in H. rewrite EL in H. cbn [bind] in H. rewrite Eof in H. cbn [bind] in H.
    rewrite expanded in H; auto; [|apply fit_relabel; exact fA|exact vs_pos].
    cbn [bind snd fst Z.eqb] in H. rewrite (same_spec_BDDs F0 F' (solver_spec_same 0 (-1) flags R)) in H. rewrite Hb in H. cbn [bind] in H.
    rewrite (same_to_BDD F0 F' (solver_spec_same 0 (-1) flags R)), Egd in H. cbn [bind] in H.
    rewrite (same_num_env F0 F' (solver_spec_same 0 (-1) flags R)), (same_num_sys F0 F' (solver_spec_same 0 (-1) flags R)) in H.
    rewrite num_env_eq, num_sys_eq in H. rewrite Ei in H. cbn [bind] in H. rewrite Hlsg in H. rewrite ws_relabel in H.
    assert (Hord' : in_order F' (with_states (enc vs) A)).
    { rewrite regoal_F'. apply (order_h flags R HN HB A fA (rs_sgoals R)); [exact (sgoal_typed R HT)|exact Hord]. }
    assert (Hpro' : proceeds F' (with_states (enc vs) A)).
    { rewrite regoal_F'. apply (proceeds_h flags R HT HN HB A fA (rs_sgoals R)). exact Hpro. }
    assert (Haf : after F' i = after F i) by (rewrite regoal_F'; exact (after_h flags R (rs_sgoals R) i)).
    assert (Hsg' : forall a s, In s (fs_states F) -> sgoal F' a (enc vs s) = sgoal F a s).
    { intros a s Hs. rewrite regoal_F'. exact (sgoal_h flags R HN HB (rs_sgoals R) (sgoal_typed R HT) a s Hs). }
    assert (Hap' : forall x, In x (map (relabel f) (with_states (enc vs) A)) -> sgoal F' i (astate x) = true ->
      sgoal F' (after F' i) (astate x) = true -> False).
    { intros x Hx. destruct (all_enc f x Hx) as (s & -> & Hs). rewrite Haf, !Hsg' by exact Hs. apply (Hap s Hs). }
    assert (Hna' : forall x, In x (map (relabel f) (with_states (enc vs) A)) -> holds F' (E g) (astate x) = true ->
      sgoal F' (after F' i) (astate x) = true -> False).
    { intros x Hx. destruct (all_enc f x Hx) as (s & -> & Hs). rewrite Haf, Hsg' by exact Hs.
      intros K. apply (Hna s Hs). transitivity (holds F' (E g) (enc vs s)); [symmetry; exact (holds_enc flags R HN HB s g Hs Hg)|exact K]. }
    destruct (AddCore.core_ok F' S2 orc alloc tools' et st eg Hnp Hgeg Het Hst Heg (E g) gd Hgd Hgde i ltac:(rewrite goals_len; exact Hi) ltac:(rewrite goals_len; exact Hk2)
      (map (relabel f) (with_states (enc vs) A)) (rl_correct f _ (Hf' f Hf) Hnd' (Hcl' Hcl) F' correct')
      (rl_order f _ (Hf' f Hf) (Hcl' Hcl) F' Hord') (rl_proceeds f _ (Hf' f Hf) Hnd' (Hcl' Hcl) F' Hpro') Hap' Hna' _ _ _ H HBn) as (H1 & H2 & H3).
    destruct (H3 _ (all_enc f) (enc_closed flags R HT HN HB)) as (Henc & H4).
    destruct (back_ok R B' Henc) as (Hfit & Hback).
    assert (Hty : forall f0, In f0 (firstn (S i) (rs_sgoals R) ++ g :: skipn (S i) (rs_sgoals R)) -> typed R [] f0).
    { intros f0 Hf0. apply in_app_or in Hf0. cbn [In] in Hf0.
      destruct Hf0 as [K|[<-|K]]; [|exact Hg|]; apply (sgoal_typed R HT); rewrite <- (firstn_skipn (S i) (rs_sgoals R)); apply in_or_app; auto. }
    split; [|split; [|split]].
    - apply (correct_h flags R HT HN HB (back R B') Hfit _ Hty). rewrite with_F' in H1. rewrite <- Hback. exact H1.
    - pose proof (rl_starts f _ (Hf' f Hf) (Hcl' Hcl) F' _ B' H2) as H2'. rewrite Haf in H2'. rewrite regoal_F' in H2'.
      apply (starts_h flags R A (back R B') fA Hfit (rs_sgoals R) _). rewrite <- Hback. exact H2'.
    - intros Hmov. apply (but_h flags R HN HB (back R B') Hfit _ Hty). rewrite <- Hback, <- Haf.
      specialize (H4 (enc_moves flags R HT HN HB Hmov)). rewrite with_F' in H4. exact H4.
    - apply compacted. exact Henc.
  Qed.
  End Add.
  End File.
End IntPatch.
