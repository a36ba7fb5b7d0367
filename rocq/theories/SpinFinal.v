(** Proofs: the model written for a strategy, put together; examples. *)
From Coq Require Import List ZArith Bool Arith Lia String.
From Verif Require Import Base Game Strs Support Ptree Form Solve FSpec RSpec Automaton AutProofs SynthSpec HotSpec NonboolProofs Nonbool Main MainSpec MainProofs
  AutIO PromelaSpec SpinSpec Spin SpinForm SpinText SpinDump SpinRuns SpinPath.
Import ListNotations.
Open Scope string_scope.
Open Scope list_scope.
Open Scope Z_scope.

Lemma written : forall R, well_typed R -> spin_names R -> exists N, forall fuel, (N <= fuel)%nat ->
  forall A same, formed R A ->
  exists text formula P defs f, spin_model text formula P defs f /\
    spin_aut_dump fuel same A (vlist (rs_evars R)) (vlist (rs_svars R)) (opt_tree (rs_einit R)) (opt_tree (rs_sinit R))
      (map tree_of (rs_etrans R)) (map tree_of (rs_strans R)) (map tree_of (rs_egoals R)) (map tree_of (rs_sgoals R)) =
    Ok (text, if same then None else Some (formula ++ nl)%string, 0) /\
    ((forall p, from_start A p -> assumed R p -> asked R p) -> (forall x, In x A -> answered R A x) -> obeys P defs f) /\
    (obeys P defs f -> forall p, from_start A p -> assumed R p -> asked R p).
Proof.
  intros R Ht Hn. destruct (dump_eq R Ht) as [N HN]. exists N. intros fuel Hl A same Hf.
  exists (spin_text (formula_text R) (file_of R A)), (formula_text R), (prog R A), (exps_of R), (formula_of R).
  split; [exists (file_of R A); repeat split; [apply formula_reads|apply defs_define; auto]|].
  split; [apply HN; auto|]. split; [apply model_passes; auto|]. intros Ho p Hp Ha. apply (path_asked R A Ht Hn Hf p Hp Ho Ha).
Qed.
Lemma correct_good : forall R A, correct (fspec_of R) A -> starts_well R A -> env_passive R A ->
  (forall p, from_start A p -> assumed R p -> asked R p) /\ (forall x, In x A -> answered R A x).
Proof.
  intros R A C Hs Hv. split.
  - intros p [Hp Hi] Ha. assert (PA : forall t, In (p t) A) by (intros; apply Hp). split; [|split].
    + apply Hs; auto. intros NE. apply Ha. exact NE.
    + intros t. apply (co_safe _ _ C (p t) (p (S t))); auto. apply Hp.
    + apply (co_live _ _ C p Hp).
      * intros E0 t. apply (Hv E0); auto.
      * destruct (rs_evars R) eqn:E0; [|apply Ha; congruence]. intros g Hg t. exists t. split; auto. apply (Hv E0); auto.
  - intros x Hx e He Hl. apply (co_answer _ _ C); auto. split; auto.
    destruct (rs_evars R) eqn:E0; [|apply Hl; discriminate].
    unfold fs_envs in He. cbn [fspec_of fs_evars] in He. rewrite E0 in He. destruct He as [<-|[]]. apply Hv; auto.
Qed.
Lemma correct_formed : forall R A, correct (fspec_of R) A -> formed R A.
Proof. intros R A C. constructor; apply C. Qed.
Lemma passes_correct : forall R, well_typed R -> spin_names R -> exists N, forall fuel, (N <= fuel)%nat ->
  forall A same, correct (fspec_of R) A -> starts_well R A -> env_passive R A ->
  exists text formula P defs f, spin_model text formula P defs f /\
    spin_aut_dump fuel same A (vlist (rs_evars R)) (vlist (rs_svars R)) (opt_tree (rs_einit R)) (opt_tree (rs_sinit R))
      (map tree_of (rs_etrans R)) (map tree_of (rs_strans R)) (map tree_of (rs_egoals R)) (map tree_of (rs_sgoals R)) =
    Ok (text, if same then None else Some (formula ++ nl)%string, 0) /\ obeys P defs f.
Proof.
  intros R Ht Hn. destruct (written R Ht Hn) as [N HN]. exists N. intros fuel Hl A same C Hs Hv.
  destruct (HN fuel Hl A same (correct_formed R A C)) as (t & fo & P & d & f & H1 & H2 & H3 & _).
  destruct (correct_good R A C Hs Hv) as [G1 G2]. exists t, fo, P, d, f. auto.
Qed.

(** ** From gr1c *)
Lemma defaults_etr : forall R s e, g_etr (game_of (fspec_of (fdefaults R))) s e = g_etr (game_of (fspec_of R)) s e.
Proof. intros [ev sv ei si et st eg sg] s e. destruct et; reflexivity. Qed.
Lemma defaults_str : forall R s e, g_str (game_of (fspec_of (fdefaults R))) s e = g_str (game_of (fspec_of R)) s e.
Proof. intros [ev sv ei si et st eg sg] s e. destruct st; reflexivity. Qed.
Lemma defaults_typed : forall R, well_typed R -> well_typed (fdefaults R).
Proof.
  intros R (H1 & H2 & H3 & H4 & H5 & H6 & H7 & H8).
  assert (T : forall vs p, uses vs p FTrue) by (intros; split; intros y []).
  assert (O : forall (P : form -> Prop) l, P FTrue -> (forall f, In f l -> P f) -> forall f, In f (match l with [] => [FTrue] | a :: r => a :: r end) -> P f).
  { intros P [|a l] H Hl f Hin; [destruct Hin as [<-|[]]; auto|apply Hl; auto]. }
  split; [exact H1|]. split; [exact H2|].
  split; [exact (O _ (rs_etrans R) (Logic.conj (T _ _) (T _ _)) H3)|].
  split; [exact (O _ (rs_strans R) (Logic.conj (T _ _) (T _ _)) H4)|].
  split; [exact H5|].
  split; [exact (O _ (rs_sgoals R) (Logic.conj (T _ _) (Logic.conj eq_refl eq_refl)) H6)|].
  split; [exact H7|]. intros f Hin. change (no_ne0 R f).
  assert (N : no_ne0 R FTrue) by (intros x _; reflexivity).
  apply in_app_or in Hin. destruct Hin as [Hin|Hin].
  { apply (O (no_ne0 R) (rs_etrans R)); auto. intros; apply H8; rewrite !in_app_iff; auto. }
  apply in_app_or in Hin. destruct Hin as [Hin|Hin].
  { apply (O (no_ne0 R) (rs_strans R)); auto. intros; apply H8; rewrite !in_app_iff; auto. }
  apply in_app_or in Hin. destruct Hin as [Hin|Hin]; [apply H8; rewrite !in_app_iff; auto|].
  apply (O (no_ne0 R) (rs_sgoals R)); auto. intros; apply H8; rewrite !in_app_iff; auto.
Qed.
Lemma implements_correct : forall R A, implements R A -> correct (fspec_of (fdefaults R)) A.
Proof.
  intros R A I. constructor; try apply I.
  - intros x y Hx Hy Hxy. rewrite defaults_str, defaults_etr. apply I; auto.
  - intros x e Hx [H1 H2]. rewrite defaults_etr in H2. apply (im_answer _ _ I); auto. split; auto.
  - intros p Hp Hd He g Hg.
    assert (X : forall g, In g (rs_sgoals R) -> infinitely_often (holds (fspec_of R) g) (fun t => astate (p t))).
    { apply (im_live _ _ I p Hp); auto. intros E t. rewrite <- defaults_etr. apply Hd. auto. }
    change (holds (fspec_of (fdefaults R)) g) with (holds (fspec_of R) g).
    change (In g (match rs_sgoals R with [] => [FTrue] | a :: r => a :: r end)) in Hg.
    destruct (rs_sgoals R) eqn:E; [|apply X; auto]. destruct Hg as [<-|[]]. intros t. exists t. split; auto.
Qed.
Lemma start_well : forall R flags A, starts R flags A -> starts_well (fdefaults R) A.
Proof.
  intros R flags A [H _] x Hx Hi _. specialize (H x Hx Hi).
  change (holds_opt (fspec_of R) (rs_sinit R) (astate x) = true). destruct flags; cbn [start] in H.
  - destruct H.
  - apply H.
  - apply H.
  - destruct H as [_ H]. cbn [fspec_of fs_sinit] in H. unfold holds_opt. destruct (rs_sinit R); auto.
Qed.
Lemma quiet_passive : forall R A, quiet R -> env_passive (fdefaults R) A.
Proof.
  intros R A Q E x Hx. destruct (Q E) as [Q1 Q2]. rewrite defaults_etr. split.
  - cbn [game_of g_etr fspec_of fs_etrans]. rewrite Q1. reflexivity.
  - intros g Hg. change (In g (rs_egoals R)) in Hg. rewrite Q2 in Hg. destruct Hg.
Qed.
Lemma verified : forall R orc alloc flags, usable R -> spin_names (fdefaults R) -> quiet R ->
  forall P, synth_right R orc alloc flags P ->
  exists N, forall fuel, (N <= fuel)%nat -> forall r,
    gr1c_main orc alloc fuel MODE_SYNTHESIS flags (raw_of R) = Ok r ->
    exists t, gr1c_verify orc alloc fuel flags (raw_of R) = Ok (r, t) /\
      match r with
      | Strategy _ _ _ => exists formula Q defs f, spin_model t formula Q defs f /\ obeys Q defs f
      | _ => t = ""
      end.
Proof.
  intros R orc alloc flags Hu Hn Hq P [N1 HR]. destruct Hu as [Hw _].
  destruct (passes_correct (fdefaults R) (defaults_typed R Hw) Hn) as [N2 HP].
  exists (N1 + N2)%nat. intros fuel Hl r Hr. assert (Hr' := HR fuel ltac:(lia) r Hr). unfold gr1c_verify. rewrite Hr. cbn [bind].
  destruct r as [| | | |A ev sv]; try (exists ""; split; reflexivity).
  destruct Hr' as (_ & -> & -> & _ & HI & HS & _).
  destruct (HP fuel ltac:(lia) A true (implements_correct R A HI) (start_well R flags A HS) (quiet_passive R A Hq))
    as (t & fo & Q & d & f & H1 & H2 & H3).
  exists t. split; [|exists fo, Q, d, f; auto]. rewrite with_defaults_raw. cbn [raw_of r_einit r_sinit r_etrans r_strans r_egoals r_sgoals].
  change (vlist (rs_evars R)) with (vlist (rs_evars (fdefaults R))). change (vlist (rs_svars R)) with (vlist (rs_svars (fdefaults R))).
  cbn [fdefaults rs_evars rs_svars] in *. rewrite H2. reflexivity.
Qed.
Lemma verified_run : forall R orc alloc flags, usable R -> tools R orc alloc -> spin_names (fdefaults R) -> quiet R ->
  flags <> UNDEFINED_INIT ->
  (flags = ALL_ENV_EXIST_SYS_INIT ->
     opt_all (fun f => incl (fvars f) (names (rs_evars R))) (rs_einit R) /\
     opt_all (fun f => incl (fvars f) (names (rs_svars R))) (rs_sinit R) /\
     exists s, In s (fs_states (fspec_of R)) /\ holds_opt (fspec_of R) (rs_sinit R) s = true) ->
  exists N, forall fuel, (N <= fuel)%nat -> forall r,
    gr1c_main orc alloc fuel MODE_SYNTHESIS flags (raw_of R) = Ok r ->
    exists t, gr1c_verify orc alloc fuel flags (raw_of R) = Ok (r, t) /\
      match r with
      | Strategy _ _ _ => exists formula Q defs f, spin_model t formula Q defs f /\ obeys Q defs f
      | _ => t = ""
      end.
Proof.
  intros R orc alloc flags Hu Ht Hn Hq Hf Hs. destruct flags; [congruence| | |].
  - destruct (Hs eq_refl) as (S1 & S2 & S3). destruct (run_aes R orc alloc Hu Ht S1 S2 S3) as [H _].
    apply (verified R orc alloc _ Hu Hn Hq _ H).
  - destruct (run_all_init R orc alloc Hu Ht) as [H _]. apply (verified R orc alloc _ Hu Hn Hq _ H).
  - destruct (run_one_side R orc alloc Hu Ht) as [H _]. apply (verified R orc alloc _ Hu Hn Hq _ H).
Qed.
