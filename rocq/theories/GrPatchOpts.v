(** Proofs about the command line of gr1c-patch. *)
From Coq Require Import List ZArith Lia Bool Arith Ascii String.
From Verif Require Import Base Strs Solve Output JsonSpec AutIO LexSpec ReadSpec ReadProofs AutmanSpec AutmanProofs Options OptSpec OptProofs GrPatch GrPatchSpec.
Import ListNotations.
Open Scope string_scope.
Open Scope list_scope.
Open Scope Z_scope.

Lemma stored_int : forall z, to_int z = stored z.
Proof.
  intros z. unfold to_int, stored, clamp, wrap, as_int. rewrite (Z.min_comm z). reflexivity.
Qed.
Definition pstep (p : popt) (o : popts) : popts :=
  match p with
  | PHelp => pset_help o
  | PVersion _ => o
  | PVerbose b => pmore_verbose (if b then 2 else 1) o
  | PLog => pset_logging o
  | PDump => pset_ptdump o
  | PType f => pset_format f o
  | PMetric m => pset_metric m o
  | PAut f => pset_aut f o
  | PChanges f => pset_edges f o
  | PGoal f => pset_formula f o
  | PRemove k => pset_remove k o
  | POut f => pset_output f o
  end.
Lemma pstep_reading : forall p o, po_reading (pstep p o) = po_reading o /\ po_input (pstep p o) = po_input o.
Proof. intros p o. destruct p; split; reflexivity. Qed.
Lemma patch_scan_writes : forall p w, pwrites p w -> (forall b, p <> PVersion b) -> forall o rest, po_reading o = true ->
  patch_scan o (w ++ rest) = patch_scan (pstep p o) rest.
Proof.
  intros p w H Hv o rest Ho. destruct H; try (exfalso; eapply Hv; reflexivity).
  all: try (cbn; rewrite Ho; reflexivity).
  - cbn [List.app patch_scan]. change (char_at ("--help" ++ x) 0) with (Ok "-"%char). cbn [bind]. rewrite Ho. cbn [andb is Ascii.eqb Bool.eqb].
    change (char_at ("--help" ++ x) 1) with (Ok "-"%char). cbn [bind negb is Ascii.eqb Bool.eqb].
    change (char_at ("--help" ++ x) 2) with (Ok "h"%char). cbn [bind is Ascii.eqb Bool.eqb]. rewrite begins_app. reflexivity.
  - cbn [List.app patch_scan char_at bind]. rewrite Ho. cbn [andb is Ascii.eqb Bool.eqb bind negb].
    destruct f; cbn; rewrite ?prefix_nil; reflexivity.
  - destruct H as (t & r & -> & N & D). cbn [List.app patch_scan char_at bind]. rewrite Ho. cbn [andb is Ascii.eqb Bool.eqb bind negb].
    rewrite (num_prefix t z r N D). cbn [fst]. rewrite stored_int.
    destruct (Z.ltb_spec (stored z) 0); [lia|]. reflexivity.
  - cbn [List.app patch_scan char_at bind]. rewrite Ho. cbn [andb is Ascii.eqb Bool.eqb bind negb].
    rewrite (no_int_value _ H). reflexivity.
Qed.
Lemma patch_scan_version : forall b w, pwrites (PVersion b) w -> forall o rest, po_reading o = true ->
  patch_scan o (w ++ rest) = Ok (PReturn 0 (Version b)).
Proof. intros b w H o rest Ho. inversion H; subst; cbn; rewrite Ho; cbn; rewrite ?prefix_nil; reflexivity. Qed.

Definition ptake (f : string) (o : popts) : popts := match po_input o with None => pset_input f o | Some _ => o end.
Lemma patch_scan_file : forall f o rest, po_reading o = false \/ prefix "-" f = false -> patch_scan o (f :: rest) = patch_scan (ptake f o) rest.
Proof.
  intros f o rest H. unfold ptake. cbn [patch_scan]. destruct f as [|c f].
  - cbn. rewrite andb_false_r. cbn. destruct (po_input o); reflexivity.
  - cbn [char_at bind]. assert (E : po_reading o && is c "-" = false).
    { destruct H as [->|H]; [reflexivity|]. rewrite (not_dash c f H). apply andb_false_r. }
    rewrite E. cbn [bind]. destruct (po_input o); reflexivity.
Qed.
Definition ptakes (fs : list string) (o : popts) : popts := fold_left (fun o f => ptake f o) fs o.
Lemma ptake_reading : forall f o, po_reading (ptake f o) = po_reading o.
Proof. intros f o. unfold ptake. destruct (po_input o); reflexivity. Qed.
Lemma patch_scan_files : forall fs o, po_reading o = false -> patch_scan o fs = Ok (PContinue (ptakes fs o)).
Proof.
  induction fs as [|f fs IH]; intros o Ho; [reflexivity|]. rewrite patch_scan_file by auto. unfold ptakes. cbn [fold_left].
  apply IH. rewrite ptake_reading. auto.
Qed.

Lemma final_cons : forall A (f : popt -> option A) d p l,
  final f d (p :: l) = final f (match f p with Some a => a | None => d end) l.
Proof.
  intros A f d p l. unfold final. cbn [flat_map]. destruct (f p) as [a|]; [|reflexivity]. cbn [List.app]. apply last_snoc_default.
Qed.
Definition f_format (o : popt) := match o with PType f => Some f | _ => None end.
Definition f_metric (o : popt) := match o with PMetric s => Some (Some s) | _ => None end.
Definition f_aut (o : popt) := match o with PAut s => Some (Some s) | _ => None end.
Definition f_changes (o : popt) := match o with PChanges s => Some (Some s) | _ => None end.
Definition f_goal (o : popt) := match o with PGoal s => Some (Some s) | _ => None end.
Definition f_remove (o : popt) := match o with PRemove k => Some k | _ => None end.
Definition f_output (o : popt) := match o with POut s => Some (Some s) | _ => None end.
(** what the loop leaves: the settings after [l] and [files] from [o] *)
Definition after (l : list popt) (files : list string) (o o' : popts) : Prop :=
  po_format o' = final f_format (po_format o) l /\ po_metric o' = final f_metric (po_metric o) l /\
  po_aut o' = final f_aut (po_aut o) l /\ po_edges o' = final f_changes (po_edges o) l /\
  po_formula o' = final f_goal (po_formula o) l /\ po_remove o' = final f_remove (po_remove o) l /\
  po_output o' = final f_output (po_output o) l /\
  po_input o' = match po_input o with Some f => Some f | None => hd_error files end /\
  (po_ptdump o' = true <-> po_ptdump o = true \/ In PDump l) /\
  (po_logging o' = true <-> po_logging o = true \/ In PLog l) /\
  (po_help o' = true <-> po_help o = true \/ In PHelp l) /\
  (po_patch o' = true <-> po_patch o = true \/ exists q, In q l /\ (f_changes q <> None \/ f_goal q <> None \/ f_remove q <> None)) /\
  po_verbose o' mod 256 = (po_verbose o + pverbosity l) mod 256 /\
  (0 <= po_verbose o < 256 -> 0 <= po_verbose o' < 256).
Lemma after_nil : forall o, after [] [] o o.
Proof.
  intros o. unfold after, final. cbn. rewrite Z.add_0_r. destruct (po_input o); intuition.
  all: match goal with H : exists _, _ |- _ => destruct H as (? & [] & _) end.
Qed.
Lemma after_step : forall p l files o o', (forall z, p = PRemove z -> True) -> after l files (pstep p o) o' -> after (p :: l) files o o'.
Proof.
  intros p l files o o' _ (H1 & H2 & H3 & H4 & H5 & H6 & H7 & H8 & H9 & H10 & H11 & H12 & H13 & H14). unfold after. rewrite !final_cons. cbn [In].
  split; [rewrite H1; destruct p; reflexivity|]. split; [rewrite H2; destruct p; reflexivity|].
  split; [rewrite H3; destruct p; reflexivity|]. split; [rewrite H4; destruct p; reflexivity|].
  split; [rewrite H5; destruct p; reflexivity|]. split; [rewrite H6; destruct p; reflexivity|].
  split; [rewrite H7; destruct p; reflexivity|].
  split; [rewrite H8, (proj2 (pstep_reading p o)); reflexivity|].
  split; [rewrite H9; destruct p; cbn; intuition discriminate|].
  split; [rewrite H10; destruct p; cbn; intuition discriminate|].
  split; [rewrite H11; destruct p; cbn; intuition discriminate|].
  split.
  - rewrite H12. split.
    + intros [X|(q & Hq & X)]; [|right; exists q; tauto].
      destruct p; cbn in X; auto; right; eexists; (split; [left; reflexivity|cbn; intuition discriminate]).
    + intros [X|(q & [<-|Hq] & X)]; [left|left|right; exists q; tauto].
      * destruct p; cbn; auto.
      * destruct p; cbn in X |- *; intuition congruence.
  - split.
    + rewrite H13. destruct p; try reflexivity. cbn [pstep pmore_verbose po_verbose pverbosity].
      rewrite Zplus_mod_idemp_l. f_equal. lia.
    + intros Hv. apply H14. destruct p; cbn [pstep pmore_verbose po_verbose]; auto. apply Z.mod_pos_bound. lia.
Qed.
Lemma after_take : forall f l files o o', after l files (ptake f o) o' -> after l (f :: files) o o'.
Proof.
  intros f l files o o'. unfold after, ptake. cbn [hd_error].
  destruct (po_input o) eqn:E; cbn; rewrite ?E; intuition.
Qed.
Lemma after_stop : forall l files o o', after l files (pstop_reading o) o' -> after l files o o'.
Proof. intros l files o o' H. exact H. Qed.
Lemma ptakes_after : forall fs o, after [] fs o (ptakes fs o).
Proof.
  induction fs as [|f fs IH]; intros o; [apply after_nil|]. apply after_take. apply IH.
Qed.
Lemma patch_scan_line : forall args l files, pline args l files -> no_pversion l -> forall o, po_reading o = true ->
  exists o', patch_scan o args = Ok (PContinue o') /\ after l files o o'.
Proof.
  induction 1 as [|p w args l files Hw Hl IH|f args l files Hf Hl IH|fs]; intros Hv o Ho.
  - exists o. split; [reflexivity|apply after_nil].
  - destruct (IH (fun b Hb => Hv b (or_intror Hb)) (pstep p o)) as (o' & E & Ha); [rewrite (proj1 (pstep_reading p o)); auto|].
    exists o'. split; [|apply after_step; auto]. rewrite (patch_scan_writes p w); auto. intros b ->. apply (Hv b). cbn. auto.
  - destruct (IH Hv (ptake f o)) as (o' & E & Ha); [rewrite ptake_reading; auto|].
    exists o'. split; [rewrite patch_scan_file; auto|apply after_take; auto].
  - exists (ptakes fs (pstop_reading o)). split.
    + cbn [patch_scan char_at bind]. rewrite Ho. cbn [andb is Ascii.eqb Bool.eqb bind negb].
      change (is NUL NUL) with true. cbn match. apply patch_scan_files. reflexivity.
    + apply after_stop, ptakes_after.
Qed.
Lemma line_removes : forall args l files, pline args l files -> forall k, In (PRemove k) l -> 0 <= k.
Proof.
  induction 1 as [|p w args l files Hw Hl IH|f args l files Hf Hl IH|fs]; intros k Hk; try contradiction; auto.
  destruct Hk as [->|Hk]; auto. inversion Hw; subst; lia.
Qed.
Lemma final_remove : forall l d, (forall k, In (PRemove k) l -> 0 <= k) ->
  (final f_remove d l = match the_removal l with Some k => k | None => d end) /\
  (forall k, the_removal l = Some k -> 0 <= k).
Proof.
  unfold the_removal. intros l d H.
  assert (K : forall l a b, (a = None /\ b = d \/ a = Some b /\ 0 <= b) -> (forall k, In (PRemove k) l -> 0 <= k) ->
    final f_remove b l = match final (fun o => match o with PRemove k => Some (Some k) | _ => None end) a l with Some k => k | None => d end /\
    (forall k, final (fun o => match o with PRemove k => Some (Some k) | _ => None end) a l = Some k -> 0 <= k)).
  { clear. induction l as [|p l IH]; intros a b Hab Hk.
    - unfold final. cbn. destruct Hab as [[-> ->]|[-> Hb]]; split; auto; intros k E; congruence.
    - rewrite !final_cons. apply IH; [|intros; apply Hk; right; auto].
      destruct p; cbn; auto. right. split; auto. apply Hk. left. auto. }
  apply K; auto.
Qed.
Lemma final_given : forall A (f : popt -> option (option A)) l, (forall q, f q <> Some None) ->
  (final f None l <> None <-> exists q, In q l /\ f q <> None).
Proof.
  intros A f l Hf.
  assert (K : forall d, final f d l <> None <-> d <> None \/ exists q, In q l /\ f q <> None).
  { induction l as [|p l IH]; intros d.
    - unfold final. cbn. firstorder.
    - rewrite final_cons, IH. destruct (f p) as [x|] eqn:E.
      + split.
        * intros _. right. exists p. rewrite E. split; [left; auto|discriminate].
        * intros _. left. intros ->. exact (Hf p E).
      + split.
        * intros [X|(q & X & Y)]; [auto|]. right. exists q. split; [right; auto|auto].
        * intros [X|(q & [<-|X] & Y)]; [auto|congruence|]. right. eauto. }
  rewrite K. tauto.
Qed.
Lemma given_iff : forall A (o : option A), given o = true <-> o <> None.
Proof. intros A [a|]; cbn; split; congruence. Qed.
Lemma given_not : forall A (o : option A), given o = false <-> o = None.
Proof. intros A [a|]; cbn; split; congruence. Qed.

Lemma patch_options_accepted : forall args l files, pline args l files -> no_pversion l ->
  (conflict l -> patch_options args = Ok (PStop 1 Nothing)) /\
  (~ conflict l -> In PHelp l -> patch_options args = Ok (PStop 0 Usage)) /\
  (~ conflict l -> ~ In PHelp l -> asked_for l = None -> patch_options args = Ok (PStop 1 Nothing)) /\
  (~ conflict l -> ~ In PHelp l -> asked_for l <> None -> both_stdin l files -> patch_options args = Ok (PStop 1 Refused)) /\
  (~ conflict l -> ~ In PHelp l -> asked_for l <> None -> ~ both_stdin l files ->
     exists o, patch_options args = Ok (PGo o) /\ psettings l files o).
Proof.
  intros args l files Hl Hv. destruct (patch_scan_line args l files Hl Hv default_popts eq_refl) as (o & E & Ha).
  destruct (final_remove l (-1) (line_removes _ _ _ Hl)) as [Hrm Hrm0].
  destruct Ha as (H1 & H2 & H3 & H4 & H5 & H6 & H7 & H8 & H9 & H10 & H11 & H12 & H13 & H14). unfold patch_options. rewrite E. cbn [bind].
  change (final f_aut (po_aut default_popts) l) with (the_aut l) in H3.
  change (final f_changes (po_edges default_popts) l) with (the_changes l) in H4.
  change (final f_goal (po_formula default_popts) l) with (the_goal l) in H5.
  change (po_remove default_popts) with (-1) in H6. rewrite Hrm in H6. cbn in H8, H9, H10, H11.
  assert (HR : (0 <=? po_remove o) = given (the_removal l)).
  { rewrite H6. destruct (the_removal l) as [k|] eqn:K; cbn [given]; [apply Z.leb_le; apply Hrm0; auto|reflexivity]. }
  assert (HA : asked_for l <> None <-> given (the_changes l) || given (the_goal l) || given (the_removal l) = true).
  { unfold asked_for. destruct (the_changes l), (the_goal l), (the_removal l); cbn; split; congruence. }
  assert (HP : po_patch o = given (the_changes l) || given (the_goal l) || given (the_removal l)).
  { apply Bool.eq_iff_eq_true. rewrite H12, !orb_true_iff, !given_iff. unfold the_changes, the_goal, the_removal.
    rewrite !final_given by (intros q; destruct q; discriminate). cbn [po_patch default_popts]. split.
    - intros [X|(q & Hq & X)]; [discriminate X|]. destruct q; cbn in X; try tauto.
      + left. left. eexists. split; [exact Hq|discriminate].
      + left. right. eexists. split; [exact Hq|discriminate].
      + right. eexists. split; [exact Hq|discriminate].
    - intros [[(q & Hq & X)|(q & Hq & X)]|(q & Hq & X)]; right; exists q; (split; [exact Hq|]); destruct q; cbn; try congruence; auto;
        right; right; discriminate. }
  rewrite H3, H4, H5, HR.
  assert (HC : conflict l <-> (given (the_changes l) && given (the_goal l) || (given (the_changes l) && negb (given (the_aut l))) ||
      (given (the_goal l) && negb (given (the_aut l))) || (given (the_removal l) && negb (given (the_aut l)))) = true).
  { unfold conflict. rewrite HA. destruct (the_changes l), (the_goal l), (the_removal l), (the_aut l); cbn; intuition congruence. }
  split; [|split; [|split; [|split]]].
  - intros C. apply HC in C.
    repeat match goal with |- (if ?b then _ else _) = _ => destruct b; [reflexivity|]; cbn [orb] in C end. discriminate C.
  - intros C Hh. assert (C' : ~ _ = true) by exact (fun X => C (proj2 HC X)). apply Bool.not_true_is_false in C'.
    rewrite !orb_false_iff in C'. destruct C' as [[[C1 C2] C3] C4]. rewrite C1, C2, C3, C4.
    rewrite (proj2 H11) by auto. reflexivity.
  - intros C Hh Hn. assert (C' : ~ _ = true) by exact (fun X => C (proj2 HC X)). apply Bool.not_true_is_false in C'.
    rewrite !orb_false_iff in C'. destruct C' as [[[C1 C2] C3] C4]. rewrite C1, C2, C3, C4.
    assert (X : po_help o = false) by (destruct (po_help o); auto; exfalso; destruct (proj1 H11 eq_refl); [discriminate|auto]). rewrite X.
    assert (Y : po_patch o = false). { rewrite HP. apply Bool.not_true_is_false. intros Q. apply HA in Q. auto. }
    rewrite Y, andb_false_r. reflexivity.
  - intros C Hh Hn [Hf (a & Hs & Hp)]. assert (C' : ~ _ = true) by exact (fun X => C (proj2 HC X)). apply Bool.not_true_is_false in C'.
    rewrite !orb_false_iff in C'. destruct C' as [[[C1 C2] C3] C4]. rewrite C1, C2, C3, C4.
    assert (X : po_help o = false) by (destruct (po_help o); auto; exfalso; destruct (proj1 H11 eq_refl); [discriminate|auto]). rewrite X.
    assert (Y : po_patch o = true) by (rewrite HP; apply HA; auto). rewrite Y, H8, Hf, Hs. cbn [hd_error given negb andb bind].
    unfold begins. rewrite Hp. reflexivity.
  - intros C Hh Hn Hb. assert (C' : ~ _ = true) by exact (fun X => C (proj2 HC X)). apply Bool.not_true_is_false in C'.
    pose proof C as C0.
    rewrite !orb_false_iff in C'. destruct C' as [[[C1 C2] C3] C4]. rewrite C1, C2, C3, C4.
    assert (X : po_help o = false) by (destruct (po_help o); auto; exfalso; destruct (proj1 H11 eq_refl); [discriminate|auto]). rewrite X.
    assert (Y : po_patch o = true) by (rewrite HP; apply HA; auto). rewrite Y, H8.
    destruct (the_aut l) as [a|] eqn:Ea; [|exfalso; apply C0; right; auto].
    assert (Z : negb (given (hd_error files)) && begins "-" a = false).
    { destruct files as [|f fs]; cbn; auto. destruct (begins "-" a) eqn:Q; auto. exfalso. apply Hb. split; auto. exists a. auto. }
    assert (G : (if negb (given (hd_error files)) && true then Ok (begins "-" a) else Ok false) = Ok false :> out bool).
    { destruct (hd_error files); cbn in Z |- *; auto. rewrite Z. reflexivity. }
    rewrite G. cbn [bind negb]. exists o. split; [reflexivity|].
    specialize (H14 ltac:(cbn; lia)). rewrite (Z.mod_small _ _ H14) in H13.
    change (po_verbose default_popts) with 0 in H13. rewrite Z.add_0_l in H13.
    unfold psettings. rewrite Ea. cbn in H1, H2, H7.
    repeat split; auto; try (intros Q; first [apply H9 in Q|apply H10 in Q]; destruct Q; [discriminate|auto]);
      intros Q; first [apply H9|apply H10]; auto.
Qed.
Lemma patch_options_version : forall args b, pversion b args -> patch_options args = Ok (PStop 0 (Version b)).
Proof.
  intros args b H. assert (K : forall o, po_reading o = true -> patch_scan o args = Ok (PReturn 0 (Version b))).
  { induction H as [w rest Hw|p w args Hv Hw H IH|f args Hf H IH]; intros o Ho.
    - apply patch_scan_version; auto.
    - rewrite (patch_scan_writes p w); auto. apply IH. rewrite (proj1 (pstep_reading p o)). auto.
    - rewrite patch_scan_file; auto. apply IH. rewrite ptake_reading. auto. }
  unfold patch_options. rewrite K; reflexivity.
Qed.

(** ** Everything else is rejected *)
Definition paccepted (args : list string) (r : pscanned) : Prop :=
  (exists l files, pline args l files /\ no_pversion l) \/ (exists b, pversion b args) \/ r = PReturn 1 Nothing.
Lemma paccepted_more : forall p w args r, pwrites p w -> (forall b, p <> PVersion b) -> paccepted args r ->
  paccepted (w ++ args) r.
Proof.
  intros p w args r Hw Hp [(l & files & H1 & H2)|[(b & H)|H]].
  - left. exists (p :: l), files. split; [constructor; auto|]. intros b [H|H]; [eapply Hp; eauto|eapply H2; eauto].
  - right. left. exists b. eapply pv_opt; eauto.
  - right. right. auto.
Qed.
Lemma patch_scan_sound : forall n args o r, (List.length args <= n)%nat -> (forall a, In a args -> c_string a) ->
  po_reading o = true -> patch_scan o args = Ok r -> paccepted args r.
Proof.
  assert (NV : no_pversion []) by (intros b []).
  induction n as [|n IH]; intros args o r Hn Hc Ho H.
  { destruct args; [|cbn in Hn; lia]. left. exists [], []. split; [constructor|auto]. }
  destruct args as [|a rest].
  { left. exists [], []. split; [constructor|auto]. }
  cbn [List.length] in Hn. assert (Hr : forall a, In a rest -> c_string a) by (intros; apply Hc; cbn; auto).
  assert (Ha : c_string a) by (apply Hc; cbn; auto).
  assert (Q : forall p w o', pwrites p w -> (forall b, p <> PVersion b) -> w ++ rest = a :: rest -> o' = pstep p o ->
    patch_scan o' rest = Ok r -> paccepted (a :: rest) r).
  { intros p w o' Hw Hp E -> Hs. rewrite <- E. apply (paccepted_more p w rest r Hw Hp).
    apply (IH rest (pstep p o)); auto; try lia; rewrite (proj1 (pstep_reading p o)); auto. }
  assert (Q2 : forall p b rest' o', rest = b :: rest' -> pwrites p [a; b] -> (forall b, p <> PVersion b) -> o' = pstep p o ->
    patch_scan o' rest' = Ok r -> paccepted (a :: rest) r).
  { intros p b rest' o' -> Hw Hp -> Hs. change (a :: b :: rest') with ([a; b] ++ rest'). apply (paccepted_more p [a; b] rest' r Hw Hp).
    apply (IH rest' (pstep p o)); auto; try (cbn in Hn; lia); rewrite ?(proj1 (pstep_reading p o)); auto.
    intros; apply Hr; cbn; auto. }
  assert (QF : prefix "-" a = false -> paccepted (a :: rest) r).
  { intros Hf. rewrite patch_scan_file in H by auto.
    destruct (IH rest (ptake a o) r) as [(l & files & X1 & X2)|[(b & X)|X]]; auto; try lia; [rewrite ptake_reading; auto| | |].
    - left. exists l, (a :: files). split; [apply pl_file; auto|auto].
    - right. left. exists b. apply pv_file; auto.
    - right. right. auto. }
  destruct a as [|c0 a]; [apply QF; reflexivity|].
  destruct (is c0 "-") eqn:E0.
  2:{ apply QF. change (prefix "-" (String c0 a)) with (if ascii_dec "-" c0 then prefix "" a else false).
      destruct (ascii_dec "-" c0) as [<-|]; [discriminate E0|reflexivity]. }
  cbn [patch_scan char_at bind] in H. rewrite Ho, E0 in H. cbn [andb] in H.
  apply is_true in E0. subst c0. clear QF. destruct a as [|c1 a].
  { cbn in H. discriminate H. }
  cbn [char_at bind] in H. destruct (is c1 "-") eqn:E1.
  - (* long options *)
    apply is_true in E1. subst c1. cbn [negb] in H. destruct a as [|c2 a].
    + left. exists [], rest. split; [constructor|auto].
    + cbn [char_at bind] in H. destruct (is c2 NUL) eqn:E2.
      { apply is_true in E2. subst c2. exfalso. destruct Ha as (_ & _ & Ha & _). congruence. }
      destruct (begins "--help" (String "-" (String "-" (String c2 a)))) eqn:B1.
      { apply begins_inv in B1. destruct B1 as (x & B1). apply (Q PHelp [String "-" (String "-" (String c2 a))] (pset_help o)); [| |reflexivity|reflexivity|exact H].
        - rewrite B1. constructor.
        - discriminate. }
      destruct (begins "--version" (String "-" (String "-" (String c2 a)))) eqn:B2.
      { apply begins_inv in B2. destruct B2 as (x & B2). right. left. exists false.
        apply (pv_here false [String "-" (String "-" (String c2 a))] rest). rewrite B2. constructor. }
      right. right. congruence.
  - (* short options *)
    cbn [negb] in H. assert (Hs : c_string a) by (destruct Ha as (_ & _ & Ha); exact Ha).
    destruct a as [|c2 a].
    + cbn [char_at bind] in H. change (is NUL NUL) with true in H. cbn [negb andb] in H.
      destruct (is c1 "h") eqn:X. { apply is_true in X. subst. apply (Q PHelp ["-h"] (pstep PHelp o)); auto; [constructor|discriminate]. }
      clear X; destruct (is c1 "V") eqn:X. { apply is_true in X. subst. right. left. exists true. apply (pv_here true ["-V"] rest). constructor. }
      clear X; destruct (is c1 "v") eqn:X. { apply is_true in X. subst. apply (Q (PVerbose false) ["-v"] (pstep (PVerbose false) o)); auto; [constructor|discriminate]. }
      clear X; destruct (is c1 "l") eqn:X. { apply is_true in X. subst. apply (Q PLog ["-l"] (pstep PLog o)); auto; [constructor|discriminate]. }
      clear X; destruct (is c1 "p") eqn:X. { apply is_true in X. subst. apply (Q PDump ["-p"] (pstep PDump o)); auto; [constructor|discriminate]. }
      clear X; destruct (is c1 "m") eqn:X.
      { apply is_true in X. subst. destruct rest as [|b rest']; [right; right; congruence|].
        eapply (Q2 (PMetric b)); eauto; [constructor|discriminate]. }
      clear X; destruct (is c1 "t") eqn:X.
      { apply is_true in X. subst. destruct rest as [|b rest']; [right; right; congruence|].
        destruct (begins "txt" b) eqn:B.
        { apply begins_inv in B. destruct B as (x & ->). eapply (Q2 (PType FORMAT_TEXT)); eauto; [apply (pw_t FORMAT_TEXT)|discriminate]. }
        clear B; destruct (begins "tulip" b) eqn:B.
        { apply begins_inv in B. destruct B as (x & ->). eapply (Q2 (PType FORMAT_TULIP)); eauto; [apply (pw_t FORMAT_TULIP)|discriminate]. }
        clear B; destruct (begins "dot" b) eqn:B.
        { apply begins_inv in B. destruct B as (x & ->). eapply (Q2 (PType FORMAT_DOT)); eauto; [apply (pw_t FORMAT_DOT)|discriminate]. }
        clear B; destruct (begins "aut" b) eqn:B.
        { apply begins_inv in B. destruct B as (x & ->). eapply (Q2 (PType FORMAT_AUT)); eauto; [apply (pw_t FORMAT_AUT)|discriminate]. }
        clear B; destruct (begins "json" b) eqn:B.
        { apply begins_inv in B. destruct B as (x & ->). eapply (Q2 (PType FORMAT_JSON)); eauto; [apply (pw_t FORMAT_JSON)|discriminate]. }
        right. right. congruence. }
      clear X; destruct (is c1 "e") eqn:X.
      { apply is_true in X. subst. destruct rest as [|b rest']; [right; right; congruence|].
        eapply (Q2 (PChanges b)); eauto; [constructor|discriminate]. }
      clear X; destruct (is c1 "a") eqn:X.
      { apply is_true in X. subst. destruct rest as [|b rest']; [right; right; congruence|].
        eapply (Q2 (PAut b)); eauto; [constructor|discriminate]. }
      clear X; destruct (is c1 "o") eqn:X.
      { apply is_true in X. subst. destruct rest as [|b rest']; [right; right; congruence|].
        eapply (Q2 (POut b)); eauto; [constructor|discriminate]. }
      clear X; destruct (is c1 "f") eqn:X.
      { apply is_true in X. subst. destruct rest as [|b rest']; [right; right; congruence|].
        eapply (Q2 (PGoal b)); eauto; [constructor|discriminate]. }
      clear X; destruct (is c1 "r") eqn:X.
      { apply is_true in X. subst. destruct rest as [|b rest']; [right; right; congruence|].
        destruct (Z.ltb_spec (to_int (fst (strtol b))) 0) as [L|L]; [right; right; congruence|].
        destruct (strtol_cases b) as [(t & z & u & -> & N & D & E)|[N E]].
        - eapply (Q2 (PRemove (stored z)) (t ++ u)%string); [reflexivity| |discriminate| |exact H].
          + apply pw_r; [exists t, u; auto|]. rewrite E in L. cbn [fst] in L. rewrite stored_int in L. exact L.
          + rewrite E. cbn [fst pstep]. rewrite stored_int. reflexivity.
        - eapply (Q2 (PRemove 0) b); [reflexivity| |discriminate| |exact H].
          + apply pw_r0. exact N.
          + rewrite E. reflexivity. }
      right. right. congruence.
    + cbn [char_at bind] in H. assert (N : is c2 NUL = false).
      { apply Ascii.eqb_neq. destruct Hs as [Hs _]. exact Hs. }
      rewrite N in H. cbn [negb andb] in H. destruct (is c1 "v" && is c2 "v") eqn:V; cbn [negb] in H; [|right; right; congruence].
      apply andb_true_iff in V. destruct V as [V1 V2]. apply is_true in V1. apply is_true in V2. subst.
      apply (Q (PVerbose true) [("-vv" ++ a)%string] (pstep (PVerbose true) o)); [apply (pw_vv a)|discriminate|reflexivity|reflexivity|exact H].
Qed.
Lemma patch_options_rejected : forall args s, (forall a, In a args -> c_string a) ->
  (forall l files, ~ pline args l files) -> (forall b, ~ pversion b args) ->
  patch_options args = Ok s -> s = PStop 1 Nothing.
Proof.
  intros args s Hc Hl Hv H. unfold patch_options in H. apply bind_ok in H. destruct H as (r & H & E).
  destruct (patch_scan_sound (List.length args) args default_popts r (le_n _) Hc eq_refl H) as [(l & files & X & _)|[(b & X)| ->]].
  - exfalso. eapply Hl; eauto.
  - exfalso. eapply Hv; eauto.
  - congruence.
Qed.
Lemma patch_scan_defined : forall n args o, (List.length args <= n)%nat -> (forall a, In a args -> a <> "-") ->
  exists r, patch_scan o args = Ok r.
Proof.
  induction n as [|n IH]; intros args o Hn Hd.
  { destruct args; [|cbn in Hn; lia]. cbn. eauto. }
  destruct args as [|a rest]; [cbn; eauto|]. cbn [List.length] in Hn.
  assert (Hr : forall o, exists r, patch_scan o rest = Ok r) by (intros; apply IH; [lia|intros; apply Hd; cbn; auto]).
  assert (Hr2 : forall b rest' o, rest = b :: rest' -> exists r, patch_scan o rest' = Ok r).
  { intros b rest' o' ->. apply IH; [cbn in Hn; lia|intros; apply Hd; cbn; auto]. }
  cbn [patch_scan]. destruct a as [|c0 a].
  { cbn. rewrite andb_false_r. cbn. destruct (po_input o); apply Hr. }
  cbn [char_at bind]. destruct (po_reading o && is c0 "-") eqn:E0.
  2:{ cbn [bind]. destruct (po_input o); apply Hr. }
  destruct a as [|c1 a].
  { exfalso. apply andb_true_iff in E0. destruct E0 as [_ E0]. apply is_true in E0. subst. apply (Hd "-"); cbn; auto. }
  cbn [char_at bind]. assert (C2 : exists c2, char_at a 0 = Ok c2) by (destruct a; cbn; eauto). destruct C2 as (c2 & C2).
  rewrite C2. cbn [bind].
  destruct (is c1 "-"); cbn [negb].
  { repeat match goal with |- exists r, (if ?b then _ else _) = Ok r => destruct b end; eauto. }
  repeat match goal with
    | |- exists r, (if ?b then _ else _) = Ok r => destruct b
    | |- exists r, (match ?l with [] => _ | _ :: _ => _ end) = Ok r => destruct l eqn:?
    | |- exists r, (let _ := _ in _) = Ok r => cbv zeta
    end; eauto.
Qed.
Lemma patch_options_defined : forall args l files, pline args l files -> exists s, patch_options args = Ok s.
Proof.
  intros args l files Hl.
  assert (D : no_pversion l \/ exists b, In (PVersion b) l).
  { clear. induction l as [|p l IH]; [left; intros b []|]. destruct IH as [IH|(b & IH)]; [|right; exists b; right; auto].
    destruct p; try (left; intros c [X|X]; [discriminate X|exact (IH c X)]). right. eexists. left. reflexivity. }
  destruct D as [D|(b & D)].
  - destruct (patch_options_accepted args l files Hl D) as (H1 & H2 & H3 & H4 & H5).
    unfold patch_options in *. destruct (patch_scan_line args l files Hl D default_popts eq_refl) as (o & E & Ha). rewrite E in *. cbn [bind] in *.
    assert (G : forall (P : Prop) (x : out pstart_t), (P -> exists s, x = Ok s) -> (~ P -> exists s, x = Ok s) -> exists s, x = Ok s).
    { intros P x X Y. destruct x as [v| |]; eauto; exfalso;
      (assert (~ P) by (intros Z; destruct (X Z); discriminate)); destruct (Y H); discriminate. }
    apply (G (conflict l)); [intros C; rewrite (H1 C); eauto|intros C].
    apply (G (In PHelp l)); [intros Hh; rewrite (H2 C Hh); eauto|intros Hh].
    apply (G (asked_for l = None)); [intros Hn; rewrite (H3 C Hh Hn); eauto|intros Hn].
    apply (G (both_stdin l files)); [intros Hb; rewrite (H4 C Hh Hn Hb); eauto|intros Hb].
    destruct (H5 C Hh Hn Hb) as (o' & X & _). eauto.
  - assert (V : exists b, pversion b args).
    { clear - Hl D. induction Hl as [|p w args l files Hw Hl IH|f args l files Hf Hl IH|fs]; try contradiction.
      - destruct p as [ | c | | | | | | | | | | ]; try (destruct D as [D|D]; [discriminate D|]; destruct (IH D) as (c & Hc); exists c; eapply pv_opt; eauto; discriminate).
        exists c. apply pv_here. auto.
      - destruct (IH D) as (c & Hc). exists c. apply pv_file; auto. }
    destruct V as (c & Hc). rewrite (patch_options_version _ _ Hc). eauto.
Qed.
