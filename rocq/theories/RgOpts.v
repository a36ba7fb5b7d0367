(** Proofs about the command line of gr1c-rg. *)
From Coq Require Import List ZArith Lia Bool Arith Ascii String.
From Verif Require Import Base Strs Solve Output JsonSpec Options OptSpec OptProofs Rg RgSpec.
Import ListNotations.
Open Scope string_scope.
Open Scope list_scope.
Open Scope Z_scope.

Lemma rg_scan_writes : forall p w, writes p w -> rg_opt p -> (forall b, p <> OVersion b) -> forall o rest, o_reading o = true ->
  rg_scan o (w ++ rest) = rg_scan (step p o) rest.
Proof.
  intros p w H Hg Hv o rest Ho. destruct H; try (exfalso; eapply Hv; reflexivity); try contradiction Hg.
  all: try (cbn; rewrite Ho; reflexivity).
  - cbn [List.app rg_scan]. change (char_at ("--help" ++ x) 0) with (Ok "-"%char). cbn [bind]. rewrite Ho. cbn [andb is Ascii.eqb Bool.eqb].
    change (char_at ("--help" ++ x) 1) with (Ok "-"%char). cbn [bind negb is Ascii.eqb Bool.eqb].
    change (char_at ("--help" ++ x) 2) with (Ok "h"%char). cbn [bind is Ascii.eqb Bool.eqb]. rewrite begins_app. reflexivity.
  - cbn [List.app rg_scan char_at bind]. rewrite Ho. cbn [andb is Ascii.eqb Bool.eqb bind negb].
    destruct f; cbn; rewrite ?prefix_nil; reflexivity.
  - destruct (lower_total x H1) as [x' Hx].
    assert (L : lower_all (s ++ x) = Ok (n ++ x')%string) by (apply lower_app; auto; apply lower_like; auto; eapply init_low; eauto).
    cbn [List.app rg_scan char_at bind]. rewrite Ho. cbn [andb is Ascii.eqb Bool.eqb bind negb]. rewrite L. cbn [bind].
    destruct H; try discriminate Hg. cbn; rewrite ?prefix_nil; reflexivity.
Qed.
Lemma rg_scan_version : forall b w, writes (OVersion b) w -> forall o rest, o_reading o = true ->
  rg_scan o (w ++ rest) = Ok (Return 0 (Version b)).
Proof. intros b w H o rest Ho. inversion H; subst; cbn; rewrite Ho; cbn; rewrite ?prefix_nil; reflexivity. Qed.

Definition take (f : string) (o : opts) : opts := match o_input o with None => set_input f o | Some _ => o end.
Lemma not_dash : forall c f, prefix "-" (String c f) = false -> is c "-" = false.
Proof.
  intros c f H. unfold is. apply Ascii.eqb_neq. intros ->. cbn in H. rewrite prefix_nil in H. discriminate H.
Qed.
Lemma rg_scan_file : forall f o rest, o_reading o = false \/ prefix "-" f = false -> rg_scan o (f :: rest) = rg_scan (take f o) rest.
Proof.
  intros f o rest H. unfold take. cbn [rg_scan]. destruct f as [|c f].
  - cbn. rewrite andb_false_r. cbn. destruct (o_input o); reflexivity.
  - cbn [char_at bind]. assert (E : o_reading o && is c "-" = false).
    { destruct H as [->|H]; [reflexivity|]. rewrite (not_dash c f H). apply andb_false_r. }
    rewrite E. cbn [bind]. destruct (o_input o); reflexivity.
Qed.
Definition takes (fs : list string) (o : opts) : opts := fold_left (fun o f => take f o) fs o.
Lemma take_reading : forall f o, o_reading (take f o) = o_reading o.
Proof. intros f o. unfold take. destruct (o_input o); reflexivity. Qed.
Lemma rg_scan_files : forall fs o, o_reading o = false -> rg_scan o fs = Ok (Continue (takes fs o)).
Proof.
  induction fs as [|f fs IH]; intros o Ho; [reflexivity|]. rewrite rg_scan_file by auto. unfold takes. cbn [fold_left].
  apply IH. rewrite take_reading. auto.
Qed.

(** what the loop leaves: the settings after [l] and [files] from [o] *)
Definition after (l : list opt) (files : list string) (o o' : opts) : Prop :=
  o_run o' = chosen mode_of (o_run o) l /\ o_format o' = chosen type_of (o_format o) l /\
  (o_init o = ALL_INIT -> o_init o' = ALL_INIT) /\ o_output o' = chosen output_of (o_output o) l /\
  o_input o' = match o_input o with Some f => Some f | None => hd_error files end /\
  (o_ptdump o' = true <-> o_ptdump o = true \/ In ODump l) /\
  (o_logging o' = true <-> o_logging o = true \/ In OLog l) /\
  (o_help o' = true <-> o_help o = true \/ In OHelp l) /\
  o_verbose o' mod 256 = (o_verbose o + verbosity l) mod 256 /\
  (0 <= o_verbose o < 256 -> 0 <= o_verbose o' < 256).
Lemma after_nil : forall o, after [] [] o o.
Proof. intros o. unfold after, chosen. cbn. rewrite Z.add_0_r. destruct (o_input o); intuition. Qed.
Lemma after_step : forall p l files o o', rg_opt p -> after l files (step p o) o' -> after (p :: l) files o o'.
Proof.
  intros p l files o o' Hg (H1 & H2 & H3 & H4 & H5 & H6 & H7 & H8 & H9 & H10). unfold after. rewrite !chosen_cons. cbn [In].
  split; [rewrite H1; destruct p; reflexivity|]. split; [rewrite H2; destruct p; reflexivity|].
  split; [intros E; apply H3; destruct p; try exact E; exact Hg|]. split; [rewrite H4; destruct p; reflexivity|].
  split; [rewrite H5, (proj2 (step_reading p o)); reflexivity|].
  split; [rewrite H6; destruct p; cbn; intuition discriminate|].
  split; [rewrite H7; destruct p; cbn; intuition discriminate|].
  split; [rewrite H8; destruct p; cbn; intuition discriminate|].
  split.
  - rewrite H9. destruct p; try reflexivity. cbn [step more_verbose o_verbose verbosity].
    rewrite Zplus_mod_idemp_l. f_equal. lia.
  - intros Hv. apply H10. destruct p; cbn [step more_verbose o_verbose]; auto. apply Z.mod_pos_bound. lia.
Qed.
Lemma after_take : forall f l files o o', after l files (take f o) o' -> after l (f :: files) o o'.
Proof.
  intros f l files o o' (H1 & H2 & H3 & H4 & H5 & H6 & H7 & H8 & H9 & H10). unfold after. unfold take in *. cbn [hd_error].
  destruct (o_input o) eqn:E; cbn in *; rewrite ?E in H5; intuition.
Qed.
Lemma after_stop : forall l files o o', after l files (stop_reading o) o' -> after l files o o'.
Proof. intros l files o o' H. exact H. Qed.
Lemma takes_after : forall fs o, after [] fs o (takes fs o).
Proof.
  induction fs as [|f fs IH]; intros o; [apply after_nil|]. apply after_take. apply IH.
Qed.
Lemma rg_scan_line : forall args l files, rg_line args l files -> no_version l -> forall o, o_reading o = true ->
  exists o', rg_scan o args = Ok (Continue o') /\ after l files o o'.
Proof.
  induction 1 as [|p w args l files Hg Hw Hl IH|f args l files Hf Hl IH|fs]; intros Hv o Ho.
  - exists o. split; [reflexivity|apply after_nil].
  - destruct (IH (fun b Hb => Hv b (or_intror Hb)) (step p o)) as (o' & E & Ha); [rewrite (proj1 (step_reading p o)); auto|].
    exists o'. split; [|apply after_step; auto]. rewrite (rg_scan_writes p w); auto. intros b ->. apply (Hv b). cbn. auto.
  - destruct (IH Hv (take f o)) as (o' & E & Ha); [rewrite take_reading; auto|].
    exists o'. split; [rewrite rg_scan_file; auto|apply after_take; auto].
  - exists (takes fs (stop_reading o)). split.
    + cbn [rg_scan char_at bind]. rewrite Ho. cbn [andb is Ascii.eqb Bool.eqb bind negb].
      change (is NUL NUL) with true. cbn match. apply rg_scan_files. reflexivity.
    + apply after_stop, takes_after.
Qed.
Lemma rg_options_accepted : forall args l files, rg_line args l files -> no_version l ->
  (In OHelp l -> rg_options args = Ok (Stop 0 Usage)) /\
  (~ In OHelp l -> exists o, rg_options args = Ok (Go o) /\ rg_settings l files o).
Proof.
  intros args l files Hl Hv. destruct (rg_scan_line args l files Hl Hv rg_default_opts eq_refl) as (o & E & Ha).
  destruct Ha as (H1 & H2 & H3 & H4 & H5 & H6 & H7 & H8 & H9 & H10). unfold rg_options. rewrite E. cbn [bind].
  cbn in H6, H7, H8. split; intros Hh.
  - rewrite (proj2 H8) by auto. reflexivity.
  - assert (X : o_help o = false) by (destruct (o_help o); auto; exfalso; destruct (proj1 H8 eq_refl); [discriminate|auto]).
    rewrite X. exists o. split; [reflexivity|]. specialize (H10 ltac:(cbn; lia)). rewrite (Z.mod_small _ _ H10) in H9.
    change (o_verbose rg_default_opts) with 0 in H9. rewrite Z.add_0_l in H9.
    unfold rg_settings. cbn in H1, H2, H4, H5. intuition discriminate.
Qed.
Lemma rg_options_version : forall args b, rg_version b args -> rg_options args = Ok (Stop 0 (Version b)).
Proof.
  intros args b H. assert (K : forall o, o_reading o = true -> rg_scan o args = Ok (Return 0 (Version b))).
  { induction H as [w rest Hw|p w args Hg Hv Hw H IH|f args Hf H IH]; intros o Ho.
    - apply rg_scan_version; auto.
    - rewrite (rg_scan_writes p w); auto. apply IH. rewrite (proj1 (step_reading p o)). auto.
    - rewrite rg_scan_file; auto. apply IH. rewrite take_reading. auto. }
  unfold rg_options. rewrite K; reflexivity.
Qed.

(** ** Everything else is rejected *)
Definition rg_accepted (args : list string) (r : scanned) : Prop :=
  (exists l files, rg_line args l files /\ no_version l) \/ (exists b, rg_version b args) \/ r = Return 1 Nothing.
Lemma rg_accepted_more : forall p w args r, writes p w -> rg_opt p -> (forall b, p <> OVersion b) -> rg_accepted args r ->
  rg_accepted (w ++ args) r.
Proof.
  intros p w args r Hw Hg Hp [(l & files & H1 & H2)|[(b & H)|H]].
  - left. exists (p :: l), files. split; [constructor; auto|]. intros b [H|H]; [eapply Hp; eauto|eapply H2; eauto].
  - right. left. exists b. eapply rv_opt; eauto.
  - right. right. auto.
Qed.
Lemma rg_scan_sound : forall n args o r, (List.length args <= n)%nat -> (forall a, In a args -> c_string a) ->
  o_reading o = true -> rg_scan o args = Ok r -> rg_accepted args r.
Proof.
  assert (NV : no_version []) by (intros b []).
  induction n as [|n IH]; intros args o r Hn Hc Ho H.
  { destruct args; [|cbn in Hn; lia]. left. exists [], []. split; [constructor|auto]. }
  destruct args as [|a rest].
  { left. exists [], []. split; [constructor|auto]. }
  cbn [List.length] in Hn. assert (Hr : forall a, In a rest -> c_string a) by (intros; apply Hc; cbn; auto).
  assert (Ha : c_string a) by (apply Hc; cbn; auto).
  assert (Q : forall p w o', writes p w -> rg_opt p -> (forall b, p <> OVersion b) -> w ++ rest = a :: rest -> o' = step p o ->
    rg_scan o' rest = Ok r -> rg_accepted (a :: rest) r).
  { intros p w o' Hw Hg Hp E -> Hs. rewrite <- E. apply (rg_accepted_more p w rest r Hw Hg Hp).
    apply (IH rest (step p o)); auto; try lia; rewrite (proj1 (step_reading p o)); auto. }
  assert (Q2 : forall p b rest' o', rest = b :: rest' -> writes p [a; b] -> rg_opt p -> (forall b, p <> OVersion b) -> o' = step p o ->
    rg_scan o' rest' = Ok r -> rg_accepted (a :: rest) r).
  { intros p b rest' o' -> Hw Hg Hp -> Hs. change (a :: b :: rest') with ([a; b] ++ rest'). apply (rg_accepted_more p [a; b] rest' r Hw Hg Hp).
    apply (IH rest' (step p o)); auto; try (cbn in Hn; lia); rewrite ?(proj1 (step_reading p o)); auto.
    intros; apply Hr; cbn; auto. }
  assert (QF : prefix "-" a = false -> rg_accepted (a :: rest) r).
  { intros Hf. rewrite rg_scan_file in H by auto.
    destruct (IH rest (take a o) r) as [(l & files & X1 & X2)|[(b & X)|X]]; auto; try lia; [rewrite take_reading; auto| | |].
    - left. exists l, (a :: files). split; [apply rl_file; auto|auto].
    - right. left. exists b. apply rv_file; auto.
    - right. right. auto. }
  destruct a as [|c0 a]; [apply QF; reflexivity|].
  destruct (is c0 "-") eqn:E0.
  2:{ apply QF. change (prefix "-" (String c0 a)) with (if ascii_dec "-" c0 then prefix "" a else false).
      destruct (ascii_dec "-" c0) as [<-|]; [discriminate E0|reflexivity]. }
  cbn [rg_scan char_at bind] in H. rewrite Ho, E0 in H. cbn [andb] in H.
  apply is_true in E0. subst c0. clear QF. destruct a as [|c1 a].
  { cbn in H. discriminate H. }
  cbn [char_at bind] in H. destruct (is c1 "-") eqn:E1.
  - (* long options *)
    apply is_true in E1. subst c1. cbn [negb] in H. destruct a as [|c2 a].
    + left. exists [], rest. split; [constructor|auto].
    + cbn [char_at bind] in H. destruct (is c2 NUL) eqn:E2.
      { apply is_true in E2. subst c2. exfalso. destruct Ha as (_ & _ & Ha & _). congruence. }
      destruct (begins "--help" (String "-" (String "-" (String c2 a)))) eqn:B1.
      { apply begins_inv in B1. destruct B1 as (x & B1). apply (Q OHelp [String "-" (String "-" (String c2 a))] (set_help o)); [|exact I| |reflexivity|reflexivity|exact H].
        - rewrite B1. constructor.
        - discriminate. }
      destruct (begins "--version" (String "-" (String "-" (String c2 a)))) eqn:B2.
      { apply begins_inv in B2. destruct B2 as (x & B2). right. left. exists false.
        apply (rv_here false [String "-" (String "-" (String c2 a))] rest). rewrite B2. constructor. }
      right. right. congruence.
  - (* short options *)
    cbn [negb] in H. assert (Hs : c_string a) by (destruct Ha as (_ & _ & Ha); exact Ha).
    destruct a as [|c2 a].
    + cbn [char_at bind] in H. change (is NUL NUL) with true in H. cbn [negb andb] in H.
      destruct (is c1 "h") eqn:X. { apply is_true in X. subst. apply (Q OHelp ["-h"] (step OHelp o)); auto; [constructor|discriminate]. }
      clear X; destruct (is c1 "V") eqn:X. { apply is_true in X. subst. right. left. exists true. apply (rv_here true ["-V"] rest). constructor. }
      clear X; destruct (is c1 "v") eqn:X. { apply is_true in X. subst. apply (Q (OVerbose false) ["-v"] (step (OVerbose false) o)); auto; [constructor|discriminate]. }
      clear X; destruct (is c1 "l") eqn:X. { apply is_true in X. subst. apply (Q OLog ["-l"] (step OLog o)); auto; [constructor|discriminate]. }
      clear X; destruct (is c1 "s") eqn:X. { apply is_true in X. subst. apply (Q OSyntax ["-s"] (step OSyntax o)); auto; [constructor|discriminate]. }
      clear X; destruct (is c1 "p") eqn:X. { apply is_true in X. subst. apply (Q ODump ["-p"] (step ODump o)); auto; [constructor|discriminate]. }
      clear X; destruct (is c1 "t") eqn:X.
      { apply is_true in X. subst. destruct rest as [|b rest']; [right; right; congruence|].
        destruct (begins "txt" b) eqn:B.
        { apply begins_inv in B. destruct B as (x & ->). eapply (Q2 (OType FORMAT_TEXT)); eauto; [apply (w_t FORMAT_TEXT)|discriminate]. }
        clear B; destruct (begins "tulip" b) eqn:B.
        { apply begins_inv in B. destruct B as (x & ->). eapply (Q2 (OType FORMAT_TULIP)); eauto; [apply (w_t FORMAT_TULIP)|discriminate]. }
        clear B; destruct (begins "dot" b) eqn:B.
        { apply begins_inv in B. destruct B as (x & ->). eapply (Q2 (OType FORMAT_DOT)); eauto; [apply (w_t FORMAT_DOT)|discriminate]. }
        clear B; destruct (begins "aut" b) eqn:B.
        { apply begins_inv in B. destruct B as (x & ->). eapply (Q2 (OType FORMAT_AUT)); eauto; [apply (w_t FORMAT_AUT)|discriminate]. }
        clear B; destruct (begins "json" b) eqn:B.
        { apply begins_inv in B. destruct B as (x & ->). eapply (Q2 (OType FORMAT_JSON)); eauto; [apply (w_t FORMAT_JSON)|discriminate]. }
        right. right. congruence. }
      clear X; destruct (is c1 "n") eqn:X.
      { apply is_true in X. subst. destruct rest as [|b0 rest']; [right; right; congruence|].
        apply bind_ok in H. destruct H as (b & Hb & H). destruct (lower_inv _ _ Hb) as [L1 L2].
        destruct (begins "all_init" b) eqn:B; [|right; right; congruence].
        apply begins_inv in B. destruct B as (x & ->). destruct (like_split _ _ _ L1) as (s1 & s2 & -> & L3).
        apply chars_split in L2. destruct L2 as [_ L2].
        apply (Q2 (OInit ALL_INIT) (s1 ++ s2)%string rest' (set_init_flags ALL_INIT o));
          [reflexivity|exact (w_n _ _ _ _ in_all L3 L2)|reflexivity|discriminate|reflexivity|exact H]. }
      clear X; destruct (is c1 "o") eqn:X.
      { apply is_true in X. subst. destruct rest as [|b rest']; [right; right; congruence|].
        eapply (Q2 (OOutput b)); eauto; [constructor|discriminate]. }
      right. right. congruence.
    + cbn [char_at bind] in H. assert (N : is c2 NUL = false).
      { apply Ascii.eqb_neq. destruct Hs as [Hs _]. exact Hs. }
      rewrite N in H. cbn [negb andb] in H. destruct (is c1 "v" && is c2 "v") eqn:V; cbn [negb] in H; [|right; right; congruence].
      apply andb_true_iff in V. destruct V as [V1 V2]. apply is_true in V1. apply is_true in V2. subst.
      apply (Q (OVerbose true) [("-vv" ++ a)%string] (step (OVerbose true) o)); [apply (w_vv a)|exact I|discriminate|reflexivity|reflexivity|exact H].
Qed.
Lemma rg_options_rejected : forall args s, (forall a, In a args -> c_string a) ->
  (forall l files, ~ rg_line args l files) -> (forall b, ~ rg_version b args) ->
  rg_options args = Ok s -> s = Stop 1 Nothing.
Proof.
  intros args s Hc Hl Hv H. unfold rg_options in H. apply bind_ok in H. destruct H as (r & H & E).
  destruct (rg_scan_sound (List.length args) args rg_default_opts r (le_n _) Hc eq_refl H) as [(l & files & X & _)|[(b & X)| ->]].
  - exfalso. eapply Hl; eauto.
  - exfalso. eapply Hv; eauto.
  - congruence.
Qed.
Lemma rg_scan_defined : forall n args o, (List.length args <= n)%nat -> (forall a, In a args -> a <> "-" /\ seven_bit a) ->
  exists r, rg_scan o args = Ok r.
Proof.
  induction n as [|n IH]; intros args o Hn Hd.
  { destruct args; [|cbn in Hn; lia]. cbn. eauto. }
  destruct args as [|a rest]; [cbn; eauto|]. cbn [List.length] in Hn.
  assert (Hr : forall o, exists r, rg_scan o rest = Ok r) by (intros; apply IH; [lia|intros; apply Hd; cbn; auto]).
  assert (Hr2 : forall b rest' o, rest = b :: rest' -> exists r, rg_scan o rest' = Ok r).
  { intros b rest' o' ->. apply IH; [cbn in Hn; lia|intros; apply Hd; cbn; auto]. }
  cbn [rg_scan]. destruct a as [|c0 a].
  { cbn. rewrite andb_false_r. cbn. destruct (o_input o); apply Hr. }
  cbn [char_at bind]. destruct (o_reading o && is c0 "-") eqn:E0.
  2:{ cbn [bind]. destruct (o_input o); apply Hr. }
  destruct a as [|c1 a].
  { exfalso. apply andb_true_iff in E0. destruct E0 as [_ E0]. apply is_true in E0. subst. destruct (Hd "-"); cbn; auto. }
  cbn [char_at bind]. assert (C2 : exists c2, char_at a 0 = Ok c2) by (destruct a; cbn; eauto). destruct C2 as (c2 & C2).
  rewrite C2. cbn [bind].
  destruct (is c1 "-"); cbn [negb].
  { repeat match goal with |- exists r, (if ?b then _ else _) = Ok r => destruct b end; eauto. }
  repeat match goal with
    | |- exists r, (if ?b then _ else _) = Ok r => destruct b
    | |- exists r, (match ?l with [] => _ | _ :: _ => _ end) = Ok r => destruct l eqn:?
    end; eauto.
  destruct (lower_total s) as (t & Ht); [apply Hd; cbn; auto|]. rewrite Ht. cbn [bind].
  repeat match goal with |- exists r, (if ?b then _ else _) = Ok r => destruct b end; eauto.
Qed.
Lemma rg_options_defined : forall args, (forall a, In a args -> a <> "-" /\ seven_bit a) -> exists s, rg_options args = Ok s.
Proof.
  intros args Hd. unfold rg_options. destruct (rg_scan_defined (List.length args) args rg_default_opts (le_n _) Hd) as (r & ->). cbn [bind].
  destruct r; [destruct (o_help o)|]; eauto.
Qed.
