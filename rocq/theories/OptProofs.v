(** Proofs about the command line. *)
From Coq Require Import List ZArith Lia Bool Arith Ascii String.
From Verif Require Import Base Strs Solve Output JsonSpec Options OptSpec.
Import ListNotations.
Open Scope string_scope.
Open Scope list_scope.
Open Scope Z_scope.

Definition step (p : opt) (o : opts) : opts :=
  match p with
  | OHelp => set_help o
  | OVersion _ => o
  | OVerbose b => more_verbose (if b then 2 else 1) o
  | OLog => set_logging o
  | OSyntax => set_run GR1C_MODE_SYNTAX o
  | ODump => set_ptdump o
  | ORealizable => set_run GR1C_MODE_REALIZABLE o
  | OInteractive => set_run GR1C_MODE_INTERACTIVE o
  | OType f => set_format f o
  | OInit f => set_init_flags f o
  | OOutput f => set_output f o
  | OPromela => set_promela o
  end.
Definition steps (l : list opt) (o : opts) : opts := fold_left (fun o p => step p o) l o.

(** ** Lower case *)
Definition low (c : ascii) : Prop := (97 <= nat_of_ascii c <= 122 \/ nat_of_ascii c = 95)%nat.
Lemma tolower_low : forall c, low c -> tolower c = Ok c.
Proof.
  intros c H. unfold low in H. unfold tolower. destruct (Nat.leb_spec 128 (nat_of_ascii c)); [lia|].
  destruct (Nat.leb_spec 65 (nat_of_ascii c)), (Nat.leb_spec (nat_of_ascii c) 90); cbn; auto. lia.
Qed.
Lemma tolower_upper : forall c d, letter c d -> tolower d = Ok c.
Proof.
  intros c d [H1 H2]. unfold tolower. destruct (Nat.leb_spec 128 (nat_of_ascii d)); [lia|].
  destruct (Nat.leb_spec 65 (nat_of_ascii d)); [|lia]. destruct (Nat.leb_spec (nat_of_ascii d) 90); [|lia]. cbn. f_equal.
  rewrite H2. replace (nat_of_ascii c - 32 + 32)%nat with (nat_of_ascii c) by lia. apply ascii_nat_embedding.
Qed.
Lemma tolower_inv : forall c d, tolower c = Ok d -> (d = c \/ letter d c) /\ (nat_of_ascii c < 128)%nat.
Proof.
  intros c d H. unfold tolower in H. destruct (Nat.leb_spec 128 (nat_of_ascii c)); [discriminate|]. split; [|lia].
  destruct (Nat.leb_spec 65 (nat_of_ascii c)), (Nat.leb_spec (nat_of_ascii c) 90); cbn in H; injection H as <-; auto.
  right. unfold letter. rewrite nat_ascii_embedding by lia. lia.
Qed.
Lemma lower_app : forall a b x y, lower_all a = Ok x -> lower_all b = Ok y -> lower_all (a ++ b) = Ok (x ++ y)%string.
Proof.
  induction a as [|c a IH]; intros b x y H1 H2; cbn in *; [injection H1 as <-; auto|].
  destruct (tolower c) as [c'| |] eqn:E; cbn in *; try discriminate.
  destruct (lower_all a) as [a'| |] eqn:Ea; cbn in *; try discriminate. injection H1 as <-. rewrite (IH b a' y); auto.
Qed.
Lemma lower_like : forall n s, spelled_like n s -> chars low n -> lower_all s = Ok n.
Proof.
  induction 1; intros Hn; [reflexivity| |]; destruct Hn as [Hc Hn]; cbn.
  - rewrite tolower_low by auto. cbn. rewrite IHspelled_like; auto.
  - rewrite (tolower_upper c d) by auto. cbn. rewrite IHspelled_like; auto.
Qed.
Lemma lower_total : forall s, seven_bit s -> exists t, lower_all s = Ok t.
Proof.
  induction s as [|c s IH]; intros H; [cbn; eauto|]. destruct H as [H1 H2]. destruct (IH H2) as [t Ht]. cbn.
  unfold tolower. destruct (Nat.leb_spec 128 (nat_of_ascii c)); [lia|].
  destruct ((65 <=? nat_of_ascii c)%nat && (nat_of_ascii c <=? 90)%nat); cbn; rewrite Ht; cbn; eauto.
Qed.
Lemma lower_inv : forall s t, lower_all s = Ok t -> spelled_like t s /\ seven_bit s.
Proof.
  induction s as [|c s IH]; intros t H; cbn in H; [injection H as <-; split; [constructor|exact I]|].
  apply bind_ok in H. destruct H as (d & Hd & H). apply bind_ok in H. destruct H as (r & Hr & H). injection H as <-.
  destruct (IH _ Hr) as [H1 H2]. destruct (tolower_inv _ _ Hd) as [H3 H4]. split; [|split; auto].
  destruct H3 as [->|H3]; [apply sl_same|apply sl_upper]; auto.
Qed.
Lemma like_split : forall n x s, spelled_like (n ++ x) s -> exists s1 s2, s = (s1 ++ s2)%string /\ spelled_like n s1.
Proof.
  induction n as [|c n IH]; intros x s H; [exists "", s; split; [reflexivity|constructor]|].
  cbn in H. inversion H as [|c' a t Ht|c' d a t L Ht]; subst.
  - destruct (IH _ _ Ht) as (s1 & s2 & -> & H1). exists (String c s1), s2. split; [reflexivity|]. constructor. auto.
  - destruct (IH _ _ Ht) as (s1 & s2 & -> & H1). exists (String d s1), s2. split; [reflexivity|]. apply sl_upper; auto.
Qed.
Lemma begins_inv : forall w s, begins w s = true -> exists x, s = (w ++ x)%string.
Proof.
  unfold begins. induction w as [|c w IH]; intros s H; [exists s; reflexivity|]. destruct s as [|d s]; [discriminate|].
  cbn in H. destruct (ascii_dec c d) as [->|]; [|discriminate]. destruct (IH s H) as (x & ->). exists x. reflexivity.
Qed.
Lemma prefix_nil : forall x, prefix "" x = true.
Proof. destruct x; reflexivity. Qed.
Lemma begins_app : forall w x, begins w (w ++ x) = true.
Proof. unfold begins. induction w as [|c w IH]; intros x; [destruct x; reflexivity|]. cbn. destruct (ascii_dec c c); [apply IH|congruence]. Qed.
Lemma chars_split : forall P a b, chars P (a ++ b) -> chars P a /\ chars P b.
Proof. induction a as [|c a IH]; cbn; intros b H; [auto|]. destruct H as [H1 H2]. apply IH in H2. tauto. Qed.
Lemma init_low : forall f n, init_name f n -> chars low n.
Proof. intros f n [| |]; cbn; unfold low; cbn; repeat split; lia. Qed.

(** ** Options *)
Lemma step_reading : forall p o, o_reading (step p o) = o_reading o /\ o_input (step p o) = o_input o.
Proof. intros [] o; split; reflexivity. Qed.
Lemma scan_writes : forall p w, writes p w -> (forall b, p <> OVersion b) -> forall o rest, o_reading o = true ->
  scan_args o (w ++ rest) = scan_args (step p o) rest.
Proof.
  intros p w H Hv o rest Ho. destruct H; try (exfalso; eapply Hv; reflexivity).
  all: try (cbn; rewrite Ho; reflexivity).
  - cbn [List.app scan_args]. change (char_at ("--help" ++ x) 0) with (Ok "-"%char). cbn [bind]. rewrite Ho. cbn [andb is Ascii.eqb Bool.eqb].
    change (char_at ("--help" ++ x) 1) with (Ok "-"%char). cbn [bind negb is Ascii.eqb Bool.eqb].
    change (char_at ("--help" ++ x) 2) with (Ok "h"%char). cbn [bind is Ascii.eqb Bool.eqb]. rewrite begins_app. reflexivity.
  - cbn [List.app scan_args char_at bind]. rewrite Ho. cbn [andb is Ascii.eqb Bool.eqb bind negb].
    destruct f; cbn; rewrite ?prefix_nil; reflexivity.
  - destruct (lower_total x H1) as [x' Hx].
    assert (L : lower_all (s ++ x) = Ok (n ++ x')%string) by (apply lower_app; auto; apply lower_like; auto; eapply init_low; eauto).
    cbn [List.app scan_args char_at bind]. rewrite Ho. cbn [andb is Ascii.eqb Bool.eqb bind negb]. rewrite L. cbn [bind].
    destruct H; cbn; rewrite ?prefix_nil; reflexivity.
Qed.
Lemma scan_version : forall b w, writes (OVersion b) w -> forall o rest, o_reading o = true ->
  scan_args o (w ++ rest) = Ok (Return 0 (Version b)).
Proof. intros b w H o rest Ho. inversion H; subst; cbn; rewrite Ho; cbn; rewrite ?prefix_nil; reflexivity. Qed.
Lemma scan_lines : forall l ws, Forall2 writes l ws -> no_version l -> forall o rest, o_reading o = true ->
  scan_args o (List.concat ws ++ rest) = scan_args (steps l o) rest.
Proof.
  induction 1 as [|p w l ws H1 H2 IH]; intros Hv o rest Ho; [reflexivity|]. cbn [List.concat]. rewrite <- app_assoc.
  rewrite (scan_writes p w H1); auto.
  - unfold steps. cbn [fold_left]. apply IH.
    + intros b Hb. apply (Hv b). cbn. auto.
    + rewrite (proj1 (step_reading p o)). auto.
  - intros b ->. apply (Hv b). cbn. auto.
Qed.
Lemma steps_reading : forall l o, o_reading (steps l o) = o_reading o /\ o_input (steps l o) = o_input o.
Proof.
  induction l as [|p l IH]; intros o; [split; reflexivity|]. unfold steps. cbn [fold_left]. fold (steps l (step p o)).
  destruct (IH (step p o)) as [-> ->]. apply step_reading.
Qed.
(** the settings after the input part *)
Definition finish (tl : list string) (file : option string) (o : opts) : opts :=
  let o1 := match tl with a :: _ => if String.eqb a "--" then stop_reading o else o | [] => o end in
  match file with Some f => set_input f o1 | None => o1 end.
Lemma scan_input : forall tl file, input_part tl file -> forall o, o_reading o = true -> o_input o = None ->
  exists o', scan_args o tl = Ok (Continue o') /\
    (o' = match file with Some f => set_input f o | None => o end \/
     o' = match file with Some f => set_input f (stop_reading o) | None => stop_reading o end).
Proof.
  intros tl file H o Ho Hi. destruct H.
  - exists o. split; auto.
  - exists (set_input f o). split; auto. cbn. destruct f as [|c f].
    + cbn. rewrite andb_false_r. cbn. rewrite Hi. reflexivity.
    + cbn [char_at bind]. assert (E : is c "-" = false).
      { unfold is. apply Ascii.eqb_neq. intros ->. cbn in H. rewrite prefix_nil in H. discriminate H. }
      rewrite E, andb_false_r. cbn. rewrite Hi. reflexivity.
  - exists (stop_reading o). split; auto. cbn. rewrite Ho. reflexivity.
  - exists (set_input f (stop_reading o)). split; auto. cbn. rewrite Ho. cbn. destruct f as [|c f]; cbn; rewrite Hi; reflexivity.
Qed.

(** ** Settings *)
Lemma last_snoc_default : forall A (l : list A) (a d : A), last (a :: l) d = last l a.
Proof.
  induction l as [|b l IH]; intros a d; [reflexivity|]. cbn [last] in *. destruct l as [|c l]; [reflexivity|].
  change (last (c :: l) d = last (c :: l) a). clear. revert c. induction l as [|e l IH]; intros c; [reflexivity|]. apply (IH e).
Qed.
Lemma chosen_cons : forall A (f : opt -> option A) d p l,
  chosen f d (p :: l) = chosen f (match f p with Some a => a | None => d end) l.
Proof.
  intros A f d p l. unfold chosen. cbn [flat_map]. destruct (f p) as [a|]; [|reflexivity]. cbn [List.app]. apply last_snoc_default.
Qed.
Lemma steps_settings : forall l o,
  o_run (steps l o) = chosen mode_of (o_run o) l /\ o_format (steps l o) = chosen type_of (o_format o) l /\
  o_init (steps l o) = chosen init_of (o_init o) l /\ o_output (steps l o) = chosen output_of (o_output o) l /\
  (o_ptdump (steps l o) = true <-> o_ptdump o = true \/ In ODump l) /\
  (o_logging (steps l o) = true <-> o_logging o = true \/ In OLog l) /\
  (o_promela (steps l o) = true <-> o_promela o = true \/ In OPromela l) /\
  (o_help (steps l o) = true <-> o_help o = true \/ In OHelp l) /\
  o_verbose (steps l o) mod 256 = (o_verbose o + verbosity l) mod 256 /\
  (0 <= o_verbose o < 256 -> 0 <= o_verbose (steps l o) < 256).
Proof.
  induction l as [|p l IH]; intros o.
  - unfold steps, chosen. cbn. rewrite Z.add_0_r. intuition.
  - change (steps (p :: l) o) with (steps l (step p o)). rewrite !chosen_cons. cbn [In].
    destruct (IH (step p o)) as (H1 & H2 & H3 & H4 & H5 & H6 & H7 & H8 & H9 & H10). clear IH.
    split; [rewrite H1; destruct p; reflexivity|]. split; [rewrite H2; destruct p; reflexivity|].
    split; [rewrite H3; destruct p; reflexivity|]. split; [rewrite H4; destruct p; reflexivity|].
    split; [rewrite H5; destruct p; cbn; intuition discriminate|].
    split; [rewrite H6; destruct p; cbn; intuition discriminate|].
    split; [rewrite H7; destruct p; cbn; intuition discriminate|].
    split; [rewrite H8; destruct p; cbn; intuition discriminate|].
    split.
    + rewrite H9. destruct p; try reflexivity. cbn [step more_verbose o_verbose verbosity].
      rewrite Zplus_mod_idemp_l. f_equal. lia.
    + intros Hv. apply H10. destruct p; cbn [step more_verbose o_verbose]; auto. apply Z.mod_pos_bound. lia.
Qed.
Lemma line_scan : forall args l file, line args l file -> no_version l ->
  exists o, scan_args default_opts args = Ok (Continue o) /\ settings l file o /\ (o_help o = true <-> In OHelp l).
Proof.
  intros args l file (ws & tl & H1 & H2 & ->) Hv. rewrite (scan_lines l ws H1 Hv) by reflexivity.
  destruct (steps_reading l default_opts) as [R1 R2].
  destruct (scan_input tl file H2 (steps l default_opts)) as (o & Ho & HH); auto.
  exists o. split; auto. destruct (steps_settings l default_opts) as (S1 & S2 & S3 & S4 & S5 & S6 & S7 & S8 & S9 & S10).
  cbn in S5, S6, S7, S8. unfold settings. specialize (S10 ltac:(cbn; lia)). rewrite (Z.mod_small _ _ S10) in S9.
  change (o_verbose default_opts) with 0 in S9. rewrite Z.add_0_l in S9.
  destruct HH as [->| ->]; destruct file; cbn; rewrite ?R2; intuition discriminate.
Qed.
Lemma not_command : forall args, ~ a_command args -> read_options args = (r <- scan_args default_opts args ;; Ok (after_scan r)).
Proof.
  intros [|a rest] H; [reflexivity|]. unfold read_options.
  assert (N : forall w, In w ["rg"; "patch"; "autman"; "help"] -> String.eqb a w = false).
  { intros w Hw. apply String.eqb_neq. intros ->. apply H. exists w, rest. auto. }
  rewrite !N by (cbn; auto). reflexivity.
Qed.
Lemma options_accepted : forall args l file, ~ a_command args -> line args l file -> no_version l ->
  exists o, settings l file o /\
   (In OHelp l -> read_options args = Ok (Stop 0 Usage)) /\
   (~ In OHelp l ->
     (chosen mode_of GR1C_MODE_SYNTHESIS l = GR1C_MODE_INTERACTIVE /\ file = None) \/
     (In OPromela l /\ chosen output_of None l = None) ->
     read_options args = Ok (Stop 1 Refused)) /\
   (~ In OHelp l ->
     ~ (chosen mode_of GR1C_MODE_SYNTHESIS l = GR1C_MODE_INTERACTIVE /\ file = None) ->
     ~ (In OPromela l /\ chosen output_of None l = None) ->
     read_options args = Ok (Go o)).
Proof.
  intros args l file Hc Hl Hv. rewrite (not_command args Hc). destruct (line_scan args l file Hl Hv) as (o & Ho & Hs & Hh).
  exists o. split; auto. rewrite Ho. cbn [bind after_scan]. destruct Hs as (S1 & S2 & S3 & S4 & S5 & S6 & S7 & S8 & S9).
  split; [intros H; apply Hh in H; rewrite H; reflexivity|].
  assert (N : ~ In OHelp l -> o_help o = false) by (intros N; destruct (o_help o); auto; exfalso; apply N, Hh; auto).
  split; intros H1; rewrite (N H1), <- S1, <- S4, <- S5, <- S8.
  - intros [[X1 X2]|[X1 X2]].
    + rewrite X1, X2. reflexivity.
    + rewrite X1, X2. destruct (o_input o), (o_run o); reflexivity.
  - intros X1 X2. destruct (o_input o), (o_run o), (o_output o), (o_promela o); try reflexivity; exfalso; tauto.
Qed.
Lemma options_version : forall args b, asks_version args b -> read_options args = Ok (Stop 0 (Version b)).
Proof.
  intros args b (l & ws & w & rest & H1 & H2 & H3 & ->).
  assert (D : exists t r, List.concat ws ++ w ++ rest = String "-" t :: r).
  { destruct H1 as [|p x l ws H1 _].
    - inversion H3; subst; cbn; eauto.
    - cbn. rewrite <- app_assoc. inversion H1; subst; cbn; eauto. }
  rewrite not_command.
  - rewrite (scan_lines l ws H1 H2) by reflexivity. rewrite (scan_version b w H3); [reflexivity|].
    rewrite (proj1 (steps_reading l default_opts)). reflexivity.
  - intros (a & r' & E & Ha). destruct D as (t & r & D). rewrite D in E. injection E as <- _. cbn in Ha. intuition discriminate.
Qed.
Lemma options_command : forall a rest,
  (In a ["rg"; "patch"; "autman"] -> read_options (a :: rest) = Ok (Sub ("gr1c-" ++ a) rest)) /\
  read_options ["help"] = Ok (Stop 0 Usage) /\ (rest <> [] -> read_options ("help" :: rest) = Ok (Stop 1 Nothing)).
Proof.
  intros a rest. split; [|split].
  - intros [<-|[<-|[<-|[]]]]; reflexivity.
  - reflexivity.
  - intros H. destruct rest; [congruence|]. reflexivity.
Qed.

(** ** Everything else is rejected *)
Definition accepted (o : opts) (args : list string) (r : scanned) : Prop :=
  (exists l file, line args l file /\ no_version l) \/ (exists b, asks_version args b) \/ r = Return 1 Nothing.
Lemma accepted_more : forall o p w args r, writes p w -> (forall b, p <> OVersion b) -> accepted o args r ->
  accepted o (w ++ args) r.
Proof.
  intros o p w args r Hw Hp [(l & file & (ws & tl & H1 & H2 & ->) & Hv)|[(b & l & ws & x & rest & H1 & H2 & H3 & ->)|H]].
  - left. exists (p :: l), file. split.
    + exists (w :: ws), tl. split; [constructor; auto|]. split; auto. cbn. rewrite app_assoc. reflexivity.
    + intros b [H|H]; [eapply Hp; eauto|eapply Hv; eauto].
  - right. left. exists b, (p :: l), (w :: ws), x, rest. split; [constructor; auto|]. split.
    + intros c [H|H]; [eapply Hp; eauto|eapply H2; eauto].
    + split; auto. cbn. rewrite app_assoc. reflexivity.
  - right. right. auto.
Qed.
Lemma is_true : forall a b, is a b = true -> a = b.
Proof. intros a b. apply Ascii.eqb_eq. Qed.
Lemma two_chars : forall c1 s, c_string s -> char_at (String "-" (String c1 s)) 2 = Ok NUL -> s = "".
Proof. intros c1 [|c s] H E; auto. cbn in E. injection E as ->. destruct H. congruence. Qed.
Lemma scan_sound : forall n args o r, (List.length args <= n)%nat -> (forall a, In a args -> c_string a) ->
  o_reading o = true -> o_input o = None -> scan_args o args = Ok r -> accepted o args r.
Proof.
  induction n as [|n IH]; intros args o r Hn Hc Ho Hi H.
  { destruct args; [|cbn in Hn; lia]. left. exists [], None. split; [|intros b []]. exists [], []. repeat constructor. }
  destruct args as [|a rest].
  { left. exists [], None. split; [|intros b []]. exists [], []. repeat constructor. }
  cbn [List.length] in Hn. assert (Hr : forall a, In a rest -> c_string a) by (intros; apply Hc; cbn; auto).
  assert (Ha : c_string a) by (apply Hc; cbn; auto).
  assert (Q : forall p w o', writes p w -> (forall b, p <> OVersion b) -> w ++ rest = a :: rest -> o' = step p o ->
    scan_args o' rest = Ok r -> accepted o (a :: rest) r).
  { intros p w o' Hw Hp E -> Hs. rewrite <- E. apply (accepted_more o p w rest r Hw Hp).
    assert (A : accepted (step p o) rest r) by (apply IH; auto; try lia; rewrite ?(proj1 (step_reading p o)), ?(proj2 (step_reading p o)); auto).
    exact A. }
  assert (Q2 : forall p b rest' o', rest = b :: rest' -> writes p [a; b] -> (forall b, p <> OVersion b) -> o' = step p o ->
    scan_args o' rest' = Ok r -> accepted o (a :: rest) r).
  { intros p b rest' o' -> Hw Hp -> Hs. change (a :: b :: rest') with ([a; b] ++ rest'). apply (accepted_more o p [a; b] rest' r Hw Hp).
    assert (A : accepted (step p o) rest' r).
    { apply IH; auto; try (cbn in Hn; lia); rewrite ?(proj1 (step_reading p o)), ?(proj2 (step_reading p o)); auto.
      intros; apply Hr; cbn; auto. }
    exact A. }
  cbn [scan_args] in H. destruct a as [|c0 a].
  { cbn in H. rewrite andb_false_r in H. cbn in H. rewrite Hi in H. destruct rest as [|b rest].
    - left. exists [], (Some ""). split; [|intros b []]. exists [], [""]. split; [constructor|]. split; [|reflexivity]. constructor. reflexivity.
    - right. right. congruence. }
  cbn [char_at bind] in H. rewrite Ho in H. cbn [andb] in H. destruct (is c0 "-") eqn:E0.
  2:{ cbn [bind] in H. rewrite Hi in H. destruct rest as [|b rest].
    - left. exists [], (Some (String c0 a)). split; [|intros b []]. exists [], [String c0 a]. split; [constructor|]. split; [|reflexivity].
      constructor. change (prefix "-" (String c0 a)) with (if ascii_dec "-" c0 then prefix "" a else false).
      destruct (ascii_dec "-" c0) as [<-|]; [discriminate E0|reflexivity].
    - right. right. congruence. }
  apply is_true in E0. subst c0. destruct a as [|c1 a].
  { cbn in H. discriminate H. }
  cbn [char_at bind] in H. destruct (is c1 "-") eqn:E1.
  - (* long options *)
    apply is_true in E1. subst c1. cbn [negb] in H. destruct a as [|c2 a].
    + cbn [char_at bind] in H. change (is NUL NUL) with true in H. cbn match in H.
      destruct rest as [|f [|g rest]].
      * left. exists [], None. split; [|intros b []]. exists [], ["--"]. split; [constructor|]. split; [constructor|reflexivity].
      * left. exists [], (Some f). split; [|intros b []]. exists [], ["--"; f]. split; [constructor|]. split; [constructor|reflexivity].
      * right. right. cbn [scan_args] in H. destruct f as [|c f]; cbn [char_at bind] in H; cbn in H; rewrite Hi in H; congruence.
    + cbn [char_at bind] in H. destruct (is c2 NUL) eqn:E2.
      { apply is_true in E2. subst c2. exfalso. destruct Ha as (_ & _ & Ha & _). congruence. }
      destruct (begins "--help" (String "-" (String "-" (String c2 a)))) eqn:B1.
      { apply begins_inv in B1. destruct B1 as (x & B1). apply (Q OHelp [String "-" (String "-" (String c2 a))] (set_help o)); [| |reflexivity|reflexivity|exact H].
        - rewrite B1. constructor.
        - discriminate. }
      destruct (begins "--version" (String "-" (String "-" (String c2 a)))) eqn:B2.
      { apply begins_inv in B2. destruct B2 as (x & B2). right. left. exists false, [], [], [String "-" (String "-" (String c2 a))], rest.
        split; [constructor|]. split; [intros b []|]. split; [rewrite B2; constructor|reflexivity]. }
      right. right. congruence.
  - (* short options *)
    cbn [negb] in H. assert (Hs : c_string a) by (destruct Ha as (_ & _ & Ha); exact Ha).
    destruct a as [|c2 a].
    + cbn [char_at bind] in H. change (is NUL NUL) with true in H. cbn [negb andb] in H.
      destruct (is c1 "h") eqn:X. { apply is_true in X. subst. apply (Q OHelp ["-h"] (step OHelp o)); auto; [constructor|discriminate]. }
      clear X; destruct (is c1 "V") eqn:X. { apply is_true in X. subst. right. left. exists true, [], [], ["-V"], rest.
        split; [constructor|]. split; [intros b []|]. split; [constructor|reflexivity]. }
      clear X; destruct (is c1 "v") eqn:X. { apply is_true in X. subst. apply (Q (OVerbose false) ["-v"] (step (OVerbose false) o)); auto; [constructor|discriminate]. }
      clear X; destruct (is c1 "l") eqn:X. { apply is_true in X. subst. apply (Q OLog ["-l"] (step OLog o)); auto; [constructor|discriminate]. }
      clear X; destruct (is c1 "s") eqn:X. { apply is_true in X. subst. apply (Q OSyntax ["-s"] (step OSyntax o)); auto; [constructor|discriminate]. }
      clear X; destruct (is c1 "p") eqn:X. { apply is_true in X. subst. apply (Q ODump ["-p"] (step ODump o)); auto; [constructor|discriminate]. }
      clear X; destruct (is c1 "r") eqn:X. { apply is_true in X. subst. apply (Q ORealizable ["-r"] (step ORealizable o)); auto; [constructor|discriminate]. }
      clear X; destruct (is c1 "i") eqn:X. { apply is_true in X. subst. apply (Q OInteractive ["-i"] (step OInteractive o)); auto; [constructor|discriminate]. }
      clear X; destruct (is c1 "t") eqn:X.
      { apply is_true in X. subst. destruct rest as [|b rest']; [right; right; congruence|].
        destruct (begins "txt" b) eqn:B.
        { apply begins_inv in B. destruct B as (x & ->). eapply (Q2 (OType FORMAT_TEXT)); eauto; [apply (w_t FORMAT_TEXT)|discriminate]. }
        clear B; destruct (begins "tulip" b) eqn:B.
        { apply begins_inv in B. destruct B as (x & ->). eapply (Q2 (OType FORMAT_TULIP)); eauto; [apply (w_t FORMAT_TULIP)|discriminate]. }
        clear B; destruct (begins "dot" b) eqn:B.
        { apply begins_inv in B. destruct B as (x & ->). eapply (Q2 (OType FORMAT_DOT)); eauto; [apply (w_t FORMAT_DOT)|discriminate]. }
        clear B; destruct (begins "aut" b) eqn:B.
        { apply begins_inv in B. destruct B as (x & ->). eapply (Q2 (OType FORMAT_AUT)); eauto; [apply (w_t FORMAT_AUT)|discriminate]. }
        clear B; destruct (begins "json" b) eqn:B.
        { apply begins_inv in B. destruct B as (x & ->). eapply (Q2 (OType FORMAT_JSON)); eauto; [apply (w_t FORMAT_JSON)|discriminate]. }
        right. right. congruence. }
      clear X; destruct (is c1 "n") eqn:X.
      { apply is_true in X. subst. destruct rest as [|b0 rest']; [right; right; congruence|].
        apply bind_ok in H. destruct H as (b & Hb & H). destruct (lower_inv _ _ Hb) as [L1 L2].
        assert (K : forall f n, init_name f n -> begins n b = true -> exists s x, b0 = (s ++ x)%string /\ spelled_like n s /\ seven_bit x).
        { intros f m Hm B. apply begins_inv in B. destruct B as (x & ->). destruct (like_split _ _ _ L1) as (s1 & s2 & -> & L3).
          exists s1, s2. apply chars_split in L2. tauto. }
        destruct (begins "all_env_exist_sys_init" b) eqn:B.
        { destruct (K _ _ in_aes B) as (s1 & x & -> & K1 & K2). eapply (Q2 (OInit ALL_ENV_EXIST_SYS_INIT)); eauto; [eapply w_n; eauto; constructor|discriminate]. }
        clear B; destruct (begins "all_init" b) eqn:B.
        { destruct (K _ _ in_all B) as (s1 & x & -> & K1 & K2). eapply (Q2 (OInit ALL_INIT)); eauto; [eapply w_n; eauto; constructor|discriminate]. }
        clear B; destruct (begins "one_side_init" b) eqn:B.
        { destruct (K _ _ in_one B) as (s1 & x & -> & K1 & K2). eapply (Q2 (OInit ONE_SIDE_INIT)); eauto; [eapply w_n; eauto; constructor|discriminate]. }
        right. right. congruence. }
      clear X; destruct (is c1 "o") eqn:X.
      { apply is_true in X. subst. destruct rest as [|b rest']; [right; right; congruence|].
        eapply (Q2 (OOutput b)); eauto; [constructor|discriminate]. }
      clear X; destruct (is c1 "P") eqn:X. { apply is_true in X. subst. apply (Q OPromela ["-P"] (step OPromela o)); auto; [constructor|discriminate]. }
      right. right. congruence.
    + cbn [char_at bind] in H. assert (N : is c2 NUL = false).
      { apply Ascii.eqb_neq. destruct Hs as [Hs _]. exact Hs. }
      rewrite N in H. cbn [negb andb] in H. destruct (is c1 "v" && is c2 "v") eqn:V; cbn [negb] in H; [|right; right; congruence].
      apply andb_true_iff in V. destruct V as [V1 V2]. apply is_true in V1. apply is_true in V2. subst.
      apply (Q (OVerbose true) [("-vv" ++ a)%string] (step (OVerbose true) o)); auto; [apply (w_vv a)|discriminate].
Qed.
Lemma options_rejected : forall args s, (forall a, In a args -> c_string a) -> ~ a_command args ->
  (forall l file, ~ line args l file) -> (forall b, ~ asks_version args b) ->
  read_options args = Ok s -> s = Stop 1 Nothing.
Proof.
  intros args s Hc Ha Hl Hv H. rewrite not_command in H by auto. apply bind_ok in H. destruct H as (r & H & E). injection E as <-.
  destruct (scan_sound (List.length args) args default_opts r (le_n _) Hc eq_refl eq_refl H) as [(l & file & X & _)|[(b & X)| ->]].
  - exfalso. eapply Hl; eauto.
  - exfalso. eapply Hv; eauto.
  - reflexivity.
Qed.
Lemma scan_defined : forall n args o, (List.length args <= n)%nat -> (forall a, In a args -> a <> "-" /\ seven_bit a) ->
  exists r, scan_args o args = Ok r.
Proof.
  induction n as [|n IH]; intros args o Hn Hd.
  { destruct args; [|cbn in Hn; lia]. cbn. eauto. }
  destruct args as [|a rest]; [cbn; eauto|]. cbn [List.length] in Hn.
  assert (Hr : forall o, exists r, scan_args o rest = Ok r) by (intros; apply IH; [lia|intros; apply Hd; cbn; auto]).
  assert (Hr2 : forall b rest' o, rest = b :: rest' -> exists r, scan_args o rest' = Ok r).
  { intros b rest' o' ->. apply IH; [cbn in Hn; lia|intros; apply Hd; cbn; auto]. }
  cbn [scan_args]. destruct a as [|c0 a].
  { cbn. rewrite andb_false_r. cbn. destruct (o_input o); [apply Hr|]. destruct rest; cbn; eauto. }
  cbn [char_at bind]. destruct (o_reading o && is c0 "-") eqn:E0.
  2:{ cbn [bind]. destruct (o_input o); [apply Hr|]. destruct rest; cbn; eauto. }
  destruct a as [|c1 a].
  { exfalso. apply andb_true_iff in E0. destruct E0 as [_ E0]. apply is_true in E0. subst. destruct (Hd "-"); cbn; auto. }
  cbn [char_at bind]. assert (C2 : exists c2, char_at a 0 = Ok c2) by (destruct a; cbn; eauto). destruct C2 as (c2 & C2).
  rewrite C2. cbn [bind].
  destruct (is c1 "-"); cbn [negb].
  { repeat match goal with |- exists r, (if ?b then _ else _) = Ok r => destruct b end; eauto. }
  repeat match goal with
    | |- exists r, (if ?b then _ else _) = Ok r => destruct b
    | |- exists r, (match ?l with [] => _ | _ :: _ => _ end) = Ok r => destruct l eqn:?
    end; eauto.
  destruct (lower_total s) as (t & Ht); [apply Hd; cbn; auto|]. rewrite Ht. cbn [bind].
  repeat match goal with |- exists r, (if ?b then _ else _) = Ok r => destruct b end; eauto.
Qed.
Lemma options_defined : forall args, (forall a, In a args -> a <> "-" /\ seven_bit a) -> exists s, read_options args = Ok s.
Proof.
  intros args Hd. assert (K : forall o, exists s, (r <- scan_args o args ;; Ok (after_scan r)) = Ok s).
  { intros o. destruct (scan_defined (List.length args) args o (le_n _) Hd) as (r & ->). cbn. eauto. }
  destruct args as [|a rest]; [apply K|]. unfold read_options.
  destruct (String.eqb a "rg"); [eauto|]. destruct (String.eqb a "patch"); [eauto|]. destruct (String.eqb a "autman"); [eauto|]. apply K.
Qed.
