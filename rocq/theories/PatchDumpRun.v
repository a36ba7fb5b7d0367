(** Proofs about gr1c-patch -p (PatchDump.v). *)
From Coq Require Import List ZArith Bool Arith Ascii String Lia.
From Verif Require Import Base Strs Ptree Form Support Solve FSpec Automaton Nonbool RSpec Main FormCheck ListSpec ListProofs FormPrint
  Parse Syntax ParseProofs PrintProofs FileSpec FileProofs TextSpec TextProofs Output Options OptSpec OptProofs Program ProgramSpec ProgramProofs WriteProofs PtDump DumpSpec DumpProofs DumpRun
  GrPatch GrPatchSpec GrPatchOpts GrPatchPrep GrPatchProofs PatchDump PatchDumpSpec.
Import ListNotations.
Open Scope string_scope.
Open Scope list_scope.
Open Scope Z_scope.

(** ** The screen *)
Definition patch_one (i : nat) (d : vdecl) : string :=
  (fst d ++ " (" ++ zdec (Z.of_nat i) ++ "; " ++ patch_domain_text (snd d) ++ ")")%string.
Lemma patch_echo_vars_ok : forall ds i, patch_echo_vars i (vlist ds) =
  Ok (String.concat ", " (map (fun p : nat * vdecl => patch_one (fst p) (snd p)) (List.combine (seq i (List.length ds)) ds))).
Proof.
  induction ds as [|[x d] ds IH]; intros i; [reflexivity|]. cbn [vlist patch_echo_vars]. rewrite IH. cbn [bind].
  cbn [List.length seq List.combine map fst snd]. unfold patch_one at 3. cbn [fst snd].
  assert (X : forall r, (x ++ " (" ++ zdec (Z.of_nat i) ++ (if (d =? 0)%Z then "; bool)" else "; {0.." ++ zdec d ++ "})") ++ r)%string =
    ((x ++ " (" ++ zdec (Z.of_nat i) ++ "; " ++ patch_domain_text d ++ ")") ++ r)%string).
  { intros r. unfold patch_domain_text. rewrite !str_assoc. do 3 f_equal. destruct (d =? 0)%Z; [reflexivity|].
    cbn [String.append]. do 5 f_equal. rewrite !str_assoc. reflexivity. }
  rewrite X. destruct ds as [|[y e] ds]; [cbn; rewrite str_nil_r; reflexivity|].
  cbn [vlist List.length seq List.combine map String.concat fst snd]. reflexivity.
Qed.
Lemma patch_echo_list_ok : forall ds i, patch_echo_list i (vlist ds) = Ok (patch_numbered_vars i ds).
Proof.
  intros [|[x d] ds] i; [reflexivity|]. unfold patch_echo_list. cbn [vlist]. change (pnd PT_VARIABLE (Some x) d (vlist ds) NULL) with (vlist ((x, d) :: ds)).
  rewrite patch_echo_vars_ok. reflexivity.
Qed.
Lemma patch_echo_ok : forall R, patch_echo (raw_of R) = Ok (patch_vars_screen R).
Proof.
  intros R. unfold patch_echo. cbn [raw_of r_evars r_svars]. rewrite !patch_echo_list_ok, JsonWrite.vlist_size. reflexivity.
Qed.

(** ** Files written before others are read *)
Lemma written_file : forall W fs f, ~ In f (map fst fs) -> w_file (written W fs) f = w_file W f.
Proof.
  intros W fs f H. unfold written. cbn [w_file]. destruct (find _ (rev fs)) as [x|] eqn:E; [|reflexivity].
  apply find_some in E. destruct E as [E1 E2]. apply String.eqb_eq in E2. exfalso. apply H. apply in_map_iff. exists x. split; auto. apply in_rev. auto.
Qed.
Lemma drawn_names : forall addr l fs, drawn addr l fs -> map fst fs = map fst l.
Proof. intros addr l fs H. induction H as [|x y l fs [H1 _] _ IH]; cbn; [reflexivity|]. rewrite H1, IH. reflexivity. Qed.
Lemma final_without : forall A (f : popt -> option A) d l, f PDump = None -> final f d (without_pdump l) = final f d l.
Proof.
  intros A f d l Hf. unfold final. f_equal. induction l as [|q l IH]; [reflexivity|]. cbn [without_pdump filter].
  destruct q; cbn [flat_map]; fold (without_pdump l); rewrite ?IH; try reflexivity. rewrite Hf. reflexivity.
Qed.

Section Runs.
  Variables (orc : oracle) (alloc : nat -> aut -> nat) (key : nat -> string) (date : string) (broken : string -> ptree) (W : world).
  Variables (addr : string -> list bool -> Z).
  Let answer fuel W o clf text := patch_answer orc alloc key date fuel W o clf text.
  Let plain_run fuel args := patch_program orc alloc key date broken fuel W args.
  Let run fuel args := patch_program_p orc alloc key date broken addr fuel W args.

  Lemma clf_is : forall l g, goal_is l g -> clf_parse broken (the_goal l) = Ok (opt_tree g).
  Proof.
    intros l g H. unfold goal_is in H. destruct (the_goal l) as [s|], g as [g|]; try contradiction; [|reflexivity].
    cbn [opt_tree]. apply clf_given. exact H.
  Qed.
  Lemma pdump_settings : forall args l files q a, patch_asked_dump args l files q a -> exists o,
    patch_options args = Ok (PGo o) /\ psettings l files o /\ po_ptdump o = true /\ po_logging o = false /\ po_verbose o = 0.
  Proof.
    intros args l files q a (Hl & Hv & Hh & (Q1 & Q2 & Q3) & Hc & Hb & Ha & Haut).
    destruct (patch_options_accepted args l files Hl Hv) as (_ & _ & _ & _ & HG).
    destruct (HG Hc Hh) as (o & E & HS); [congruence|exact Hb|]. exists o. split; [exact E|]. split; [exact HS|].
    destruct HS as (S1 & S2 & S3 & S4 & S5 & S6 & S7 & S8 & S9 & S10 & S11).
    split; [apply S9; exact Q1|]. split; [destruct (po_logging o); auto; exfalso; apply Q2, S10; auto|].
    rewrite S11, (pverbosity_quiet l Q3). reflexivity.
  Qed.
  (** the two runs are the same from the answer on *)
  Lemma run_world : forall fuel o o' clf text W1 W2,
    po_format o = po_format o' -> po_metric o = po_metric o' -> po_edges o = po_edges o' -> po_aut o = po_aut o' ->
    po_formula o = po_formula o' -> po_remove o = po_remove o' -> po_output o = po_output o' ->
    w_stdin W1 = w_stdin W2 -> (forall f, w_writable W1 f = w_writable W2 f) ->
    (forall f, po_aut o = Some f \/ po_edges o = Some f -> w_file W1 f = w_file W2 f) ->
    answer fuel W1 o clf text = answer fuel W2 o' clf text.
  Proof.
    intros fuel o o' clf text W1 W2 E1 E2 E3 E4 E5 E6 E7 H1 H2 H3. unfold answer, patch_answer.
    assert (X : patch_run orc alloc key date fuel W1 o clf text = patch_run orc alloc key date fuel W2 o' clf text).
    { unfold patch_run, patch_strategy. rewrite <- E1, <- E2, <- E3, <- E4, <- E5, <- E6, H1.
      destruct (po_aut o) as [a|]; [|reflexivity]. rewrite (H3 a (or_introl eq_refl)).
      destruct (po_edges o) as [e|]; [rewrite (H3 e (or_intror eq_refl))|]; reflexivity. }
    rewrite X, E7. destruct (patch_run orc alloc key date fuel W2 o' clf text) as [[r|]| |]; try reflexivity. cbn [bind].
    unfold deliver. destruct (snd r =? 0); [|reflexivity]. destruct (po_output o') as [f|]; [|reflexivity]. rewrite H2. reflexivity.
  Qed.

  Section Asked.
    Variables (args : list string) (l : list popt) (files : list string) (q : request) (a : string) (g : option form).
    Hypothesis HA : patch_asked_dump args l files q a.
    Hypothesis HG : goal_is l g.
    Hypothesis Hadd : addresses addr.
    Lemma first_list : forall o, psettings l files o ->
      (match po_formula o with Some _ => [("clformula_ptree.dot", opt_tree g)] | None => [] end) =
      map (fun x : string * option form => (fst x, opt_tree (snd x))) (goal_drawing g).
    Proof.
      intros o (_ & _ & _ & _ & S5 & _). rewrite S5. unfold goal_is in HG. destruct (the_goal l), g; try contradiction; reflexivity.
    Qed.
    Lemma plain_is : forall fuel o args' q' a', psettings l files o -> patch_asked args' (without_pdump l) files q' a' -> forall W',
      w_stdin W' = w_stdin W -> (forall f, w_writable W' f = w_writable W f) -> (forall f, reads l files f -> w_file W' f = w_file W f) ->
      plain_run fuel args' = match open_input W' (hd_error files) with None => Ok error_exit | Some text => answer fuel W' o (opt_tree g) text end.
    Proof.
      intros fuel o args' q' a' HS HA' W' H1 H2 H3.
      destruct (patch_go orc alloc key date broken W args' (without_pdump l) files q' a' HA') as (o' & HS' & E).
      unfold plain_run. rewrite E. unfold the_goal at 1. rewrite final_without by reflexivity. fold (the_goal l). rewrite (clf_is l g HG). cbn [bind].
      assert (X : open_input W' (hd_error files) = open_input W (hd_error files)).
      { unfold open_input. destruct (hd_error files) as [f|] eqn:Ef; [apply H3; left; exact Ef|congruence]. }
      rewrite X. destruct (open_input W (hd_error files)) as [text|]; [|reflexivity].
      destruct HS as (S1 & S2 & S3 & S4 & S5 & S6 & S7 & _). destruct HS' as (T1 & T2 & T3 & T4 & T5 & T6 & T7 & _).
      unfold the_format, the_metric, the_changes, the_aut, the_goal, the_removal, the_output in T1, T2, T3, T4, T5, T6, T7.
      rewrite final_without in T1, T2, T3, T4, T5, T6, T7 by reflexivity.
      rewrite (run_world fuel o o' (opt_tree g) text W' W).
      - unfold answer, patch_answer. rewrite T7. unfold the_output. rewrite final_without by reflexivity. reflexivity.
      - rewrite S1, T1. reflexivity.
      - rewrite S2, T2. reflexivity.
      - rewrite S3, T3. reflexivity.
      - rewrite S4, T4. reflexivity.
      - rewrite S5, T5. reflexivity.
      - rewrite S6, T6. reflexivity.
      - rewrite S7, T7. reflexivity.
      - exact H1.
      - exact H2.
      - intros f Hf. apply H3. rewrite S3, S4 in Hf. right. exact Hf.
    Qed.
    (** the formula goes first *)
    Lemma first_unwritable : forall fuel, g <> None -> w_writable W "clformula_ptree.dot" = false -> run fuel args = Ok ([], error_exit).
    Proof.
      intros fuel Hg Hw. destruct (pdump_settings _ _ _ _ _ HA) as (o & E & HS & L1 & L2 & L3).
      unfold run, patch_program_p. rewrite E. cbn [bind]. rewrite L1, L2, L3. cbn [negb orb Z.eqb].
      pose proof (first_list o HS) as F. destruct HS as (_ & _ & _ & _ & S5 & _). rewrite S5 in *. rewrite (clf_is l g HG). cbn [bind].
      rewrite F. destruct g as [h|]; [|congruence]. cbn [goal_drawing map dump_trees fst snd]. rewrite Hw. reflexivity.
    Qed.
    Hypothesis Hfirst : forall x, In x (goal_drawing g) -> w_writable W (fst x) = true.
    Hypothesis Hap1 : forall f, reads l files f -> ~ In f (map fst (goal_drawing g)).
    Lemma first_done : exists o fs0, psettings l files o /\ drawn addr (goal_drawing g) fs0 /\
      (forall f, reads l files f -> w_file (written W fs0) f = w_file W f) /\
      forall fuel, run fuel args =
        match open_input W (hd_error files) with
        | None => Ok (fs0, error_exit)
        | Some text =>
            d <- patch_dump_phase (written W fs0) addr (opt_tree g) text ;;
            match d with
            | None => r <- answer fuel (written W fs0) o (opt_tree g) text ;; Ok (fs0, r)
            | Some (files, screen, true) => r <- answer fuel (written (written W fs0) files) o (opt_tree g) text ;; Ok (fs0 ++ files, put_before screen r)
            | Some (files, screen, false) => Ok (fs0 ++ files, Exits (-1) screen None)
            end
        end.
    Proof.
      destruct (pdump_settings _ _ _ _ _ HA) as (o & E & HS & L1 & L2 & L3).
      destruct (dump_trees_ok W addr _ Hadd Hfirst) as (fs0 & D1 & D2). exists o, fs0. split; [exact HS|]. split; [exact D2|].
      assert (Y : forall f, reads l files f -> w_file (written W fs0) f = w_file W f).
      { intros f Hf. apply written_file. rewrite (drawn_names _ _ _ D2). auto. }
      split; [exact Y|]. intros fuel.
      unfold run, patch_program_p. rewrite E. cbn [bind]. rewrite L1, L2, L3. cbn [negb orb Z.eqb].
      pose proof (first_list o HS) as F. destruct HS as (_ & _ & _ & _ & S5 & _ & _ & S8 & _). rewrite S5 in *. rewrite (clf_is l g HG). cbn [bind].
      rewrite F, D1. cbn [bind fst snd negb]. cbv zeta. rewrite S8.
      assert (X : open_input (written W fs0) (hd_error files) = open_input W (hd_error files)).
      { unfold open_input. destruct (hd_error files) as [f|] eqn:Ef; [apply Y; left; exact Ef|reflexivity]. }
      rewrite X. destruct (open_input W (hd_error files)) as [text|]; reflexivity.
    Qed.
    Lemma check_known : forall R, goal_known R g -> check_vars (opt_tree g) (clf_list (raw_of R)) NULL = Ok None.
    Proof.
      intros R H. destruct g as [h|]; [|apply check_null]. cbn [opt_tree]. rewrite clf_list_raw.
      destruct (ListProofs.check_ok h (rs_svars R ++ rs_evars R) []) as (b & E2 & Hb). cbn [vlist] in E2. rewrite E2.
      destruct b as [w|]; [|reflexivity]. exfalso. destruct H as [H1 H2].
      destruct Hb as [[B1 B2]|(x & _ & B1 & _)]; [|rewrite H2 in B1; exact B1]. apply B2. specialize (H1 w B1). unfold names, rs_vars in *.
      rewrite map_app in *. apply in_app_or in H1. apply in_or_app. tauto.
    Qed.
    Lemma check_unknown : forall R, ~ goal_known R g -> exists w, check_vars (opt_tree g) (clf_list (raw_of R)) NULL = Ok (Some w).
    Proof.
      intros R H. destruct g as [h|]; [|exfalso; apply H; exact I]. cbn [opt_tree]. rewrite clf_list_raw.
      destruct (ListProofs.check_ok h (rs_svars R ++ rs_evars R) []) as (b & E2 & Hb). cbn [vlist] in E2. rewrite E2.
      destruct b as [w|]; [eauto|]. exfalso. apply H. destruct Hb as [B1 B2]. split.
      - intros x Hx. specialize (B1 x Hx). unfold names, rs_vars in *. rewrite map_app in *. apply in_app_or in B1. apply in_or_app. tauto.
      - destruct (fnexts h) as [|x r]; auto. exfalso. exact (B2 x (or_introl eq_refl)).
    Qed.
    Lemma early_same : forall args' q' a' , patch_asked args' (without_pdump l) files q' a' ->
      (hd_error files <> None /\ open_input W (hd_error files) = None \/
       exists text, input_text W (hd_error files) text /\
         (text_no_formula text /\ (~ exists R, text_means text R) \/
          exists R, text_means text R /\ (~ form_ok UNDEFINED_INIT R \/ ~ goal_known R g))) ->
      exists fs, drawn addr (goal_drawing g) fs /\ forall fuel r, plain_run fuel args' = Ok r -> run fuel args = Ok (fs, r).
    Proof.
      intros args' q' a' HA' H. destruct first_done as (o & fs0 & HS & D & Y & Hrun). exists fs0. split; [exact D|]. intros fuel r Hr.
      rewrite (plain_is fuel o args' q' a' HS HA' (written W fs0) eq_refl (fun _ => eq_refl) Y) in Hr. rewrite Hrun.
      assert (X : open_input (written W fs0) (hd_error files) = open_input W (hd_error files)).
      { unfold open_input. destruct (hd_error files) as [f|] eqn:Ef; [apply Y; left; exact Ef|reflexivity]. }
      rewrite X in Hr. destruct H as [[_ H]|(text & Hi & H)].
      - rewrite H in *. injection Hr as <-. reflexivity.
      - rewrite (input_open _ _ _ Hi) in *.
        assert (Z : patch_dump_phase (written W fs0) addr (opt_tree g) text = Ok None); [|rewrite Z; cbn [bind]; rewrite Hr; reflexivity].
        unfold patch_dump_phase. destruct H as [[H1 H2]|(R & HM & H)].
        + apply text_rejected in H2; auto. rewrite H2. reflexivity.
        + rewrite (text_parse _ _ HM). cbn [bind].
          destruct (form_check_ok UNDEFINED_INIT R) as [[HF E]|(_ & s & E & _)]; [|rewrite E; reflexivity]. rewrite E. cbn [bind fst].
          change (0 <? 0) with false. cbv iota. destruct H as [H|H]; [tauto|]. destruct (check_unknown R H) as (w & ->). reflexivity.
    Qed.
    Section Text.
      Variables (text : string) (R : rspec).
      Hypotheses (Hi : input_text W (hd_error files) text) (HM : text_means text R) (HF : form_ok UNDEFINED_INIT R) (HK : goal_known R g).
      Lemma pphase_is : forall W', patch_dump_phase W' addr (opt_tree g) text =
        (d <- patch_dump_and_echo W' addr (raw_of (completed R)) ;; Ok (Some d)).
      Proof.
        intros W'. unfold patch_dump_phase. rewrite (text_parse _ _ HM). cbn [bind].
        destruct (form_check_ok UNDEFINED_INIT R) as [[_ E]|[Hn _]]; [|tauto]. rewrite E. cbn [bind fst].
        change (0 <? 0) with false. cbv iota. rewrite (check_known R HK). cbn [bind]. rewrite raw_completed. reflexivity.
      Qed.
      Lemma pwhole : forall args' q' a', patch_asked args' (without_pdump l) files q' a' ->
        (forall x, In x (drawings (completed R)) -> w_writable W (fst x) = true) ->
        (forall f, reads l files f -> ~ In f (map fst (drawings (completed R)))) ->
        exists fs, drawn addr (patch_drawings g R) fs /\ forall fuel, run fuel args =
          (r <- plain_run fuel args' ;; Ok (fs, put_before (patch_vars_screen R ++ labelled (bodies_of (completed R))) r)).
      Proof.
        intros args' q' a' HA' Hw Hap. destruct first_done as (o & fs0 & HS & D & Y & Hrun).
        destruct (dump_trees_ok (written W fs0) addr _ Hadd Hw) as (fs & E1 & E2). exists (fs0 ++ fs). split; [apply Forall2_app; auto|].
        intros fuel. rewrite Hrun, (input_open _ _ _ Hi), pphase_is. unfold patch_dump_and_echo. rewrite dump_list_ok, E1. cbn [bind fst snd].
        rewrite patch_echo_ok, spec_printed. cbn [bind].
        assert (Y2 : forall f, reads l files f -> w_file (written (written W fs0) fs) f = w_file W f).
        { intros f Hf. rewrite written_file; [auto|]. rewrite (drawn_names _ _ _ E2). auto. }
        assert (X : open_input (written (written W fs0) fs) (hd_error files) = open_input W (hd_error files)).
        { unfold open_input. destruct (hd_error files) as [f|] eqn:Ef; [apply Y2; left; exact Ef|reflexivity]. }
        rewrite (plain_is fuel o args' q' a' HS HA' (written (written W fs0) fs) eq_refl (fun _ => eq_refl) Y2), X, (input_open _ _ _ Hi). reflexivity.
      Qed.
      Lemma pfiles : (forall x, In x (drawings (completed R)) -> w_writable W (fst x) = true) ->
        forall fuel fs r, run fuel args = Ok (fs, r) -> drawn addr (patch_drawings g R) fs.
      Proof.
        intros Hw fuel fs r Hr. destruct first_done as (o & fs0 & HS & D & Y & Hrun).
        destruct (dump_trees_ok (written W fs0) addr _ Hadd Hw) as (fs1 & E1 & E2).
        rewrite Hrun, (input_open _ _ _ Hi), pphase_is in Hr. unfold patch_dump_and_echo in Hr. rewrite dump_list_ok, E1 in Hr. cbn [bind fst snd] in Hr.
        rewrite patch_echo_ok, spec_printed in Hr. cbn [bind] in Hr. apply bind_ok in Hr. destruct Hr as (r0 & _ & X). injection X as <- _.
        apply Forall2_app; auto.
      Qed.
      Lemma pstop : forall u x v, drawings (completed R) = u ++ x :: v -> (forall y, In y u -> w_writable W (fst y) = true) -> w_writable W (fst x) = false ->
        forall fuel, exists fs, run fuel args = Ok (fs, error_exit) /\ drawn addr (goal_drawing g ++ u) fs.
      Proof.
        intros u x v Ed Hw Hx fuel. destruct first_done as (o & fs0 & HS & D & Y & Hrun).
        destruct (dump_trees_stop (written W fs0) addr u x v Hadd Hw Hx) as (fs & E1 & E2).
        exists (fs0 ++ fs). split; [|apply Forall2_app; auto]. rewrite Hrun, (input_open _ _ _ Hi), pphase_is. unfold patch_dump_and_echo.
        rewrite dump_list_ok, Ed, E1. reflexivity.
      Qed.
    End Text.
  End Asked.
End Runs.

(** ** The statements *)
Lemma patch_echo_only : forall orc alloc key date broken W addr args l files q a args' g text R,
  patch_asked_dump args l files q a -> patch_asked args' (without_pdump l) files q a -> goal_is l g ->
  input_text W (hd_error files) text -> text_means text R -> form_ok UNDEFINED_INIT R -> goal_known R g -> addresses addr ->
  (forall x, In x (patch_drawings g R) -> w_writable W (fst x) = true) ->
  (forall f, reads l files f -> ~ In f (map fst (patch_drawings g R))) ->
  exists listing, (writable_spec R -> listing_of (completed R) listing) /\
    forall fuel,
      (forall c t f, patch_program orc alloc key date broken fuel W args' = Ok (Exits c t f) ->
         exists fs, patch_program_p orc alloc key date broken addr fuel W args = Ok (fs, Exits c (patch_vars_screen R ++ listing ++ t)%string f)) /\
      (forall fs c t' f, patch_program_p orc alloc key date broken addr fuel W args = Ok (fs, Exits c t' f) ->
         exists t, t' = (patch_vars_screen R ++ listing ++ t)%string /\ patch_program orc alloc key date broken fuel W args' = Ok (Exits c t f)).
Proof.
  intros orc alloc key date broken W addr args l files q a args' g text R HA HA' HG Hi HM HF HK Ha Hw Hr. unfold patch_drawings in *.
  destruct (pwhole orc alloc key date broken W addr args l files q a g HA HG Ha) with (text := text) (R := R) (args' := args') (q' := q) (a' := a) as (fs & _ & E); auto.
  - intros x Hx. apply Hw. apply in_or_app. auto.
  - intros f Hf Hx. apply (Hr f Hf). rewrite map_app. apply in_or_app. auto.
  - intros x Hx. apply Hw. apply in_or_app. auto.
  - intros f Hf Hx. apply (Hr f Hf). rewrite map_app. apply in_or_app. auto.
  - exists (labelled (bodies_of (completed R))). split; [intros X; apply listing_ok, completed_writable, X|]. intros fuel. rewrite E. split.
    + intros c t f H. rewrite H. exists fs. cbn [bind put_before]. rewrite str_assoc. reflexivity.
    + intros fs' c t' f H. apply bind_ok in H. destruct H as (r & Er & H). rewrite Er. injection H as _ H. destruct r as [c0 t0 f0| | |]; try discriminate H.
      injection H as <- <- <-. exists t0. rewrite str_assoc. auto.
Qed.
Lemma patch_files_only : forall orc alloc key date broken W addr args l files q a g text R,
  patch_asked_dump args l files q a -> goal_is l g ->
  input_text W (hd_error files) text -> text_means text R -> form_ok UNDEFINED_INIT R -> goal_known R g -> addresses addr ->
  (forall x, In x (patch_drawings g R) -> w_writable W (fst x) = true) ->
  (forall f, reads l files f -> ~ In f (map fst (patch_drawings g R))) ->
  forall fuel fs r, patch_program_p orc alloc key date broken addr fuel W args = Ok (fs, r) -> drawn addr (patch_drawings g R) fs.
Proof.
  intros orc alloc key date broken W addr args l files q a g text R HA HG Hi HM HF HK Ha Hw Hr fuel fs r H.
  refine (pfiles orc alloc key date broken W addr args l files q a g HA HG Ha _ _ text R Hi HM HF HK _ fuel fs r H).
  - intros x Hx. apply Hw. apply in_or_app. auto.
  - intros f Hf Hx. apply (Hr f Hf). unfold patch_drawings. rewrite map_app. apply in_or_app. auto.
  - intros x Hx. apply Hw. apply in_or_app. auto.
Qed.
Lemma patch_files_stop : forall orc alloc key date broken W addr args l files q a g text R,
  patch_asked_dump args l files q a -> goal_is l g ->
  input_text W (hd_error files) text -> text_means text R -> form_ok UNDEFINED_INIT R -> goal_known R g -> addresses addr ->
  (forall f, reads l files f -> ~ In f (map fst (patch_drawings g R))) ->
  forall u x v, patch_drawings g R = u ++ x :: v -> (forall y, In y u -> w_writable W (fst y) = true) -> w_writable W (fst x) = false ->
  forall fuel, exists fs, patch_program_p orc alloc key date broken addr fuel W args = Ok (fs, error_exit) /\ drawn addr u fs.
Proof.
  intros orc alloc key date broken W addr args l files q a g text R HA HG Hi HM HF HK Ha Hr u x v Ed Hw Hx fuel.
  assert (Hap : forall f, reads l files f -> ~ In f (map fst (goal_drawing g))).
  { intros f Hf X. apply (Hr f Hf). unfold patch_drawings. rewrite map_app. apply in_or_app. auto. }
  unfold patch_drawings in Ed. destruct g as [h|].
  - destruct u as [|y u].
    + injection Ed as <- _. exists []. split; [|constructor].
      apply (first_unwritable orc alloc key date broken W addr args l files q a (Some h) HA HG fuel); [discriminate|exact Hx].
    + injection Ed as <- Ed.
      refine (pstop orc alloc key date broken W addr args l files q a (Some h) HA HG Ha _ Hap text R Hi HM HF HK u x v Ed _ Hx fuel).
      * intros z [<-|[]]. apply Hw. left. reflexivity.
      * intros z Hz. apply Hw. right. exact Hz.
  - refine (pstop orc alloc key date broken W addr args l files q a None HA HG Ha _ Hap text R Hi HM HF HK u x v Ed Hw Hx fuel). intros z [].
Qed.
Lemma patch_early : forall orc alloc key date broken W addr args l files q a args' g,
  patch_asked_dump args l files q a -> patch_asked args' (without_pdump l) files q a -> goal_is l g -> addresses addr ->
  (forall x, In x (goal_drawing g) -> w_writable W (fst x) = true) -> (forall f, reads l files f -> ~ In f (map fst (goal_drawing g))) ->
  ((exists f, hd_error files = Some f /\ w_file W f = None) \/
   exists text, input_text W (hd_error files) text /\
     (text_no_formula text /\ (~ exists R, text_means text R) \/
      exists R, text_means text R /\ (~ form_ok UNDEFINED_INIT R \/ ~ goal_known R g))) ->
  exists fs, drawn addr (goal_drawing g) fs /\
    forall fuel r, patch_program orc alloc key date broken fuel W args' = Ok r ->
    patch_program_p orc alloc key date broken addr fuel W args = Ok (fs, r).
Proof.
  intros orc alloc key date broken W addr args l files q a args' g HA HA' HG Ha Hw Hr H.
  apply (early_same orc alloc key date broken W addr args l files q a g HA HG Ha Hw Hr args' q a HA').
  destruct H as [(f & E & H)|H]; [left|right; exact H]. rewrite E. split; [discriminate|exact H].
Qed.
Lemma patch_no_dump_same : forall orc alloc key date broken W addr args l files q a fuel r,
  patch_asked args l files q a -> patch_program orc alloc key date broken fuel W args = Ok r ->
  patch_program_p orc alloc key date broken addr fuel W args = Ok ([], r).
Proof.
  intros orc alloc key date broken W addr args l files q a fuel r (Hl & Hv & Hh & (Q1 & Q2 & Q3) & Hc & Hb & Ha & Haut) Hr.
  destruct (patch_options_accepted args l files Hl Hv) as (_ & _ & _ & _ & HG).
  destruct (HG Hc Hh) as (o & E & HS); [congruence|exact Hb|].
  destruct HS as (S1 & S2 & S3 & S4 & S5 & S6 & S7 & S8 & S9 & S10 & S11).
  assert (L1 : po_logging o = false) by (destruct (po_logging o); auto; exfalso; apply Q2, S10; auto).
  assert (L2 : po_ptdump o = false) by (destruct (po_ptdump o); auto; exfalso; apply Q1, S9; auto).
  unfold patch_program in Hr. unfold patch_program_p. rewrite E in *. cbn [bind] in *.
  rewrite S11, (pverbosity_quiet l Q3), L1, L2 in *. change (negb (0 mod 256 =? 0) || false || false) with false in Hr.
  change (negb (0 mod 256 =? 0) || false) with false. cbv iota in *. apply bind_ok in Hr. destruct Hr as (clf & -> & Hr). cbn [bind dump_trees fst snd negb].
  cbv zeta. change (open_input (written W []) (po_input o)) with (open_input W (po_input o)).
  destruct (open_input W (po_input o)) as [text|]; [|injection Hr as <-; reflexivity]. cbn [bind].
  rewrite (run_world orc alloc key date fuel o o clf text (written W []) W); auto. rewrite Hr. reflexivity.
Qed.
Lemma patch_names_differ : forall g R, NoDup (map fst (patch_drawings g R)).
Proof.
  intros g R. unfold patch_drawings. destruct g as [h|]; [|apply names_differ]. cbn [goal_drawing app map fst]. constructor; [|apply names_differ].
  intros H. unfold drawings in H. rewrite !map_app, !in_app_iff in H.
  assert (K : forall k fs x, In x (map fst (dot_names k fs)) -> exists n, x = dot_name k n).
  { intros k fs x. rewrite dot_names_are, in_map_iff. intros (n & <- & _). eauto. }
  destruct H as [H|[H|[H|[H|H]]]]; [cbn in H; destruct H as [H|[H|[]]]; discriminate H|..]; apply K in H; destruct H as (n & H); discriminate H.
Qed.
