(** Whole runs of gr1c -p. *)
From Coq Require Import List ZArith Bool Arith Ascii String Lia.
From Verif Require Import Base Strs Ptree Form Support Solve FSpec Automaton Nonbool RSpec Main FormCheck ListSpec ListProofs FormPrint
  Parse Syntax FileSpec TextSpec TextProofs Output Options OptSpec OptProofs Program ProgramSpec ProgramProofs PtDump DumpSpec DumpProofs.
Import ListNotations.
Open Scope string_scope.
Open Scope list_scope.
Open Scope Z_scope.

Lemma chosen_without : forall A (f : opt -> option A) d l, f ODump = None -> OptSpec.chosen f d (without_dump l) = OptSpec.chosen f d l.
Proof.
  intros A f d l H. unfold OptSpec.chosen. f_equal. induction l as [|o l IH]; [reflexivity|].
  destruct o; cbn [without_dump filter flat_map]; fold (without_dump l); rewrite ?IH; try reflexivity. rewrite H. reflexivity.
Qed.
Lemma in_without : forall l o, o <> ODump -> (In o (without_dump l) <-> In o l).
Proof. intros l o Ho. unfold without_dump. rewrite filter_In. split; [tauto|]. intros H. split; auto. destruct o; congruence. Qed.
Lemma verbosity_none : forall l, (forall b, ~ In (OVerbose b) l) -> verbosity l = 0.
Proof.
  induction l as [|q l IH]; intros Q; auto. destruct q; cbn; try (apply IH; intros b Hb; apply (Q b); right; auto). exfalso. eapply Q. left. eauto.
Qed.
Section Runs.
  Variables (orc : oracle) (alloc : nat -> aut -> nat) (key : nat -> string) (date : string) (W : world).
  Variables (addr : string -> list bool -> Z).
  Variables (args : list string) (l : list opt) (file : option string).
  Hypothesis HA : asked_dump args l file.
  Let run fuel := gr1c_program_p orc alloc key date addr fuel W args.
  Let go fuel o := gr1c_go orc alloc key date fuel W o.
  Lemma dump_go : exists o, settings l file o /\ o_ptdump o = true /\
    forall fuel, run fuel =
      (d <- (match open_input W file with Some text => dump_phase W addr o text | None => Ok None end) ;;
       match d with
       | None => r <- go fuel o ;; Ok ([], r)
       | Some (files, screen, true) => r <- go fuel o ;; Ok (files, put_before screen r)
       | Some (files, screen, false) => Ok (files, Exits (-1) screen None)
       end).
  Proof.
    destruct HA as (Hc & Hl & Hv & Hh & Q1 & Q2 & Q4 & Q5 & Q6).
    destruct (options_accepted args l file Hc Hl Hv) as (o & HS & _ & _ & Hgo). pose proof HS as (S1 & S2 & S3 & S4 & S5 & S6 & S7 & S8 & S9).
    assert (L2 : o_ptdump o = true) by (apply S6; auto).
    exists o. split; [exact HS|]. split; [exact L2|]. intros fuel.
    unfold run, gr1c_program_p. rewrite Hgo; [|auto|intros [X Y]; exact (Q6 X Y)|intros [X Y]; exact (Q5 X Y)]. cbn [bind].
    assert (L1 : o_logging o = false) by (destruct (o_logging o); auto; exfalso; apply Q2, S7; auto).
    rewrite S9, (verbosity_none l Q4), L1, L2, S5. reflexivity.
  Qed.
  Lemma go_same : forall fuel o args', settings l file o -> asked args' (without_dump l) file ->
    go fuel o = gr1c_program orc alloc key date fuel W args'.
  Proof.
    intros fuel o args' (S1 & S2 & S3 & S4 & S5 & S6 & S7 & S8 & S9) HA'.
    destruct (program_go orc alloc key date W fuel args' (without_dump l) file HA') as (P & HP & ->).
    unfold asked_mode, asked_init, asked_format, asked_output. rewrite !chosen_without by reflexivity.
    unfold go, gr1c_go. rewrite S1, S2, S3, S4, S5.
    assert (E : P = o_promela o).
    { rewrite in_without in HP by discriminate. destruct P, (o_promela o); auto; [symmetry; apply S8, HP; auto|apply HP, S8; auto]. }
    rewrite E. reflexivity.
  Qed.
  Lemma go_exits : forall fuel o r, go fuel o = Ok r -> exists c t f, r = Exits c t f.
  Proof.
    intros fuel o r E. unfold go, gr1c_go in E. destruct (open_input W (o_input o)) as [text|]; [|injection E as <-; eauto].
    assert (D : forall x, exists c t f, deliver W (o_output o) x = Exits c t f).
    { intros x. unfold deliver. destruct (snd x =? 0); [destruct (o_output o) as [g|]; [destruct (w_writable W g)|]|]; eauto. }
    assert (D' : forall x, exists c t f, deliver_verify W (o_output o) x = Exits c t f).
    { intros [[a b] c]. unfold deliver_verify. destruct (c =? 0); [destruct (o_output o) as [g|]; [destruct (w_writable W g)|]|]; eauto. }
    destruct (o_run o).
    - unfold syntax_only in E. apply bind_ok in E. destruct E as ([raw|] & _ & E); [|injection E as <-; eauto].
      apply bind_ok in E. destruct E as (c & _ & E). destruct (fst c <? 0); injection E as <-; eauto.
    - apply bind_ok in E. destruct E as (x & _ & E). injection E as <-. eauto.
    - destruct (o_promela o); apply bind_ok in E; destruct E as (x & _ & E); injection E as <-; [apply D'|apply D].
    - apply bind_ok in E. destruct E as (x & _ & E). injection E as <-. eauto.
  Qed.

  Section Text.
    Variables (text : string) (R : rspec).
    Hypotheses (Hi : input_text W file text) (HM : text_means text R) (HF : form_ok (asked_init l) R).
    Lemma phase_is : forall o, settings l file o -> asked_mode l <> GR1C_MODE_SYNTAX ->
      dump_phase W addr o text = (d <- dump_and_echo W addr (raw_of (completed R)) ;; Ok (Some d)).
    Proof.
      intros o (S1 & S2 & S3 & _) Hm. unfold dump_phase. rewrite (text_parse _ _ HM). cbn [bind].
      rewrite S3. fold (asked_init l). destruct (form_check_ok (asked_init l) R) as [[_ E]|[Hn _]]; [|tauto]. rewrite E. cbn [bind fst].
      change (fst (0, "") <? 0) with false. cbv iota. rewrite S1. fold (asked_mode l). rewrite raw_completed.
      destruct (asked_mode l); try reflexivity. congruence.
    Qed.
    Lemma completed_writable : writable_spec R -> writable_spec (completed R).
    Proof.
      intros [H1 H2]. split; [exact H1|]. intros s Hs. unfold sections_of in *. cbn [completed rs_evars rs_svars rs_einit rs_sinit rs_etrans rs_strans rs_egoals rs_sgoals] in Hs.
      assert (T : forall t f, In f [FTrue] -> writable_form t f).
      { intros t f [<-|[]]. split; [exact I|]. split; [reflexivity|]. intros; reflexivity. }
      assert (K : forall mk fs, (forall gs, (forall f, In f gs -> exists t, writable_form t f) -> True) ->
         In s (list_section mk (or_true fs)) -> In s (list_section mk fs) \/ s = mk [FTrue]).
      { intros mk [|f fs] _ H; [destruct H as [<-|[]]; auto|left; exact H]. }
      rewrite !in_app_iff in Hs.
      destruct Hs as [Hs|[Hs|[Hs|[Hs|[Hs|[Hs|Hs]]]]]].
      - apply H2. rewrite !in_app_iff. auto.
      - apply H2. rewrite !in_app_iff. auto.
      - apply H2. rewrite !in_app_iff. auto.
      - destruct (K _ _ (fun _ _ => I) Hs) as [X| ->]; [apply H2; rewrite !in_app_iff; tauto|exact (T true)].
      - destruct (K _ _ (fun _ _ => I) Hs) as [X| ->]; [apply H2; rewrite !in_app_iff; tauto|exact (T true)].
      - apply H2. rewrite !in_app_iff. tauto.
      - destruct (K _ _ (fun _ _ => I) Hs) as [X| ->]; [apply H2; rewrite !in_app_iff; tauto|exact (T false)].
    Qed.
    Lemma whole_dump : asked_mode l <> GR1C_MODE_SYNTAX -> addresses addr ->
      (forall x, In x (drawings (completed R)) -> w_writable W (fst x) = true) ->
      forall args', asked args' (without_dump l) file ->
      exists files listing, drawn addr (drawings (completed R)) files /\
        (writable_spec R -> listing_of (completed R) listing) /\
        forall fuel,
          (forall r, gr1c_program orc alloc key date fuel W args' = Ok r ->
             exists r', run fuel = Ok (files, r') /\ echoed (vars_screen R ++ listing) r r') /\
          (forall fs r', run fuel = Ok (fs, r') ->
             fs = files /\ exists r, gr1c_program orc alloc key date fuel W args' = Ok r /\ echoed (vars_screen R ++ listing) r r').
    Proof.
      intros Hm Ha Hw args' HA'. destruct dump_go as (o & HS & _ & Hrun).
      destruct (dump_trees_ok W addr _ Ha Hw) as (files & E1 & E2).
      exists files, (labelled (bodies_of (completed R))). split; [exact E2|]. split; [intros X; apply listing_ok, completed_writable; exact X|].
      assert (E : forall fuel, run fuel = (r <- gr1c_program orc alloc key date fuel W args' ;; Ok (files, put_before (vars_screen R ++ labelled (bodies_of (completed R))) r))).
      { intros fuel. rewrite Hrun, (input_open _ _ _ Hi), (phase_is o HS Hm). unfold dump_and_echo. rewrite dump_list_ok, E1. cbn [bind fst snd].
        rewrite echo_ok, spec_printed. cbn [bind]. rewrite (go_same fuel o args' HS HA'). reflexivity. }
      intros fuel. split.
      - intros r Hr. rewrite E, Hr. cbn [bind]. eexists. split; [reflexivity|].
        rewrite <- (go_same fuel o args' HS HA') in Hr. destruct (go_exits _ _ _ Hr) as (c & t & f & ->). exists c, t, f. auto.
      - intros fs r' Hr. rewrite E in Hr. apply bind_ok in Hr. destruct Hr as (r & Hr & X). injection X as <- <-. split; auto.
        exists r. split; auto. rewrite <- (go_same fuel o args' HS HA') in Hr. destruct (go_exits _ _ _ Hr) as (c & t & f & ->). exists c, t, f. auto.
    Qed.
    Lemma whole_dump_stop : asked_mode l <> GR1C_MODE_SYNTAX -> addresses addr ->
      forall a x b, drawings (completed R) = a ++ x :: b -> (forall y, In y a -> w_writable W (fst y) = true) -> w_writable W (fst x) = false ->
      exists files, drawn addr a files /\ forall fuel, run fuel = Ok (files, error_exit).
    Proof.
      intros Hm Ha a x b Ed Hw Hx. destruct dump_go as (o & HS & _ & Hrun).
      destruct (dump_trees_stop W addr a x b Ha Hw Hx) as (files & E1 & E2).
      exists files. split; [exact E2|]. intros fuel. rewrite Hrun, (input_open _ _ _ Hi), (phase_is o HS Hm). unfold dump_and_echo.
      rewrite dump_list_ok, Ed, E1. reflexivity.
    Qed.
  End Text.
  (** nothing is dumped *)
  Lemma nothing_is : forall args' text, asked args' (without_dump l) file -> input_text W file text ->
    (forall o, settings l file o -> dump_phase W addr o text = Ok None) ->
    forall fuel, run fuel = (r <- gr1c_program orc alloc key date fuel W args' ;; Ok ([], r)).
  Proof.
    intros args' text HA' Hi H fuel. destruct dump_go as (o & HS & _ & Hrun).
    rewrite Hrun, (input_open _ _ _ Hi), (H o HS). cbn [bind]. rewrite (go_same fuel o args' HS HA'). reflexivity.
  Qed.
  Lemma whole_nothing : forall args' text, asked args' (without_dump l) file -> input_text W file text ->
    (asked_mode l = GR1C_MODE_SYNTAX \/ (text_no_formula text /\ ~ exists R, text_means text R) \/
     exists R, text_means text R /\ ~ form_ok (asked_init l) R) ->
    forall fuel r, gr1c_program orc alloc key date fuel W args' = Ok r -> run fuel = Ok ([], r).
  Proof.
    intros args' text HA' Hi H fuel r Hr.
    destruct H as [Hm|[[H1 H2]|(R & HM & HF)]].
    - destruct dump_go as (o & HS & _ & Hrun). rewrite Hrun, (input_open _ _ _ Hi).
      rewrite (go_same fuel o args' HS HA'), Hr.
      assert (X : exists d, dump_phase W addr o text = Ok d /\ d = None); [|destruct X as (d & -> & ->); reflexivity].
      pose proof Hr as Hr'. destruct (program_go orc alloc key date W fuel args' _ file HA') as (P & _ & E). rewrite E in Hr'.
      rewrite (input_open _ _ _ Hi) in Hr'. unfold asked_mode, asked_init in Hr'. rewrite !chosen_without in Hr' by reflexivity.
      fold (asked_mode l) (asked_init l) in Hr'. rewrite Hm in Hr'. unfold syntax_only in Hr'. unfold dump_phase.
      destruct HS as (S1 & _ & S3 & _). rewrite S1, S3. fold (asked_mode l) (asked_init l). rewrite Hm.
      apply bind_ok in Hr'. destruct Hr' as (p & -> & Hr'). cbn [bind]. destruct p as [raw|]; [|eauto].
      apply bind_ok in Hr'. destruct Hr' as (c & -> & Hr'). cbn [bind]. destruct (fst c <? 0); eauto.
    - rewrite (nothing_is args' text HA' Hi); [rewrite Hr; reflexivity|]. intros o _. unfold dump_phase.
      rewrite (proj1 (text_rejected text H1) H2). reflexivity.
    - rewrite (nothing_is args' text HA' Hi); [rewrite Hr; reflexivity|]. intros o (S1 & S2 & S3 & _). unfold dump_phase.
      rewrite (text_parse _ _ HM). cbn [bind]. rewrite S3. fold (asked_init l).
      destruct (form_check_ok (asked_init l) R) as [[X _]|[_ E]]; [tauto|]. destruct E as (m & E & _). rewrite E. reflexivity.
  Qed.
End Runs.

(** ** The same, the screen and the files apart *)
Section Apart.
  Variables (orc : oracle) (alloc : nat -> aut -> nat) (key : nat -> string) (date : string) (W : world).
  Variables (addr : string -> list bool -> Z).
  Lemma echo_only : forall args l file text R args',
    asked_dump args l file -> asked_mode l <> GR1C_MODE_SYNTAX -> asked args' (without_dump l) file ->
    input_text W file text -> text_means text R -> form_ok (asked_init l) R -> addresses addr ->
    (forall x, In x (drawings (completed R)) -> w_writable W (fst x) = true) ->
    exists listing, (writable_spec R -> listing_of (completed R) listing) /\
      forall fuel,
        (forall r, gr1c_program orc alloc key date fuel W args' = Ok r ->
           exists files r', gr1c_program_p orc alloc key date addr fuel W args = Ok (files, r') /\ echoed (vars_screen R ++ listing) r r') /\
        (forall files r', gr1c_program_p orc alloc key date addr fuel W args = Ok (files, r') ->
           exists r, gr1c_program orc alloc key date fuel W args' = Ok r /\ echoed (vars_screen R ++ listing) r r').
  Proof.
    intros args l file text R args' HA Hm HA' Hi HM HF Ha Hw.
    destruct (whole_dump orc alloc key date W addr args l file HA text R Hi HM HF Hm Ha Hw args' HA') as (files & listing & _ & H1 & H2).
    exists listing. split; auto. intros fuel. destruct (H2 fuel) as [H3 H4]. split.
    - intros r Hr. destruct (H3 r Hr) as (r' & X). eauto.
    - intros fs r' Hr. apply (H4 fs r' Hr).
  Qed.
  Lemma files_only : forall args l file text R,
    asked_dump args l file -> asked_mode l <> GR1C_MODE_SYNTAX ->
    input_text W file text -> text_means text R -> form_ok (asked_init l) R -> addresses addr ->
    (forall x, In x (drawings (completed R)) -> w_writable W (fst x) = true) ->
    forall fuel files r, gr1c_program_p orc alloc key date addr fuel W args = Ok (files, r) ->
    drawn addr (drawings (completed R)) files.
  Proof.
    intros args l file text R HA Hm Hi HM HF Ha Hw fuel files r Hr.
    destruct (dump_go orc alloc key date W addr args l file HA) as (o & HS & _ & Hrun). rewrite Hrun in Hr.
    destruct (dump_trees_ok W addr _ Ha Hw) as (fs & E1 & E2).
    rewrite (input_open _ _ _ Hi), (phase_is W addr l file text R HM HF o HS Hm) in Hr. unfold dump_and_echo in Hr.
    rewrite dump_list_ok, E1 in Hr. cbn [bind fst snd] in Hr. rewrite echo_ok, spec_printed in Hr. cbn [bind] in Hr.
    apply bind_ok in Hr. destruct Hr as (r0 & _ & X). injection X as <- _. exact E2.
  Qed.
  Lemma files_stop : forall args l file text R,
    asked_dump args l file -> asked_mode l <> GR1C_MODE_SYNTAX ->
    input_text W file text -> text_means text R -> form_ok (asked_init l) R -> addresses addr ->
    forall a x b, drawings (completed R) = a ++ x :: b -> (forall y, In y a -> w_writable W (fst y) = true) -> w_writable W (fst x) = false ->
    forall fuel, exists files, gr1c_program_p orc alloc key date addr fuel W args = Ok (files, error_exit) /\ drawn addr a files.
  Proof.
    intros args l file text R HA Hm Hi HM HF Ha a x b Ed Hw Hx fuel.
    destruct (whole_dump_stop orc alloc key date W addr args l file HA text R Hi HM HF Hm Ha a x b Ed Hw Hx) as (files & X & Y). eauto.
  Qed.
  (** without the option the programs are the same *)
  Lemma no_dump_same : forall args l file fuel r,
    asked args l file -> gr1c_program orc alloc key date fuel W args = Ok r ->
    gr1c_program_p orc alloc key date addr fuel W args = Ok ([], r).
  Proof.
    intros args l file fuel r (Hc & Hl & Hv & Hh & Q1 & Q2 & Q4 & Q5 & Q6) Hr.
    destruct (options_accepted args l file Hc Hl Hv) as (o & (S1 & S2 & S3 & S4 & S5 & S6 & S7 & S8 & S9) & _ & _ & Hgo).
    assert (E : read_options args = Ok (Go o)) by (apply Hgo; [auto|intros [X Y]; exact (Q6 X Y)|intros [X Y]; exact (Q5 X Y)]).
    unfold gr1c_program in Hr. unfold gr1c_program_p. rewrite E in *. cbn [bind] in *.
    assert (L1 : o_logging o = false) by (destruct (o_logging o); auto; exfalso; apply Q2, S7; auto).
    assert (L2 : o_ptdump o = false) by (destruct (o_ptdump o); auto; exfalso; apply Q1, S6; auto).
    rewrite S9, (verbosity_none l Q4), L1, L2 in *. cbn in Hr |- *. rewrite Hr. reflexivity.
  Qed.
End Apart.
Lemma listing_not_read : exists R listing, writable_spec R /\ listing_of R listing /\ ~ exists R', text_means listing R'.
Proof.
  pose proof (proj1 ex_int_written) as H. exists NbExamples.ex_int, (labelled (bodies_of NbExamples.ex_int)).
  split; [exact H|]. split; [apply listing_ok; exact H|]. intros (R' & HM). apply text_parse in HM. vm_compute in HM. discriminate HM.
Qed.

(** ** The names of the files differ *)
Definition dot_name (kind : string) (n : nat) : string := (kind ++ five_digits n ++ "_ptree.dot")%string.
Lemma read_zeros : forall k s, read_digits 0 (String.concat "" (repeat "0" k) ++ s)%string = read_digits 0 s.
Proof.
  intros k s. rewrite <- zeros_ok. induction k as [|k IH]; [reflexivity|]. cbn [zeros append read_digits].
  change (isdigit "0") with true. cbv iota. change (0 * 10 + (code "0" - 48)) with 0. exact IH.
Qed.
Lemma dot_name_inj : forall k m n, dot_name k m = dot_name k n -> m = n.
Proof.
  intros k m n E. apply string_app_inj_l in E. apply (f_equal (read_digits 0)) in E. unfold five_digits in E.
  rewrite !string_app_assoc, !read_zeros in E. unfold zdec in E.
  assert (Em : (Z.of_nat m <? 0) = false) by (apply Z.ltb_ge; lia). assert (En : (Z.of_nat n <? 0) = false) by (apply Z.ltb_ge; lia).
  rewrite Em, En, !read_dec_pos, !read_stop in E by (reflexivity || lia). injection E as E. lia.
Qed.
Lemma dot_names_are : forall k fs, map fst (dot_names k fs) = map (dot_name k) (seq 0 (List.length fs)).
Proof.
  intros k fs. unfold dot_names. rewrite map_map. cbn [fst]. generalize 0%nat. induction fs as [|f fs IH]; intros i; [reflexivity|].
  cbn [List.length seq List.combine map]. f_equal. apply IH.
Qed.
Lemma nodup_app : forall A (a b : list A), NoDup a -> NoDup b -> (forall x, In x a -> In x b -> False) -> NoDup (a ++ b).
Proof.
  intros A a b Ha Hb H. induction a as [|x a IH]; [exact Hb|]. inversion Ha as [|x' a' Hx Ha' E]; subst. cbn. constructor.
  - rewrite in_app_iff. intros [X|X]; [auto|]. apply (H x); [left|]; auto.
  - apply IH; auto. intros y Hy. apply H. right. auto.
Qed.
Lemma dot_names_nodup : forall k fs, NoDup (map fst (dot_names k fs)).
Proof.
  intros k fs. rewrite dot_names_are. apply FinFun.Injective_map_NoDup; [intros m n; apply dot_name_inj|apply seq_NoDup].
Qed.
Lemma names_differ : forall R, NoDup (map fst (drawings R)).
Proof.
  intros R. unfold drawings. rewrite !map_app.
  assert (K : forall k fs x, In x (map fst (dot_names k fs)) -> exists n, x = dot_name k n).
  { intros k fs x. rewrite dot_names_are, in_map_iff. intros (n & <- & _). eauto. }
  apply nodup_app; [repeat constructor; cbn; intuition discriminate| |].
  - apply nodup_app; [apply dot_names_nodup| |].
    + apply nodup_app; [apply dot_names_nodup| |].
      * apply nodup_app; try apply dot_names_nodup.
        intros x Hx Hy. apply K in Hx, Hy. destruct Hx as (m & ->), Hy as (n & Hy). discriminate Hy.
      * intros x Hx Hy. rewrite in_app_iff in Hy. apply K in Hx. destruct Hx as (m & ->).
        destruct Hy as [Hy|Hy]; apply K in Hy; destruct Hy as (n & Hy); discriminate Hy.
    + intros x Hx Hy. rewrite !in_app_iff in Hy. apply K in Hx. destruct Hx as (m & ->).
      destruct Hy as [Hy|[Hy|Hy]]; apply K in Hy; destruct Hy as (n & Hy); discriminate Hy.
  - intros x Hx Hy. rewrite !in_app_iff in Hy.
    destruct Hy as [Hy|[Hy|[Hy|Hy]]]; apply K in Hy; destruct Hy as (n & ->); cbn in Hx; destruct Hx as [Hx|[Hx|[]]]; discriminate Hx.
Qed.
