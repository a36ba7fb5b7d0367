(** Proofs about -v and -l (Verbose.v). *)
From Coq Require Import List ZArith Bool Arith Ascii String Lia.
From Verif Require Import Base Strs PrintProofs Form FSpec Synth SynthSpec RSpec MainSpec TextSpec TextProofs Ptree Support Solve Automaton Nonbool Main FormCheck AutIO ListSpec JsonSpec JsonWrite FormatSpec Lex Parse Output Options OptSpec OptProofs
  Program ProgramSpec ProgramProofs Logging LogSpec LogProofs Verbose VerboseSpec.
Import ListNotations.
Open Scope string_scope.
Open Scope list_scope.
Open Scope Z_scope.

Definition aside (m : run_option_t) (pl : place) (t : string) : string :=
  match m, pl with GR1C_MODE_REALIZABLE, OnStdout => "" | _, _ => t end.
Lemma mode_result : forall orc alloc fuel mode flags raw r, gr1c_main orc alloc fuel mode flags raw = Ok r ->
  match mode, r with
  | MODE_REALIZABLE, SynthFailed | MODE_REALIZABLE, Strategy _ _ _ | MODE_SYNTHESIS, Realizable => False
  | _, _ => True
  end.
Proof.
  intros orc alloc fuel mode flags raw r H. unfold gr1c_main in H. apply bind_ok in H. destruct H as (p & _ & H).
  destruct p as [[spc nb]|]; [|injection H as <-; destruct mode; exact I].
  apply bind_ok in H. destruct H as (T & _ & H). destruct T; [|injection H as <-; destruct mode; exact I].
  destruct mode; [injection H as <-; exact I|]. apply bind_ok in H. destruct H as (S & _ & H).
  destruct S; [injection H as <-; exact I|]. apply bind_ok in H. destruct H as (x & _ & H). injection H as <-. exact I.
Qed.

Section Go.
  Variables (orc : oracle) (alloc : nat -> aut -> nat) (ptr : nat -> string) (date : string) (fuel : nat) (W : world).
  Variables (pid : Z) (can_open : string -> bool) (clock : nat -> moment).
  Variables (w : logged) (tm : bool) (pl : place).
  Hypothesis HP : place_of w = Some pl.
  Let good st := fits st (w, tm).
  Let entry k s := (pl, String.append (time_mark tm (clock k)) (s ++ newline)).
  Lemma say : forall st k fmt args s, good st -> log_format fmt args = Ok s ->
    exists st', logprint (clock k) fmt args st = Ok st' /\ good st' /\ adds st st' [entry k s].
  Proof.
    intros st k fmt args s H E. apply format_iff in E.
    destruct (call_ok pid can_open (clock k) _ _ _ _ (ld_print pid can_open (clock k) fmt args w tm pl s HP E) st H) as (st' & X & F & A).
    cbn [log_call] in X. apply bind_ok in X. destruct X as (y & X & Y). injection Y as ->. exists st'. auto.
  Qed.
  Lemma log_where : forall st, good st -> is_stdout (l_fp st) = match pl with OnStdout => true | _ => false end.
  Proof.
    intros st [H _]. cbn [fst] in H. destruct (stands_place st w pl H HP) as (p & E & _ & S). rewrite E.
    destruct p; cbn in S; rewrite <- S; reflexivity.
  Qed.
  Lemma no_tail : forall st st' l, adds st st' l -> adds st st' (l ++ [(OnStdout, "")]).
  Proof. intros st st' l H. eapply adds_same; [|exact H]. intros q. rewrite told_app, told_empty, str_nil_r. reflexivity. Qed.
  Lemma drop_tail : forall st st' l, adds st st' (l ++ [(OnStdout, "")]) -> adds st st' l.
  Proof. intros st st' l H. eapply adds_same; [|exact H]. intros q. rewrite told_app, told_empty, str_nil_r. reflexivity. Qed.
  Definition verdict_text (m : run_option_t) (s : string) : string :=
    match m with GR1C_MODE_REALIZABLE => aside m pl (String.append s newline) | _ => "" end.
  Lemma verdict_said : forall st m s, good st -> log_format s [] = Ok s ->
    exists st', say_verdict clock m s st = Ok st' /\ good st' /\ adds st st' [entry 4 s; (OnStdout, verdict_text m s)].
  Proof.
    intros st m s H E. unfold say_verdict.
    assert (K : exists st', logprint (clock 4) s [] st = Ok st' /\ good st' /\ adds st st' [entry 4 s; (OnStdout, "")]).
    { destruct (say st 4%nat s [] s H E) as (st' & X & Y & Z). exists st'. split; auto. split; auto. exact (no_tail _ _ _ Z). }
    assert (K2 : pl <> OnStdout -> exists st', logprint (clock 4) s [] (put (Stream Stdout) (s ++ nl) st) = Ok st' /\ good st' /\
      adds st st' [entry 4 s; (OnStdout, String.append s newline)]).
    { intros Hn. destruct (say (put (Stream Stdout) (s ++ nl) st) 4%nat s [] s (put_fits _ _ _ _ H) E) as (st' & X & Y & Z).
      exists st'. split; auto. split; auto. eapply adds_same; [|exact (adds_trans _ _ _ _ _ (adds_put (Stream Stdout) _ st) Z)].
      intros q. unfold told, entry. cbn [shown map filter fst snd app].
      destruct (place_eqb OnStdout q) eqn:E1, (place_eqb pl q) eqn:E2; try reflexivity.
      exfalso. destruct q; try discriminate E1. destruct pl; try discriminate E2. congruence. }
    destruct m; try exact K. rewrite (log_where st H). unfold verdict_text. destruct pl; cbn [aside]; [exact K|apply K2; discriminate|apply K2; discriminate].
  Qed.
  Lemma synthesis_said : forall st, good st -> exists st', say_synthesis clock st = Ok st' /\ good st' /\
    adds st st' [entry 5 "Synthesizing a strategy..."; entry 6 "Done."].
  Proof.
    intros st H. unfold say_synthesis. destruct (say st 5%nat "Synthesizing a strategy..." [] _ H eq_refl) as (st1 & -> & H1 & A1). cbn [bind].
    destruct (say st1 6%nat "Done." [] _ H1 eq_refl) as (st2 & -> & H2 & A2). exists st2. split; auto. split; auto.
    exact (adds_trans _ _ _ _ _ A1 A2).
  Qed.
  Lemma finished : forall st o, good st -> exists st', finish o st = Ok st' /\ forall a l, adds a st l -> adds a st' l.
  Proof.
    intros st o [H _]. unfold finish. destruct (o_logging o); [|exists st; split; auto].
    destruct (close_ok st w H) as (st' & E & _ & _ & L); [intros ->; discriminate HP|]. exists st'. split; auto.
    intros a l A q. unfold visible. rewrite L. apply A.
  Qed.
  Lemma size_text : forall n, log_format "Dumping automaton of size %d..." [AInt (Z.of_nat n)] = Ok (dumping n).
  Proof. intros n. reflexivity. Qed.
  Fixpoint entries (k : nat) (msgs : list string) : list (place * string) :=
    match msgs with [] => [] | x :: r => entry k x :: entries (S k) r end.
  Lemma entries_told : forall q msgs k, told q (entries k msgs) = told q [(pl, log_text tm clock k msgs)].
  Proof.
    intros q. induction msgs as [|x r IH]; intros k.
    - cbn [entries log_text]. rewrite told_empty. reflexivity.
    - cbn [entries log_text]. specialize (IH (S k)). unfold told in *. cbn [filter map fst snd entry] in *.
      change (fst (entry k x)) with pl. destruct (place_eqb pl q); cbn [map snd] in *; [|exact IH].
      rewrite cat_cons, IH. unfold entry. cbn [snd]. cbn [String.concat]. rewrite !str_assoc. reflexivity.
  Qed.
  (** a run that ends well says how many nodes there are *)
  Definition sized (o : opts) (r : outcome) (msgs : list string) : Prop :=
    exists text raw A ev sv s, open_input W (o_input o) = Some text /\ yyparse text = Ok (Some raw) /\
      gr1c_main orc alloc fuel MODE_SYNTHESIS (o_init o) raw = Ok (Strategy A ev sv) /\
      write_strategy ptr date (o_format o) (negb (is_null (nonbool_items (link (r_evars raw) (r_svars raw))))) A ev sv = Ok s /\
      r = deliver W (o_output o) (s, 0) /\ msgs = running :: parsed ++ found ++ [dumping (List.length A)].
  (** the messages tell how far the run gets *)
  Definition staged (o : opts) (m : run_option_t) (c : Z) (msgs : list string) : Prop :=
    (open_input W (o_input o) = None -> msgs = [running]) /\
    forall text, open_input W (o_input o) = Some text ->
      (yyparse text = Ok None -> msgs = running :: parsing) /\
      forall raw, yyparse text = Ok (Some raw) -> exists more, msgs = running :: parsed ++ more /\
        (m = GR1C_MODE_SYNTHESIS -> c = -1 -> more = [] -> gr1c_main orc alloc fuel MODE_SYNTHESIS (o_init o) raw = Ok SpecError).
  Lemma staged_none : forall o m c, open_input W (o_input o) = None -> staged o m c [running].
  Proof. intros o m c H. split; [reflexivity|]. intros text X. congruence. Qed.
  Lemma staged_bad : forall o m c text, open_input W (o_input o) = Some text -> yyparse text = Ok None -> staged o m c (running :: parsing).
  Proof. intros o m c text H E. split; [congruence|]. intros text' X. assert (text' = text) as -> by congruence. split; [reflexivity|]. congruence. Qed.
  Lemma staged_ok : forall o m c more text raw, open_input W (o_input o) = Some text -> yyparse text = Ok (Some raw) ->
    (m = GR1C_MODE_SYNTHESIS -> c = -1 -> more = [] -> gr1c_main orc alloc fuel MODE_SYNTHESIS (o_init o) raw = Ok SpecError) ->
    staged o m c (running :: parsed ++ more).
  Proof.
    intros o m c more text raw H E K. split; [congruence|]. intros text' X. assert (text' = text) as -> by congruence. split; [congruence|].
    intros raw' Y. assert (raw' = raw) as -> by congruence. exists more. auto.
  Qed.
  (** the run [x] does as the run [r] without the log *)
  Definition alike (o : opts) (m : run_option_t) (st : lstate) (r : out outcome) (x : out voutcome) : Prop :=
    match r with
    | Ok (Exits c t f) => exists st' msgs, x = Ok (VExits c f st') /\
        progress m c msgs /\ adds st st' (entries 1 msgs ++ [(OnStdout, aside m pl t)]) /\
        (m = GR1C_MODE_SYNTHESIS -> c = 0 -> sized o (Exits c t f) msgs) /\ staged o m c msgs
    | Ok _ => False
    | Crash => x = Crash
    | Fuel => x = Fuel
    end.
  Lemma go_v : forall o st, good st -> o_run o <> GR1C_MODE_INTERACTIVE -> o_promela o = false ->
    alike o (o_run o) st (gr1c_go orc alloc ptr date fuel W o) (verbose_go orc alloc ptr date fuel W clock o st).
  Proof.
    intros o st H HM HPr. unfold gr1c_go, verbose_go. rewrite HPr.
    destruct (say st 1%nat "Running with verbosity level %d." [AInt 1] running H eq_refl) as (st1 & -> & H1 & A1). cbn [bind].
    assert (Z0 : forall m, aside m pl "" = "") by (intros []; destruct pl; reflexivity).
    assert (D : forall m c msgs st', progress m c msgs -> adds st st' (entries 1 msgs) -> (m = GR1C_MODE_SYNTHESIS -> c <> 0) -> staged o m c msgs -> alike o m st (Ok (Exits c "" None)) (Ok (VExits c None st'))).
    { intros m c msgs st' P A C G. exists st', msgs. split; auto. split; auto. split; [rewrite Z0; apply no_tail; exact A|]. split; [intros X Y; destruct (C X Y)|exact G]. }
    destruct (open_input W (o_input o)) as [text|] eqn:EI; [|refine (D _ _ _ _ (pr_no_input _) A1 _ (staged_none _ _ _ EI)); discriminate].
    destruct (say st1 2%nat "Parsing input..." [] _ H1 eq_refl) as (st2 & -> & H2 & A2). cbn [bind].
    pose proof (adds_trans _ _ _ _ _ A1 A2) as B2. clear A1 A2.
    unfold syntax_only, gr1c_run.
    destruct (yyparse text) as [[raw|]| |] eqn:EY; cbn [bind]; [| |destruct (o_run o); try congruence; reflexivity|destruct (o_run o); try congruence; reflexivity].
    2:{ pose proof (D _ _ _ _ (pr_no_syntax (o_run o)) B2 ltac:(discriminate) (staged_bad _ _ _ _ EI EY)) as Y. destruct (o_run o); try congruence; exact Y. }
    destruct (say st2 3%nat "Done." [] _ H2 eq_refl) as (st3 & -> & H3 & A3). cbn [bind].
    pose proof (adds_trans _ _ _ _ _ B2 A3) as B3. clear B2 A3.
    destruct (check_gr1c_form raw (o_init o)) as [c| |]; cbn [bind]; [|destruct (o_run o); try congruence; reflexivity|destruct (o_run o); try congruence; reflexivity].
    destruct (fst c <? 0).
    { pose proof (D _ _ _ _ (pr_bad_form (o_run o)) B3 ltac:(discriminate) (staged_ok o (o_run o) 2 [] text raw EI EY ltac:(discriminate))) as Y. destruct (o_run o); try congruence; exact Y. }
    destruct (o_run o) eqn:EM; [| | |congruence].
    - refine (D _ _ _ _ (pr_syntax _ eq_refl) B3 _ (staged_ok _ _ _ [] _ _ EI EY _)); discriminate.
    - pose proof (mode_result orc alloc fuel MODE_REALIZABLE (o_init o) raw) as MR.
      destruct (gr1c_main orc alloc fuel MODE_REALIZABLE (o_init o) raw) as [r| |]; cbn [bind]; [|reflexivity|reflexivity].
      specialize (MR r eq_refl). destruct r; cbn [bind fst snd]; try contradiction.
      + refine (D _ _ _ _ (pr_bad_spec _ _) B3 _ (staged_ok _ _ _ [] _ _ EI EY _)); discriminate.
      + destruct (verdict_said st3 GR1C_MODE_REALIZABLE "Not realizable." H3 eq_refl) as (st4 & -> & H4 & A4). cbn [bind].
        destruct (finished st4 o H4) as (st5 & -> & A5). cbn [bind]. exists st5, (running :: parsed ++ ["Not realizable."]).
        split; auto. split; [apply pr_not; discriminate|]. split; [apply A5; exact (adds_trans _ _ _ _ _ B3 A4)|]. split; [discriminate|]. refine (staged_ok _ _ _ [_] _ _ EI EY _); discriminate.
      + destruct (verdict_said st3 GR1C_MODE_REALIZABLE "Realizable." H3 eq_refl) as (st4 & -> & H4 & A4). cbn [bind].
        destruct (finished st4 o H4) as (st5 & -> & A5). cbn [bind]. exists st5, (running :: parsed ++ ["Realizable."]).
        split; auto. split; [apply pr_realizable; reflexivity|]. split; [apply A5; exact (adds_trans _ _ _ _ _ B3 A4)|]. split; [discriminate|]. refine (staged_ok _ _ _ [_] _ _ EI EY _); discriminate.
    - pose proof (mode_result orc alloc fuel MODE_SYNTHESIS (o_init o) raw) as MR.
      destruct (gr1c_main orc alloc fuel MODE_SYNTHESIS (o_init o) raw) as [r| |] eqn:EG; cbn [bind]; [|reflexivity|reflexivity].
      specialize (MR r eq_refl). destruct r as [| | | |A ev sv]; cbn [bind fst snd]; try contradiction.
      + refine (D _ _ _ _ (pr_bad_spec _ _) B3 _ (staged_ok _ _ _ [] _ _ EI EY (fun _ _ _ => EG))); discriminate.
      + destruct (verdict_said st3 GR1C_MODE_SYNTHESIS "Not realizable." H3 eq_refl) as (st4 & -> & H4 & A4). cbn [bind].
        destruct (finished st4 o H4) as (st5 & -> & A5). cbn [bind]. exists st5, (running :: parsed ++ ["Not realizable."]).
        split; auto. split; [apply pr_not; discriminate|]. split; [apply A5; exact (adds_trans _ _ _ _ _ B3 A4)|]. split; [discriminate|]. refine (staged_ok _ _ _ [_] _ _ EI EY _); discriminate.
      + destruct (verdict_said st3 GR1C_MODE_SYNTHESIS "Realizable." H3 eq_refl) as (st4 & -> & H4 & A4). cbn [bind].
        destruct (synthesis_said st4 H4) as (st5 & -> & H5 & A5). cbn [bind].
        apply drop_tail with (l := [entry 4 "Realizable."]) in A4.
        refine (D _ _ _ st5 (pr_failed _ eq_refl) (adds_trans _ _ _ _ _ B3 (adds_trans _ _ _ _ _ A4 A5)) _ (staged_ok _ _ _ found _ _ EI EY _)); discriminate.
      + destruct (verdict_said st3 GR1C_MODE_SYNTHESIS "Realizable." H3 eq_refl) as (st4 & -> & H4 & A4). cbn [bind].
        destruct (synthesis_said st4 H4) as (st5 & -> & H5 & A5). cbn [bind].
        apply drop_tail with (l := [entry 4 "Realizable."]) in A4.
        pose proof (adds_trans _ _ _ _ _ B3 (adds_trans _ _ _ _ _ A4 A5)) as B5. clear B3 A4 A5.
        destruct (write_strategy ptr date (o_format o) _ A ev sv) as [s| |] eqn:EW; cbn [bind]; [|reflexivity|reflexivity].
        destruct (say st5 7%nat "Dumping automaton of size %d..." [AInt (Z.of_nat (List.length A))] _ H5 (size_text _)) as (st6 & -> & H6 & A6).
        cbn [bind]. pose proof (adds_trans _ _ _ _ _ B5 A6) as B6. clear A6.
        assert (SZ : forall r, r = deliver W (o_output o) (s, 0) -> sized o r (running :: parsed ++ found ++ [dumping (List.length A)])).
        { intros r Er. exists text, raw, A, ev, sv, s. repeat (split; [assumption|]). reflexivity. }
        unfold deliver in *. cbn [fst snd] in *. change (0 =? 0) with true in SZ. change (0 =? 0) with true. cbv iota.
        destruct (o_output o) as [f|].
        * destruct (w_writable W f); [|refine (D _ _ _ st5 (pr_failed _ eq_refl) B5 _ (staged_ok _ _ _ found _ _ EI EY _)); discriminate].
          destruct (finished st6 o H6) as (st7 & -> & A7). cbn [bind].
          exists st7, (running :: parsed ++ found ++ [dumping (List.length A)]). split; auto.
          split; [apply pr_strategy; reflexivity|]. split; [rewrite Z0; apply no_tail, A7; exact B6|]. split; [intros _ _; exact (SZ _ eq_refl)|]. refine (staged_ok _ _ _ (found ++ [dumping (List.length A)]) _ _ EI EY _); discriminate.
        * destruct (finished (put (Stream Stdout) s st6) o (put_fits _ _ _ _ H6)) as (st7 & -> & A7). cbn [bind].
          exists st7, (running :: parsed ++ found ++ [dumping (List.length A)]). split; auto.
          split; [apply pr_strategy; reflexivity|]. split; [apply A7; exact (adds_trans _ _ _ _ _ B6 (adds_put (Stream Stdout) s st6))|]. split; [intros _ _; exact (SZ _ eq_refl)|]. refine (staged_ok _ _ _ (found ++ [dumping (List.length A)]) _ _ EI EY _); discriminate.
  Qed.
End Go.

(** ** Options *)
Lemma silent_chosen : forall (A : Type) (f : opt -> option A) d l, (forall b, f (OVerbose b) = None) -> f OLog = None ->
  OptSpec.chosen f d (silent l) = OptSpec.chosen f d l.
Proof.
  intros A f d l H1 H2. unfold OptSpec.chosen. f_equal. induction l as [|o l IH]; [reflexivity|].
  destruct o; cbn [silent filter flat_map]; fold (silent l); rewrite ?H1, ?H2, IH; reflexivity.
Qed.
Lemma silent_in : forall l o, In o (silent l) -> In o l.
Proof. intros l o H. apply filter_In in H. tauto. Qed.

Section Runs.
  Variables (orc : oracle) (alloc : nat -> aut -> nat) (ptr : nat -> string) (date : string) (W : world).
  Variables (pid : Z) (can_open : string -> bool) (clock : nat -> moment).
  Let program fuel := gr1c_program orc alloc ptr date fuel W.
  Let program_v fuel := gr1c_program_v orc alloc ptr date fuel W pid can_open clock.
  Let name := log_name (clock 0%nat) pid None.
  Definition log_of (l : list opt) : logged := if existsb (fun o => match o with OLog => true | _ => false end) l then ToFile name else ToStdout.
  Lemma log_of_spec : forall l, (In OLog l /\ log_of l = ToFile name) \/ (~ In OLog l /\ log_of l = ToStdout).
  Proof.
    intros l. unfold log_of. destruct (existsb _ l) eqn:E.
    - apply existsb_exists in E. destruct E as (o & Ho & E). destruct o; try discriminate E. auto.
    - right. split; auto. intros H. assert (X : existsb (fun o => match o with OLog => true | _ => false end) l = true) by (apply existsb_exists; exists OLog; auto). congruence.
  Qed.
  Lemma program_alike : forall fuel args args' l file, asked_verbose args l file -> asked args' (silent l) file ->
    (In OLog l -> (String.length name <= 255)%nat /\ can_open name = true) ->
    forall pl, place_of (log_of l) = Some pl ->
    exists o, settings l file o /\
    alike orc alloc ptr date fuel W clock (match log_of l with ToStdout => false | _ => true end) pl o (asked_mode l) log_start (program fuel args') (program_v fuel args).
  Proof.
    intros fuel args args' l file (Hc & Hl & Hv & Hh & Hd & Hp & Hm & Hb) HA HN pl Epl.
    assert (X1 : asked_mode (silent l) = asked_mode l) by (apply silent_chosen; reflexivity).
    assert (X2 : asked_output (silent l) = asked_output l) by (apply silent_chosen; reflexivity).
    assert (X3 : asked_format (silent l) = asked_format l) by (apply silent_chosen; reflexivity).
    assert (X4 : asked_init (silent l) = asked_init l) by (apply silent_chosen; reflexivity).
    destruct (options_accepted args l file Hc Hl Hv) as (o & HS & _ & _ & Hgo).
    exists o. split; [exact HS|]. destruct HS as (S1 & S2 & S3 & S4 & S5 & S6 & S7 & S8 & S9).
    fold (asked_mode l) in *. fold (asked_format l) in *. fold (asked_init l) in *. fold (asked_output l) in *.
    assert (L2 : o_ptdump o = false) by (destruct (o_ptdump o); auto; exfalso; apply Hd, S6; auto).
    assert (L3 : o_promela o = false) by (destruct (o_promela o); auto; exfalso; apply Hp, S8; auto).
    assert (Q : program fuel args' = gr1c_go orc alloc ptr date fuel W o).
    { destruct (program_go orc alloc ptr date W fuel args' _ file HA) as (P & HP & E). unfold program. rewrite E.
      assert (P = false) as -> by (destruct P; auto; exfalso; apply Hp, silent_in, HP; auto).
      rewrite X1, X2, X3, X4. unfold gr1c_go. rewrite S1, S2, S3, S4, S5, L3. reflexivity. }
    rewrite Q. unfold program_v, gr1c_program_v. rewrite Hgo; [|auto|tauto|tauto]. cbn [bind]. rewrite L2, L3.
    assert (V : (if o_logging o && (o_verbose o =? 0) then 1 else o_verbose o) = 1).
    { rewrite S9. destruct Hb as [->|[-> B]]; [destruct (o_logging o); reflexivity|]. rewrite (proj2 S7 B). reflexivity. }
    rewrite V. cbn [orb]. change (negb (1 =? 1)) with false. cbv iota.
    assert (K : forall st t, fits st (log_of l, t) -> (match log_of l with ToStdout => false | _ => true end) = t -> adds log_start st [] ->
      alike orc alloc ptr date fuel W clock t pl o (asked_mode l) log_start (gr1c_go orc alloc ptr date fuel W o) (verbose_go orc alloc ptr date fuel W clock o st)).
    { intros st t F _ A. pose proof (go_v orc alloc ptr date fuel W pid can_open clock (log_of l) t pl Epl o st F) as G. rewrite S1 in G.
      specialize (G Hm L3). unfold alike in *. destruct (gr1c_go orc alloc ptr date fuel W o) as [[c s f| | |]| |]; auto.
      destruct G as (st' & msgs & G1 & G2 & G3 & G4 & G5). exists st', msgs. split; auto. split; auto. split; auto. exact (adds_trans _ _ _ _ _ A G3). }
    assert (Y : forall st : lstate, match o_run o with GR1C_MODE_INTERACTIVE => Ok VOther | _ => verbose_go orc alloc ptr date fuel W clock o st end =
       verbose_go orc alloc ptr date fuel W clock o st) by (intros st; rewrite S1; destruct (asked_mode l); congruence).
    destruct (log_of_spec l) as [[Hi E]|[Hi E]].
    - rewrite (proj2 S7 Hi). rewrite E in *. destruct (HN Hi) as [HN1 HO].
      destruct (call_ok pid can_open (clock 0%nat) (LOpen None) (NoLog, true) [] (ToFile name, true) ltac:(apply ld_open; auto; discriminate) log_start start_fits)
        as (st1 & E1 & F1 & A1). cbn [log_call] in E1. rewrite E1. cbn [bind].
      rewrite Y. apply K; auto.
    - assert (o_logging o = false) as -> by (destruct (o_logging o); auto; exfalso; apply Hi, S7; auto). rewrite E in *. cbn [bind].
      rewrite Y. apply K; auto; [split; reflexivity|apply adds_nothing; reflexivity].
  Qed.
  Lemma alike_out : forall fuel tm pl o m r x, alike orc alloc ptr date fuel W clock tm pl o m log_start r x ->
    (forall c t f, r = Ok (Exits c t f) -> exists st msgs, x = Ok (VExits c f st) /\ progress m c msgs /\
      (forall q, told q (visible st) = told q [(pl, log_text tm clock 1 msgs); (OnStdout, aside m pl t)]) /\
      (m = GR1C_MODE_SYNTHESIS -> c = 0 -> sized orc alloc ptr date fuel W o (Exits c t f) msgs) /\ staged orc alloc fuel W o m c msgs) /\
    (forall y, x = Ok y -> exists c t f, r = Ok (Exits c t f)).
  Proof.
    intros fuel tm pl o m r x H. split.
    - intros c t f ->. destruct H as (st & msgs & E & P & A & SZ). exists st, msgs. split; auto. split; auto. split; [|exact SZ].
      intros q. rewrite A. cbn [visible log_start l_out map]. change (told q []) with "". cbn [String.append].
      rewrite told_app, entries_told, <- told_app. reflexivity.
    - intros y ->. unfold alike in H. destruct r as [[c t f| | |]| |]; try contradiction; try discriminate H. eauto.
  Qed.

  (** ** Theorems *)
  Lemma verbose_stdout : forall args args' l file, asked_verbose args l file -> ~ In OLog l -> asked args' (silent l) file ->
    forall fuel c t f, program fuel args' = Ok (Exits c t f) -> exists st msgs,
      program_v fuel args = Ok (VExits c f st) /\ progress (asked_mode l) c msgs /\
      told OnStdout (visible st) = String.append (log_text false clock 1 msgs) (match asked_mode l with GR1C_MODE_REALIZABLE => "" | _ => t end) /\
      forall q, q <> OnStdout -> told q (visible st) = "".
  Proof.
    intros args args' l file HV Hn HA fuel c t f E. destruct (log_of_spec l) as [[X _]|[_ X]]; [tauto|].
    destruct (program_alike fuel args args' l file HV HA ltac:(tauto) OnStdout ltac:(rewrite X; reflexivity)) as (o & HS & K). rewrite X in K.
    destruct (proj1 (alike_out _ _ _ _ _ _ _ K) c t f E) as (st & msgs & E1 & P & T & _ & _). exists st, msgs. split; auto. split; auto. split.
    - rewrite T. cbn [told filter map fst snd place_eqb String.concat]. unfold told. cbn [filter map fst snd place_eqb String.concat].
      destruct (asked_mode l); reflexivity.
    - intros q Hq. rewrite T. destruct q; [congruence|reflexivity|reflexivity].
  Qed.
  Lemma verbose_file : forall args args' l file, asked_verbose args l file -> In OLog l -> asked args' (silent l) file ->
    (String.length name <= 255)%nat -> can_open name = true ->
    forall fuel c t f, program fuel args' = Ok (Exits c t f) -> exists st msgs,
      program_v fuel args = Ok (VExits c f st) /\ progress (asked_mode l) c msgs /\
      told OnStdout (visible st) = t /\ told (InFile name) (visible st) = log_text true clock 1 msgs /\
      forall q, q <> OnStdout -> q <> InFile name -> told q (visible st) = "".
  Proof.
    intros args args' l file HV Hn HA HN HO fuel c t f E. destruct (log_of_spec l) as [[_ X]|[X _]]; [|tauto].
    destruct (program_alike fuel args args' l file HV HA ltac:(auto) (InFile name) ltac:(rewrite X; reflexivity)) as (o & HS & K). rewrite X in K.
    destruct (proj1 (alike_out _ _ _ _ _ _ _ K) c t f E) as (st & msgs & E1 & P & T & _ & _). exists st, msgs. split; auto. split; auto.
    assert (Z : aside (asked_mode l) (InFile name) t = t) by (destruct (asked_mode l); reflexivity). rewrite Z in T.
    split; [|split].
    - rewrite T. reflexivity.
    - rewrite T. unfold told. cbn [filter map fst snd place_eqb]. rewrite String.eqb_refl. reflexivity.
    - intros q Hq1 Hq2. rewrite T. unfold told. cbn [filter map fst snd]. destruct q as [| |g]; [congruence|reflexivity|].
      cbn [place_eqb]. destruct (String.eqb_spec name g) as [->|_]; [congruence|reflexivity].
  Qed.
  Lemma verbose_only : forall args args' l file, asked_verbose args l file -> asked args' (silent l) file ->
    (In OLog l -> (String.length name <= 255)%nat /\ can_open name = true) ->
    forall fuel y, program_v fuel args = Ok y -> exists c t f, program fuel args' = Ok (Exits c t f).
  Proof.
    intros args args' l file HV HA HN fuel y E.
    destruct (log_of_spec l) as [[_ X]|[_ X]].
    - destruct (program_alike fuel args args' l file HV HA HN (InFile name) ltac:(rewrite X; reflexivity)) as (o & HS & K).
      exact (proj2 (alike_out _ _ _ _ _ _ _ K) y E).
    - destruct (program_alike fuel args args' l file HV HA HN OnStdout ltac:(rewrite X; reflexivity)) as (o & HS & K).
      exact (proj2 (alike_out _ _ _ _ _ _ _ K) y E).
  Qed.
  Lemma verbose_size : forall args args' l file text R, asked_verbose args l file -> asked args' (silent l) file ->
    (In OLog l -> (String.length name <= 255)%nat /\ can_open name = true) ->
    asked_mode l = GR1C_MODE_SYNTHESIS -> input_text W file text -> text_means text R -> form_ok (asked_init l) R -> usable R ->
    decidable_init R (asked_init l) -> tools R orc alloc -> keys_ok ptr -> chars plain date ->
    exists N, forall fuel, (N <= fuel)%nat -> forall f st, program_v fuel args = Ok (VExits 0 f st) ->
      exists A s, strategy_for R (asked_init l) A /\ describes ptr date (asked_format l) R A s /\
        f = match asked_output l with None => None | Some g => Some (g, s) end /\
        let log timed := log_text timed clock 1 (running :: parsed ++ found ++ [dumping (List.length A)]) in
        let rest := match asked_output l with None => s | Some _ => "" end in
        (In OLog l -> told (InFile name) (visible st) = log true /\ told OnStdout (visible st) = rest) /\
        (~ In OLog l -> told OnStdout (visible st) = String.append (log false) rest).
  Proof.
    intros args args' l file text R HV HA HN Hm Hi HM HF HU HD HT HK Hda.
    assert (Hu : asked_init l <> UNDEFINED_INIT) by (destruct HV as (_ & X & _); eapply asked_init_set; eauto).
    destruct (realizable_synth R (asked_init l) orc alloc Hu HF HU HD HT) as [(N & SR) _]. exists N. intros fuel Hf f st E.
    destruct (verbose_only args args' l file HV HA HN fuel _ E) as (c & t & f' & E').
    assert (M : exists pl, place_of (log_of l) = Some pl) by (destruct (log_of_spec l) as [[_ ->]|[_ ->]]; cbn; eauto). destruct M as (pl & Epl).
    destruct (program_alike fuel args args' l file HV HA HN pl Epl) as (o & HS & K).
    destruct (proj1 (alike_out _ _ _ _ _ _ _ K) c t f' E') as (st' & msgs & E1 & P & T & SZ & _).
    rewrite E in E1. injection E1 as <- <- <-.
    destruct (SZ Hm eq_refl) as (text' & raw & A & ev & sv & s & Z1 & Z2 & Z3 & Z4 & Z5 & Z6).
    destruct HS as (S1 & S2 & S3 & S4 & S5 & _).
    fold (asked_init l) in S3. fold (asked_format l) in S2. fold (asked_output l) in S4. rewrite S5, (input_open _ _ _ Hi) in Z1. injection Z1 as <-.
    rewrite (text_parse _ _ HM) in Z2. injection Z2 as <-. rewrite S3 in Z3. pose proof (SR fuel Hf _ Z3) as RA. cbn in RA.
    destruct RA as (_ & -> & -> & RA).
    destruct (written ptr date (asked_format l) R A HK Hda (text_decls _ _ HM)) as (s' & W1 & W2); [apply RA|].
    rewrite S2, W1 in Z4. injection Z4 as <-. exists A, s'. split; [exact RA|]. split; [exact W2|].
    rewrite S4 in Z5. unfold deliver in Z5. cbn [fst snd] in Z5. change (0 =? 0) with true in Z5. cbv iota in Z5.
    assert (Q : f = match asked_output l with None => None | Some g => Some (g, s') end /\ t = match asked_output l with None => s' | Some _ => "" end).
    { destruct (asked_output l) as [g|]; [destruct (w_writable W g); [|discriminate Z5]|]; injection Z5 as -> ->; auto. }
    destruct Q as [Q1 Q2]. split; [exact Q1|]. cbv zeta. rewrite <- Q2, <- Z6. rewrite Hm in T.
    change (aside GR1C_MODE_SYNTHESIS pl t) with t in T. unfold log_of in T, Epl.
    destruct (existsb (fun o => match o with OLog => true | _ => false end) l) eqn:EX; cbn [place_of] in Epl; injection Epl as <-.
    - split; [|intros X; exfalso; apply X; apply existsb_exists in EX; destruct EX as (q & Hq & Eq); destruct q; try discriminate Eq; exact Hq].
      intros _. rewrite !T. unfold told. cbn [filter map fst snd place_eqb]. rewrite String.eqb_refl. split; reflexivity.
    - split; [intros X|].
      { exfalso. assert (Y : existsb (fun o => match o with OLog => true | _ => false end) l = true) by (apply existsb_exists; exists OLog; auto). congruence. }
      intros _. rewrite T. reflexivity.
  Qed.
  Lemma run_log : forall args args' l file, asked_verbose args l file -> asked args' (silent l) file ->
    (In OLog l -> (String.length name <= 255)%nat /\ can_open name = true) ->
    forall fuel c f, program fuel args' = Ok (Exits c "" f) -> exists st msgs o,
      settings l file o /\ program_v fuel args = Ok (VExits c f st) /\ progress (asked_mode l) c msgs /\ only_logs l name clock st msgs /\
      staged orc alloc fuel W o (asked_mode l) c msgs.
  Proof.
    intros args args' l file HV HA HN fuel c f E.
    assert (M : exists pl, place_of (log_of l) = Some pl) by (destruct (log_of_spec l) as [[_ ->]|[_ ->]]; cbn; eauto). destruct M as (pl & Epl).
    destruct (program_alike fuel args args' l file HV HA HN pl Epl) as (o & HS & K).
    destruct (proj1 (alike_out _ _ _ _ _ _ _ K) c "" f E) as (st & msgs & E1 & P & T & _ & G).
    exists st, msgs, o. split; auto. split; auto. split; auto. split; auto.
    assert (Z : aside (asked_mode l) pl "" = "") by (destruct (asked_mode l), pl; reflexivity). rewrite Z in T.
    destruct (log_of_spec l) as [[X Y]|[X Y]]; rewrite Y in *; cbn [place_of] in Epl; injection Epl as <-.
    - split; [|tauto]. intros _. rewrite !T. unfold told. cbn [filter map fst snd place_eqb]. rewrite String.eqb_refl. split; reflexivity.
    - split; [tauto|]. intros _. rewrite T. unfold told. cbn [filter map fst snd place_eqb String.concat String.append]. rewrite str_nil_r. reflexivity.
  Qed.
  Section Stages.
    Variables (args args' : list string) (l : list opt) (file : option string).
    Hypotheses (HV : asked_verbose args l file) (HA : asked args' (silent l) file)
      (HN : In OLog l -> (String.length name <= 255)%nat /\ can_open name = true).
    Let ends fuel c msgs := exists st, program_v fuel args = Ok (VExits c None st) /\ only_logs l name clock st msgs.
    Lemma init_silent : asked_init (silent l) = asked_init l.
    Proof. apply silent_chosen; reflexivity. Qed.
    Lemma stage_no_file : forall fuel g, file = Some g -> w_file W g = None -> ends fuel (-1) [running].
    Proof.
      intros fuel g E H. pose proof (whole_no_file orc alloc ptr date W args' _ file HA fuel g E H) as R.
      destruct (run_log args args' l file HV HA HN fuel _ _ R) as (st & msgs & o & HS & R1 & _ & R2 & G).
      exists st. split; auto. destruct HS as (_ & _ & _ & _ & S5 & _). rewrite <- (proj1 G); auto. rewrite S5, E. exact H.
    Qed.
    Lemma stage_bad_text : forall fuel text, input_text W file text -> text_no_formula text -> (~ exists R, text_means text R) ->
      ends fuel 2 (running :: parsing).
    Proof.
      intros fuel text Hi Hn Hr. pose proof (whole_bad_text orc alloc ptr date W args' _ file HA fuel text Hi Hn Hr) as R.
      destruct (run_log args args' l file HV HA HN fuel _ _ R) as (st & msgs & o & HS & R1 & _ & R2 & G).
      exists st. split; auto. destruct HS as (_ & _ & _ & _ & S5 & _). apply text_rejected in Hr; auto.
      rewrite <- (proj1 (proj2 G text ltac:(rewrite S5; apply input_open; exact Hi)) Hr). exact R2.
    Qed.
    Lemma stage_bad_form : forall fuel text R, input_text W file text -> text_means text R -> ~ form_ok (asked_init l) R ->
      ends fuel 2 (running :: parsed).
    Proof.
      intros fuel text R Hi HM Hn. pose proof Hn as Hn'. rewrite <- init_silent in Hn'.
      pose proof (whole_bad_form orc alloc ptr date W args' _ file HA fuel text R Hi HM Hn') as Q.
      destruct (run_log args args' l file HV HA HN fuel _ _ Q) as (st & msgs & o & HS & R1 & P & R2 & G).
      exists st. split; auto. destruct HS as (_ & _ & _ & _ & S5 & _).
      destruct (proj2 (proj2 G text ltac:(rewrite S5; apply input_open; exact Hi)) _ (text_parse _ _ HM)) as (more & -> & _).
      inversion P as [| | | | | | | |n]; subst. exact R2.
    Qed.
    Lemma stage_failed : forall text R, asked_mode l = GR1C_MODE_SYNTHESIS -> input_text W file text -> text_means text R ->
      form_ok (asked_init l) R -> usable R -> decidable_init R (asked_init l) -> tools R orc alloc ->
      exists N, forall fuel, (N <= fuel)%nat -> program fuel args' = Ok error_exit -> ends fuel (-1) (running :: parsed ++ found).
    Proof.
      intros text R Hm Hi HM HF HU HD HT.
      assert (Hu : asked_init l <> UNDEFINED_INIT) by (destruct HV as (_ & X & _); eapply asked_init_set; eauto).
      destruct (realizable_synth R (asked_init l) orc alloc Hu HF HU HD HT) as [(N & SR) _]. exists N. intros fuel Hf E.
      destruct (run_log args args' l file HV HA HN fuel _ _ E) as (st & msgs & o & HS & R1 & P & R2 & G).
      exists st. split; auto. destruct HS as (_ & _ & S3 & _ & S5 & _). fold (asked_init l) in S3.
      destruct (proj2 (proj2 G text ltac:(rewrite S5; apply input_open; exact Hi)) _ (text_parse _ _ HM)) as (more & -> & Q).
      assert (B : more <> []). { intros X. specialize (Q Hm eq_refl X). rewrite S3 in Q. exact (SR fuel Hf _ Q). }
      inversion P as [| | | | | | | |n]; subst; congruence.
    Qed.
  End Stages.
  Lemma verbose_no_log : forall args l file, asked_verbose args l file -> In OLog l ->
    (String.length name <= 255)%nat -> can_open name = false ->
    forall fuel, program_v fuel args = Ok (VExits (-1) None log_start).
  Proof.
    intros args l file (Hc & Hl & Hv & Hh & Hd & Hp & Hm & Hb) Hi HN HO fuel.
    destruct (options_accepted args l file Hc Hl Hv) as (o & (S1 & S2 & S3 & S4 & S5 & S6 & S7 & S8 & S9) & _ & _ & Hgo).
    fold (asked_mode l) in *.
    assert (L2 : o_ptdump o = false) by (destruct (o_ptdump o); auto; exfalso; apply Hd, S6; auto).
    assert (L3 : o_promela o = false) by (destruct (o_promela o); auto; exfalso; apply Hp, S8; auto).
    unfold program_v, gr1c_program_v. rewrite Hgo; [|auto|tauto|tauto]. cbn [bind]. rewrite L2, L3, S9, (proj2 S7 Hi).
    replace (if true && (verbosity l mod 256 =? 0) then 1 else verbosity l mod 256) with 1 by (destruct Hb as [->|[-> _]]; reflexivity).
    cbn [orb]. change (negb (1 =? 1)) with false. cbv iota.
    pose proof (proj2 (call_exit pid can_open (clock 0%nat) (LOpen None) _ log_start start_fits)) as X. cbn [log_call fst] in X.
    rewrite X; [|split; [discriminate|exists None; auto]]. rewrite S1. destruct (asked_mode l); try congruence; reflexivity.
  Qed.
End Runs.
