(** Proofs about -v and -l of gr1c-autman (AutmanLog.v). *)
From Coq Require Import List ZArith Bool Arith Ascii String Lia.
From Verif Require Import PromelaSpec SpinSpec Spin SpinFinal.
From Verif Require Import Base Strs PrintProofs Ptree Form FSpec RSpec Automaton Nonbool Main AutIO AutIOSpec HotSpec Hotswap Lex Parse TextSpec TextProofs Output
  FormatSpec Options OptSpec Program Autman AutmanSpec AutmanProofs Logging LogSpec LogProofs Verbose VerboseSpec VerboseProofs AutmanLog AutmanLogSpec.
Import ListNotations.
Open Scope string_scope.
Open Scope list_scope.
Open Scope Z_scope.

(** ** Options *)
Definition strip (o : aopts) : aopts := AOpts (ao_run o) (ao_format o) (ao_spec o) (ao_len o) (ao_output o) (ao_input o) 0 false.
Lemma strip_steps : forall l o o', strip o = strip o' -> strip (asteps l o) = strip (asteps (hushed l) o').
Proof.
  induction l as [|p l IH]; intros o o' H; [exact H|].
  destruct p; cbn [hushed filter]; fold (hushed l); cbn [asteps fold_left]; try (apply IH; destruct o, o'; injection H; intros; subst; reflexivity).
Qed.
Lemma steps_level : forall l o, 0 <= ao_verbose o < 256 -> ao_verbose (asteps l o) = (ao_verbose o + times l) mod 256.
Proof.
  induction l as [|p l IH]; intros o H; [cbn; rewrite Z.add_0_r, Z.mod_small; auto|].
  cbn [asteps fold_left]. change (fold_left (fun o p => astep p o) l (astep p o)) with (asteps l (astep p o)). rewrite IH.
  - destruct p; try reflexivity. cbn [astep aset_verbose ao_verbose times]. rewrite Z.add_mod_idemp_l by lia. f_equal. lia.
  - destruct p; try exact H. cbn [astep aset_verbose ao_verbose]. apply Z.mod_pos_bound. lia.
Qed.
Lemma steps_log : forall l o, ao_logging (asteps l o) = true <-> In ALog l \/ ao_logging o = true.
Proof.
  induction l as [|p l IH]; intros o; [cbn; tauto|].
  cbn [asteps fold_left]. change (fold_left (fun o p => astep p o) l (astep p o)) with (asteps l (astep p o)). rewrite IH.
  destruct p; cbn [astep aset_logging ao_logging In]; intuition discriminate.
Qed.

Section Go.
  Variables (ptr : nat -> string) (date : string) (fuel : nat) (W : world).
  Variables (pid : Z) (can_open : string -> bool) (clock : nat -> moment).
  Variables (w : logged) (tm : bool) (pl : place) (v : Z) (st0 : lstate).
  Hypothesis HP : place_of w = Some pl.
  Let en := entries clock tm pl.
  Lemma entries_app : forall a b k, en k (a ++ b) = en k a ++ en (k + List.length a)%nat b.
  Proof.
    induction a as [|x a IH]; intros b k; [rewrite Nat.add_0_r; reflexivity|].
    cbn [app entries en List.length]. unfold en in *. cbn [entries]. rewrite IH. f_equal. f_equal. f_equal. lia.
  Qed.
  Definition inv (s : nat * lstate) (d : list (Z * string)) : Prop :=
    fits (snd s) (w, tm) /\ fst s = S (List.length (at_level v d)) /\ adds st0 (snd s) (en 1 (at_level v d)).
  Lemma at_level_app : forall a b, at_level v (a ++ b) = at_level v a ++ at_level v b.
  Proof. intros. unfold at_level. rewrite filter_app, map_app. reflexivity. Qed.
  Lemma noted : forall s d need fmt args text, inv s d -> log_format fmt args = Ok text ->
    exists s', note clock v need fmt args s = Ok s' /\ inv s' (d ++ [(need, text)]).
  Proof.
    intros [k st] d need fmt args text (H1 & H2 & H3) E. cbn [fst snd] in *. unfold note, inv. rewrite at_level_app. cbn [fst snd].
    unfold at_level at 2 4. cbn [filter fst]. destruct (need <=? v).
    - destruct (say pid can_open clock w tm pl HP st k fmt args text H1 E) as (st' & -> & F & A). cbn [bind map snd].
      eexists. split; [reflexivity|]. cbn [fst snd]. split; [exact F|]. split; [rewrite app_length; cbn; lia|].
      rewrite entries_app. eapply adds_trans; [exact H3|]. rewrite H2 in A. exact A.
    - eexists. split; [reflexivity|]. cbn [map fst snd]. rewrite !app_nil_r. auto.
  Qed.
  Let hd := level_message v.
  Definition input_said (o : aopts) : Z * string :=
    match ao_input o with
    | None => (2, "Using stdin for input.")
    | Some f => if begins "-" f then (2, "Using stdin for input.") else using_file f "input"
    end.
  Definition reference_said (o : aopts) (n : Z) : list (Z * string) :=
    match ao_spec o with
    | None => []
    | Some f => [using_file f "reference specification"; parsing_reference; (1, "Done."); (1, String.append "Detected state vector length of " (zdec n ++ "."))]
    end.
  (** all messages of a run *)
  Definition what (o : aopts) (d : list (Z * string)) : Prop :=
    (forall f, ao_spec o = Some f -> w_file W f = None -> d = [hd; using_file f "reference specification"]) /\
    (forall f text, ao_spec o = Some f -> w_file W f = Some text -> yyparse text = Ok None ->
       d = [hd; using_file f "reference specification"; parsing_reference]) /\
    (forall spc n, read_reference W o = Ok (RefSpec spc n) ->
       (autman_input W o = None -> d = hd :: reference_said o n ++ [input_said o]) /\
       (forall text, autman_input W o = Some text ->
          (aut_aut_loadver n text = Ok None -> d = hd :: reference_said o n ++ [input_said o; loading]) /\
          (forall L ver, aut_aut_loadver n text = Ok (Some (L, ver)) ->
             d = hd :: reference_said o n ++ [input_said o; loading] ++ loaded_messages ver (List.length L)))).
  Definition body (o : aopts) : out outcome :=
    r <- read_reference W o ;;
    match r with
    | RefError c => Ok (Exits c "" None)
    | RefSpec spc state_len =>
        match autman_input W o with
        | None => Ok (Exits (-1) "" None)
        | Some text =>
            l <- aut_aut_loadver state_len text ;;
            match l with
            | None => Ok (Exits 3 "" None)
            | Some (L, version) =>
                t <- autman_write ptr date fuel o spc state_len L version ;;
                match ao_output o with
                | None => Ok (Exits 0 (fst t ++ snd t)%string None)
                | Some f => if w_writable W f then Ok (Exits 0 (fst t) (Some (f, snd t))) else Ok (Exits (-1) "" None)
                end
            end
        end
    end.
  Definition same (o : aopts) (r : out outcome) (x : out voutcome) : Prop :=
    match r with
    | Ok (Exits c t f) => exists st' d, x = Ok (VExits c f st') /\ what o d /\ adds st0 st' (en 1 (at_level v d) ++ [(OnStdout, t)])
    | Ok _ => False
    | Crash => x = Crash
    | Fuel => x = Fuel
    end.
  (** the specification *)
  Lemma reference_v : forall o s, inv s [hd] ->
    match read_reference W o with
    | Ok (RefError c) => exists s' d, read_reference_v W clock v o s = Ok (s', RefError c) /\ inv s' d /\ what o d
    | Ok (RefSpec spc n) => exists s', read_reference_v W clock v o s = Ok (s', RefSpec spc n) /\ inv s' (hd :: reference_said o n)
    | Crash => read_reference_v W clock v o s = Crash
    | Fuel => read_reference_v W clock v o s = Fuel
    end.
  Proof.
    intros o s H. unfold read_reference, read_reference_v, what, reference_said. destruct (ao_spec o) as [f|] eqn:ES.
    2:{ exists s. auto. }
    destruct (noted s [hd] 2 "Using file ""%s"" for reference specification." [AStr f] (snd (using_file f "reference specification")) H eq_refl) as (s1 & -> & H1). cbn [bind].
    destruct (w_file W f) as [text|] eqn:EF.
    2:{ exists s1, [hd; using_file f "reference specification"]. split; auto. split; [exact H1|]. split; [intros g X _; injection X as <-; reflexivity|].
        split; [intros g text X Y; congruence|]. intros spc n X. unfold read_reference in X. rewrite ES, EF in X. discriminate X. }
    destruct (noted s1 _ 1 "Parsing reference specification file..." [] _ H1 eq_refl) as (s2 & -> & H2). cbn [bind].
    destruct (yyparse text) as [[raw|]| |] eqn:EY; cbn [bind]; [| |reflexivity|reflexivity].
    2:{ exists s2, [hd; using_file f "reference specification"; parsing_reference]. split; auto. split; [exact H2|]. split; [intros g X Y; congruence|].
        split; [intros g text' X _ _; injection X as <-; reflexivity|]. intros spc n X. unfold read_reference in X. rewrite ES, EF, EY in X. discriminate X. }
    destruct (noted s2 _ 1 "Done." [] _ H2 eq_refl) as (s3 & -> & H3). cbn [bind].
    set (n := Z.of_nat (tree_size (r_evars raw) + tree_size (r_svars raw))).
    destruct (noted s3 _ 1 "Detected state vector length of %d." [AInt n] (String.append "Detected state vector length of " (zdec n ++ ".")) H3 eq_refl) as (s4 & -> & H4). cbn [bind].
    exists s4. split; auto.
  Qed.
  Lemma go_same : forall o, fits st0 (w, tm) -> same o (body o) (autman_go_v ptr date fuel W clock v o st0).
  Proof.
    intros o HF. unfold body, autman_go_v.
    assert (H0 : inv (1%nat, st0) []) by (split; [exact HF|split; [reflexivity|apply adds_nothing; reflexivity]]).
    destruct (noted _ _ 1 "Running with verbosity level %d." [AInt v] (snd hd) H0 eq_refl) as (s1 & -> & H1). cbn [bind].
    pose proof (reference_v o s1 H1) as K. destruct (read_reference W o) as [[spc n|c]| |] eqn:ER; cbn [bind]; [| |rewrite K; reflexivity|rewrite K; reflexivity].
    2:{ destruct K as (s2 & d & -> & (_ & _ & A) & X). cbn [bind]. exists (snd s2), d. split; auto. split; auto. exact (no_tail _ _ _ A). }
    destruct K as (s2 & -> & H2). cbn [bind].
    assert (NS : forall d, (autman_input W o = None -> d = hd :: reference_said o n ++ [input_said o]) ->
       (forall text, autman_input W o = Some text ->
          (aut_aut_loadver n text = Ok None -> d = hd :: reference_said o n ++ [input_said o; loading]) /\
          (forall L ver, aut_aut_loadver n text = Ok (Some (L, ver)) ->
             d = hd :: reference_said o n ++ [input_said o; loading] ++ loaded_messages ver (List.length L))) -> what o d).
    { intros d D1 D2. unfold read_reference in ER. split; [intros f X Y; rewrite X, Y in ER; discriminate ER|].
      split; [intros f text X Y Z; rewrite X, Y, Z in ER; discriminate ER|]. intros spc' n' X.
      assert (n' = n) as -> by (unfold read_reference in X; congruence). auto. }
    assert (I3 : exists s3, say_input clock v o s2 = Ok s3 /\ inv s3 ((hd :: reference_said o n) ++ [input_said o])).
    { unfold say_input, input_said. destruct (ao_input o) as [g|]; [destruct (begins "-" g)|]; (eapply noted; [exact H2|reflexivity]). }
    destruct I3 as (s3 & -> & H3). cbn [bind].
    destruct (autman_input W o) as [text|] eqn:EI.
    2:{ eexists _, _. split; [reflexivity|]. split; [apply NS; [reflexivity|congruence]|]. apply no_tail. exact (proj2 (proj2 H3)). }
    destruct (noted _ _ 2 "Loading automaton..." [] _ H3 eq_refl) as (s4 & -> & H4). cbn [bind]. rewrite <- app_assoc in H4. cbn [app] in H4.
    destruct (aut_aut_loadver n text) as [[[L ver]|]| |] eqn:EL; cbn [bind]; [| |reflexivity|reflexivity].
    2:{ eexists _, _. split; [reflexivity|]. split; [apply NS; [congruence|]|apply no_tail; exact (proj2 (proj2 H4))].
        intros text' X. assert (text' = text) as -> by congruence. rewrite EL. split; [reflexivity|discriminate]. }
    destruct (noted _ _ 2 "Done." [] _ H4 eq_refl) as (s5 & -> & H5). cbn [bind].
    destruct (noted _ _ 1 "Detected format version %d." [AInt ver] (String.append "Detected format version " (zdec ver ++ ".")) H5 eq_refl) as (s6 & -> & H6). cbn [bind].
    destruct (noted _ _ 1 "Given automaton has size %d." [AInt (Z.of_nat (List.length L))] (String.append "Given automaton has size " (zdec (Z.of_nat (List.length L)) ++ ".")) H6 eq_refl) as (s7 & -> & H7). cbn [bind].
    cbn [app] in H7. rewrite <- !app_assoc in H7. cbn [app] in H7.
    set (d := hd :: reference_said o n ++ [input_said o; loading] ++ loaded_messages ver (List.length L)).
    assert (Hd : inv s7 d) by (unfold d; cbn [app loaded_messages]; exact H7). destruct Hd as (_ & _ & A). clear H7.
    assert (HW : what o d).
    { apply NS; [congruence|]. intros text' X. assert (text' = text) as -> by congruence. rewrite EL. split; [discriminate|].
      intros L' ver' Y. injection Y as <- <-. reflexivity. }
    destruct (autman_write ptr date fuel o spc n L ver) as [t| |]; cbn [bind]; [|reflexivity|reflexivity].
    destruct (ao_output o) as [f|].
    - destruct (w_writable W f).
      + eexists _, d. split; [reflexivity|]. split; auto. exact (adds_trans _ _ _ _ _ A (adds_put (Stream Stdout) _ _)).
      + exists (snd s7), d. split; [reflexivity|]. split; auto. exact (no_tail _ _ _ A).
    - eexists _, d. split; [reflexivity|]. split; auto. exact (adds_trans _ _ _ _ _ A (adds_put (Stream Stdout) _ _)).
  Qed.
End Go.

Section Runs.
  Variables (ptr : nat -> string) (date : string) (W : world).
  Variables (pid : Z) (can_open : string -> bool) (clock : nat -> moment).
  Let program fuel := autman ptr date fuel W.
  Let program_v fuel := autman_v ptr date fuel W pid can_open clock.
  Let name := log_name (clock 0%nat) pid None.
  Variables (args args' : list string) (l : list aopt) (v : Z).
  Hypotheses (HS : not_stopped args l) (HQ : plainly args' (hushed l)) (HL : level_is l v).
  Let o := asteps l default_aopts.
  Lemma quiet_run : forall fuel, program fuel args' = body ptr date fuel W o.
  Proof.
    intros fuel. destruct HS as (_ & _ & _ & HE). destruct HQ as ((ws & Hw & ->) & Q1 & Q2 & Q3 & Q4).
    unfold program, autman. rewrite <- (app_nil_r (List.concat ws)), (args_lines _ ws Hw Q1 Q2). cbn [autman_args bind].
    set (o' := asteps (hushed l) default_aopts).
    assert (S : strip o = strip o') by (apply strip_steps; reflexivity).
    destruct (steps_settings _ o' eq_refl) as (_ & _ & _ & _ & _ & V & G & _). rewrite (V Q4), (G Q3).
    destruct (steps_settings _ o eq_refl) as (T1 & T2 & _ & _ & T5 & _).
    assert (R : autman_refuses o' = false).
    { change (autman_refuses o') with (autman_refuses (strip o')). rewrite <- S. apply (refuses_iff o l T1 T2 T5). exact HE. }
    rewrite R. change (body ptr date fuel W o) with (body ptr date fuel W (strip o)). rewrite S. reflexivity.
  Qed.
  Lemma level_ok : (if ao_logging o && (ao_verbose o =? 0) then 1 else ao_verbose o) = v.
  Proof.
    pose proof (steps_level l default_aopts ltac:(cbn; lia)) as E. fold o in E. change (ao_verbose default_aopts) with 0 in E. rewrite Z.add_0_l in E. rewrite E.
    pose proof (steps_log l default_aopts) as G. fold o in G. change (ao_logging default_aopts) with false in G.
    destruct HL as [[-> X]|(-> & X & Y)].
    - destruct (ao_logging o); [|reflexivity]. destruct (Z.eqb_spec (times l mod 256) 0) as [E0|_]; [|reflexivity].
      exfalso. destruct X as [X|X]; [auto|]. apply X. destruct (proj1 G eq_refl) as [Y|Y]; [exact Y|discriminate Y].
    - rewrite X, (proj2 G (or_introl Y)). reflexivity.
  Qed.
  Lemma verbose_run : forall fuel, program_v fuel args =
    (st <- (if ao_logging o then openlogfile (clock 0%nat) pid can_open None log_start
            else Ok (Some (setlogopt 1 (setlogstream (Some Stdout) log_start)))) ;;
     match st with None => Ok (VExits (-1) None log_start) | Some st => autman_go_v ptr date fuel W clock v o st end).
  Proof.
    intros fuel. destruct HS as ((ws & Hw & ->) & H1 & H2 & HE). unfold program_v, autman_v.
    rewrite <- (app_nil_r (List.concat ws)), (args_lines _ ws Hw H1 H2). cbn [autman_args bind]. fold o.
    destruct (steps_settings _ o eq_refl) as (T1 & T2 & _ & _ & T5 & _).
    rewrite (proj2 (refuses_iff o l T1 T2 T5) HE), level_ok. reflexivity.
  Qed.
  Lemma autman_no_log : In ALog l -> (String.length name <= 255)%nat -> can_open name = false ->
    forall fuel, program_v fuel args = Ok (VExits (-1) None log_start).
  Proof.
    intros Hi HN HO fuel. rewrite verbose_run, (proj2 (steps_log l default_aopts) (or_introl Hi) : ao_logging o = true).
    pose proof (proj2 (call_exit pid can_open (clock 0%nat) (LOpen None) _ log_start start_fits)) as X. cbn [log_call fst] in X.
    rewrite X; [reflexivity|]. split; [discriminate|exists None; auto].
  Qed.
  Hypothesis HN : In ALog l -> (String.length name <= 255)%nat /\ can_open name = true.
  Lemma runs_same : forall fuel,
    match program fuel args' with
    | Ok (Exits c t f) => exists st d, program_v fuel args = Ok (VExits c f st) /\ what W v o d /\ log_and l name clock st (at_level v d) t
    | Ok _ => False
    | Crash => program_v fuel args = Crash
    | Fuel => program_v fuel args = Fuel
    end.
  Proof.
    intros fuel. rewrite quiet_run, verbose_run.
    pose proof (steps_log l default_aopts) as G. fold o in G. change (ao_logging default_aopts) with false in G.
    destruct (ao_logging o) eqn:EL.
    - assert (Hi : In ALog l) by (destruct (proj1 G eq_refl) as [Y|Y]; [exact Y|discriminate Y]). destruct (HN Hi) as [N1 N2].
      destruct (call_ok pid can_open (clock 0%nat) (LOpen None) (NoLog, true) [] (ToFile name, true) ltac:(apply ld_open; auto; discriminate) log_start start_fits)
        as (st1 & E1 & F1 & A1). cbn [log_call] in E1. rewrite E1. cbn [bind].
      pose proof (go_same ptr date fuel W pid can_open clock (ToFile name) true (InFile name) v st1 eq_refl o F1) as K. unfold same in K.
      destruct (body ptr date fuel W o) as [[c t f| | |]| |]; auto. destruct K as (st & d & E & D & A). exists st, d. split; auto. split; auto.
      assert (T : forall q, told q (visible st) = told q [(InFile name, log_text true clock 1 (at_level v d)); (OnStdout, t)]).
      { intros q. rewrite A, A1. change (told q (visible log_start)) with "". change (told q []) with "". cbn [String.append].
        rewrite told_app, entries_told, <- told_app. reflexivity. }
      split; [|tauto]. intros _. rewrite !T. unfold told at 1 2. cbn [filter map fst snd place_eqb]. rewrite String.eqb_refl.
      split; [reflexivity|]. split; [reflexivity|]. intros q Q1 Q2. rewrite T. unfold told. cbn [filter map fst snd].
      destruct q as [| |g]; [congruence|reflexivity|]. cbn [place_eqb]. destruct (String.eqb_spec name g) as [->|_]; [congruence|reflexivity].
    - assert (Hi : ~ In ALog l) by (intros Y; pose proof (proj2 G (or_introl Y)); discriminate). cbn [bind].
      pose proof (go_same ptr date fuel W pid can_open clock ToStdout false OnStdout v (setlogopt 1 (setlogstream (Some Stdout) log_start)) eq_refl o ltac:(split; reflexivity)) as K.
      unfold same in K. destruct (body ptr date fuel W o) as [[c t f| | |]| |]; auto. destruct K as (st & d & E & D & A). exists st, d. split; auto. split; auto.
      assert (T : forall q, told q (visible st) = told q [(OnStdout, log_text false clock 1 (at_level v d)); (OnStdout, t)]).
      { intros q. rewrite A. change (told q (visible (setlogopt 1 (setlogstream (Some Stdout) log_start)))) with "". cbn [String.append].
        rewrite told_app, entries_told, <- told_app. reflexivity. }
      split; [tauto|]. intros _. split; [rewrite T; reflexivity|]. intros q Q1. rewrite T. destruct q; [congruence|reflexivity|reflexivity].
  Qed.
  Lemma autman_same : forall fuel c t f, program fuel args' = Ok (Exits c t f) ->
    exists st msgs, program_v fuel args = Ok (VExits c f st) /\ log_and l name clock st msgs t.
  Proof. intros fuel c t f E. pose proof (runs_same fuel) as K. rewrite E in K. destruct K as (st & d & K1 & _ & K2). eauto. Qed.
  Lemma autman_only : forall fuel y, program_v fuel args = Ok y -> exists c t f, program fuel args' = Ok (Exits c t f).
  Proof.
    intros fuel y E. pose proof (runs_same fuel) as K. destruct (program fuel args') as [[c t f| | |]| |]; try contradiction; [eauto|congruence|congruence].
  Qed.
  Lemma set_spec : ao_spec o = named_spec l.
  Proof. destruct (steps_settings _ o eq_refl) as (_ & T & _). exact T. Qed.
  Lemma set_input : autman_input W o = input_of W l /\ input_said o = input_message l.
  Proof.
    destruct (steps_settings _ o eq_refl) as (_ & _ & T & _ & _ & _ & _ & I). destruct HS as (HA & _).
    unfold autman_input, input_of, input_said, input_message. rewrite T in *. destruct (named_input l) as [f|]; [|split; reflexivity].
    rewrite (line_inputs args l f HA (I f eq_refl)). split; reflexivity.
  Qed.
  Lemma set_reference : forall n, AutmanSpec.told W l n -> exists spc, read_reference W o = Ok (RefSpec spc n).
  Proof.
    intros n H. unfold AutmanSpec.told in H. unfold read_reference. rewrite set_spec. destruct (named_spec l) as [f|].
    - destruct H as (text & R & E1 & E2 & ->). rewrite E1, (text_parse _ _ E2). cbn [bind raw_of r_evars r_svars]. eexists.
      unfold rs_vars. rewrite !JsonWrite.vlist_size, app_length. reflexivity.
    - destruct H as [E _]. destruct (steps_settings _ o eq_refl) as (_ & _ & _ & _ & T & _). rewrite T, E. eauto.
  Qed.
  Lemma said_reference : forall n, reference_said o n = reference_messages l n.
  Proof. intros n. unfold reference_said, reference_messages. rewrite set_spec. reflexivity. Qed.
  Let logs fuel c f t d := exists st, program_v fuel args = Ok (VExits c f st) /\ log_and l name clock st (at_level v d) t.
  Lemma autman_no_reference : forall fuel g, named_spec l = Some g -> w_file W g = None ->
    logs fuel (-1) None "" [level_message v; using_file g "reference specification"].
  Proof.
    intros fuel g E H. pose proof (runs_same fuel) as K. rewrite quiet_run in K. unfold body, read_reference in K. rewrite set_spec, E, H in K. cbn [bind] in K.
    destruct K as (st & d & K1 & (D & _) & K2). exists st. split; auto. rewrite <- (D g); auto. rewrite set_spec. exact E.
  Qed.
  Lemma autman_bad_reference : forall fuel g text, named_spec l = Some g -> w_file W g = Some text -> text_no_formula text -> (~ exists R, text_means text R) ->
    logs fuel 2 None "" [level_message v; using_file g "reference specification"; parsing_reference].
  Proof.
    intros fuel g text E H T1 T2. apply text_rejected in T2; auto. pose proof (runs_same fuel) as K. rewrite quiet_run in K. unfold body, read_reference in K.
    rewrite set_spec, E, H, T2 in K. cbn [bind] in K.
    destruct K as (st & d & K1 & (_ & D & _) & K2). exists st. split; auto. rewrite <- (D g text); auto. rewrite set_spec. exact E.
  Qed.
  Lemma autman_no_input : forall fuel n, AutmanSpec.told W l n -> input_of W l = None ->
    logs fuel (-1) None "" (level_message v :: reference_messages l n ++ [input_message l]).
  Proof.
    intros fuel n Hn Hi. destruct (set_reference n Hn) as (spc & R). destruct set_input as [I1 I2].
    pose proof (runs_same fuel) as K. rewrite quiet_run in K. unfold body in K. rewrite R in K. cbn [bind] in K. rewrite I1, Hi in K.
    destruct K as (st & d & K1 & (_ & _ & D) & K2). exists st. split; auto. destruct (D spc n R) as [D1 _].
    rewrite <- said_reference, <- I2, <- D1; auto. rewrite I1. exact Hi.
  Qed.
  Lemma autman_not_loaded : forall fuel n text t f, AutmanSpec.told W l n -> input_of W l = Some text -> program fuel args' = Ok (Exits 3 t f) ->
    logs fuel 3 f t (level_message v :: reference_messages l n ++ [input_message l; loading]).
  Proof.
    intros fuel n text t f Hn Hi E. destruct (set_reference n Hn) as (spc & R). destruct set_input as [I1 I2].
    pose proof (runs_same fuel) as K. rewrite E in K.
    destruct K as (st & d & K1 & (_ & _ & D) & K2). exists st. split; auto. destruct (D spc n R) as [_ D2]. rewrite I1 in D2. destruct (D2 text Hi) as [D3 _].
    rewrite <- said_reference, <- I2, <- D3; auto. rewrite quiet_run in E. unfold body in E. rewrite R in E. cbn [bind] in E. rewrite I1, Hi in E.
    apply bind_ok in E. destruct E as (x & E1 & E). destruct x as [[L ver]|]; [|exact E1]. exfalso.
    apply bind_ok in E. destruct E as (y & _ & E). destruct (ao_output o) as [h|]; [destruct (w_writable W h)|]; discriminate E.
  Qed.
  Lemma autman_loaded : forall fuel n text rows c t f, AutmanSpec.told W l n -> input_of W l = Some text -> strategy_file n text rows ->
    program fuel args' = Ok (Exits c t f) ->
    logs fuel c f t (level_message v :: reference_messages l n ++ [input_message l; loading] ++ loaded_messages 1 (List.length rows)).
  Proof.
    intros fuel n text rows c t f Hn Hi HF E. destruct (set_reference n Hn) as (spc & R). destruct set_input as [I1 I2].
    pose proof (runs_same fuel) as K. rewrite E in K.
    destruct K as (st & d & K1 & (_ & _ & D) & K2). exists st. split; auto. destruct (D spc n R) as [_ D2]. rewrite I1 in D2. destruct (D2 text Hi) as [_ D3].
    destruct HF as (pre & ls & HG & -> & -> & HO). destruct (AutIOProofs.load_in_order n pre ls HG HO) as (L & EL & HLs).
    specialize (D3 L 1 EL). rewrite D3, said_reference, I2 in K2. destruct HLs as (HLen & _). rewrite <- HLen. exact K2.
  Qed.
End Runs.
