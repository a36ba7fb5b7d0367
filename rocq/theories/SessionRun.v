(** Whole runs of gr1c -i. *)
From Coq Require Import List ZArith Bool Arith Ascii String Lia.
From Verif Require Import Base Game Strs Ptree Form Support EnumProofs Solve FSpec Automaton AutIO AutIOSpec SynthSpec
  Interactive InteractSpec InteractProofs SessionSpec SessionProofs
  Nonbool NonboolProofs RSpec PipeProofs MainSpec MainProofs ListSpec ListProofs TextSpec TextProofs Options OptSpec Program ProgramSpec ProgramProofs.
Import ListNotations.
Open Scope string_scope.
Open Scope list_scope.
Open Scope Z_scope.

Section Runs.
  Variables (orc : oracle) (alloc : nat -> aut -> nat) (key : nat -> string) (date : string) (W : world).
  Variables (args : list string) (l : list opt) (file : option string) (text : string) (R : rspec).
  Hypotheses (HA : ProgramSpec.asked args l file) (Hm : asked_mode l = GR1C_MODE_INTERACTIVE) (Hi : input_text W file text)
    (HM : text_means text R) (HF : form_ok (asked_init l) R) (HU : usable R).
  Let run fuel := gr1c_program orc alloc key date fuel W args.
  Lemma run_is : forall fuel, run fuel =
    (r <- prepare fuel (asked_init l) (raw_of R) ;;
     match r with
     | None => Ok error_exit
     | Some (spc, NULL) => t <- levelset_interactive spc orc fuel (w_stdin W) ;; Ok (Exits 0 t None)
     | Some _ => Ok error_exit
     end).
  Proof.
    intros fuel. unfold run. destruct (program_go orc alloc key date W fuel args l file HA) as (P & _ & ->).
    rewrite (input_open _ _ _ Hi), Hm. unfold gr1c_interact. rewrite (text_parse _ _ HM). cbn [bind].
    destruct (form_check_ok (asked_init l) R) as [[_ E]|[Hn _]]; [|tauto]. rewrite E. cbn [bind fst].
    change (fst (0, "") <? 0) with false. cbv iota.
    destruct (prepare fuel (asked_init l) (raw_of R)) as [[[spc nb]|]| |]; cbn [bind]; try reflexivity.
    destruct nb; cbn [bind]; try reflexivity. destruct (levelset_interactive _ _ _ _); reflexivity.
  Qed.
  Lemma whole_session : GrPatchSpec.no_ints R -> rs_svars R <> [] ->
    oracle_ok (2 * (List.length (rs_evars R) + List.length (rs_svars R))) orc ->
    Z.of_nat (List.length (rs_sgoals R)) < 2 ^ 31 ->
    exists N, forall fuel, (N <= fuel)%nat -> forall es last, Forall (entry_ok (session_game R)) es -> ends last ->
      w_stdin W = typed_text es last ->
      (gets_lost (session_game R) es -> run fuel = Crash) /\
      (~ gets_lost (session_game R) es -> exists t, run fuel = Ok (Exits 0 t None) /\
         conversation (session_game R) (opening (session_game R)) es t).
  Proof.
    intros HI Hsv Horc Hg. destruct HU as (HT & HN & _).
    destruct (prepare_ok (asked_init l) R (no_bad R HT)) as [N HP]. exists (N + fuel_bound (session_game R))%nat.
    intros fuel Hf es last Hes Hl Hin. rewrite run_is, (HP fuel) by lia. cbn [bind].
    change (filter _ (rs_vars R)) with (NbStateProofs.ints (rs_vars R)). rewrite (GrPatchSame.ints_none R HI). cbn [vlist].
    rewrite (session_same (asked_init l) R HI 0), Hin.
    assert (Hint : int_ok (Z.of_nat (List.length (fs_sgoals (session_game R))))).
    { cbn [session_game fspec_of fs_sgoals with_default_goal rs_sgoals]. unfold int_ok. destruct (rs_sgoals R); cbn [List.length] in *; lia. }
    destruct (interactive_ok (asked_init l) R HT HN HI Hsv orc Horc Hint fuel es last ltac:(lia) Hes Hl) as (H1 & H2). split.
    - intros Hx. rewrite (H1 Hx). reflexivity.
    - intros Hx. destruct (H2 Hx) as (t & Et & Ht). rewrite Et. cbn [bind]. eauto.
  Qed.
  Lemma whole_ints : (exists x d, In (x, d) (rs_vars R) /\ 0 <= d) ->
    exists N, forall fuel, (N <= fuel)%nat -> run fuel = Ok error_exit.
  Proof.
    intros (x & d & Hx & Hd). destruct HU as (HT & _). destruct (prepare_ok (asked_init l) R (no_bad R HT)) as [N HP].
    exists N. intros fuel Hf. rewrite run_is, (HP fuel) by lia. cbn [bind].
    assert (Hin : In (x, d) (filter (fun v => 0 <=? snd v) (rs_vars R))) by (apply filter_In; split; auto; apply Z.leb_le; exact Hd).
    destruct (filter (fun v => 0 <=? snd v) (rs_vars R)) as [|[y e] q]; [destruct Hin|reflexivity].
  Qed.
End Runs.
