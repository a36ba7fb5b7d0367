(** Whole runs of gr1c -P. *)
From Coq Require Import List ZArith Bool Arith Ascii String Lia.
From Verif Require Import PromelaSpec SpinSpec Spin SpinFinal.
From Verif Require Import Base Game Strs Ptree Form Support EnumProofs Solve SolveProofs FSpec RealProofs Automaton AutProofs
  SynthSpec Synth Nonbool NonboolProofs RSpec Main MainSpec MainProofs FormCheck ListSpec ListProofs TextSpec TextProofs Output JsonSpec
  Options OptSpec Program ProgramSpec ProgramProofs VerifySpec.
Import ListNotations.
Open Scope string_scope.
Open Scope list_scope.
Open Scope Z_scope.

Section Runs.
  Variables (orc : oracle) (alloc : nat -> aut -> nat) (key : nat -> string) (date : string) (W : world).
  Variables (args : list string) (l : list opt) (file : option string) (text : string) (R : rspec).
  Hypotheses (HA : ProgramSpec.asked args l file) (Hm : asked_mode l = GR1C_MODE_SYNTHESIS) (Hp : In OPromela l) (Hi : input_text W file text)
    (HM : text_means text R) (HF : form_ok (asked_init l) R) (HU : usable R) (HD : decidable_init R (asked_init l))
    (HT : tools R orc alloc) (HK : keys_ok key) (Hd : chars plain date) (Hn : spin_names (fdefaults R)) (Hq : SpinSpec.quiet R).
  Let run fuel := gr1c_program orc alloc key date fuel W args.
  Let Hu : asked_init l <> UNDEFINED_INIT.
  Proof. destruct HA as (_ & H & _). eapply asked_init_set; eauto. Qed.
  Lemma run_verify_is : forall fuel, run fuel =
    (r <- Spin.gr1c_verify orc alloc fuel (asked_init l) (raw_of R) ;;
     match fst r with
     | Strategy A ev sv =>
         s <- write_strategy key date (asked_format l)
                (negb (is_null (nonbool_items (link (r_evars (raw_of R)) (r_svars (raw_of R)))))) A ev sv ;;
         Ok (deliver_verify W (asked_output l) (s, snd r, 0))
     | NotRealizable => Ok (Exits 3 "" None)
     | _ => Ok error_exit
     end).
  Proof.
    intros fuel. unfold run. destruct (program_go orc alloc key date W fuel args l file HA) as (P & HP & ->).
    rewrite (input_open _ _ _ Hi), Hm. destruct P; [|exfalso; assert (X : false = true) by tauto; discriminate X].
    unfold gr1c_run_verify. rewrite (text_parse _ _ HM). cbn [bind].
    destruct (form_check_ok (asked_init l) R) as [[_ E]|[Hx _]]; [|tauto]. rewrite E. cbn [bind fst].
    change (0 <? 0) with false. cbv iota.
    destruct (Spin.gr1c_verify orc alloc fuel (asked_init l) (raw_of R)) as [[r t]| |]; cbn [bind fst snd]; try reflexivity.
    destruct r; cbn [bind]; try reflexivity. destruct (write_strategy _ _ _ _ _ _ _); reflexivity.
  Qed.
  Lemma verify_answer : exists N, forall fuel, (N <= fuel)%nat -> forall m,
    gr1c_main orc alloc fuel MODE_SYNTHESIS (asked_init l) (raw_of R) = Ok m ->
    exists r, run fuel = Ok r /\ right_verified key date W l R r /\ (m <> SynthFailed -> r = error_exit -> no_output_file W l).
  Proof.
    destruct (realizable_synth R _ orc alloc Hu HF HU HD HT) as [HS _]. destruct (verified R orc alloc _ HU Hn Hq _ HS) as (N2 & HV).
    destruct HS as (N1 & HN). exists (N1 + N2)%nat. intros fuel Hf m Em. pose proof (HN fuel ltac:(lia) m Em) as Hr.
    destruct (HV fuel ltac:(lia) m Em) as (t & Et & Ht). rewrite run_verify_is, Et. cbn [bind fst snd].
    destruct m as [| | | |A ev sv]; cbn in Hr; try contradiction.
    - eexists. split; [reflexivity|]. split; [left; split; [exact Hr|reflexivity]|]. intros _ X. discriminate X.
    - eexists. split; [reflexivity|]. split; [|congruence]. right. split; [exact Hr|left; reflexivity].
    - destruct Hr as (HP & -> & -> & Hr). destruct Ht as (fo & Q & d & f & T1 & T2).
      destruct (written key date (asked_format l) R A HK Hd (text_decls _ _ HM)) as (s & Es & Hs); [apply Hr|].
      rewrite Es. cbn [bind]. eexists. split; [reflexivity|]. unfold deliver_verify. change (0 =? 0) with true. cbv iota.
      pose proof HA as (_ & _ & _ & _ & _ & _ & _ & Ho & _). specialize (Ho Hp).
      assert (HSt : strategy_for R (asked_init l) A) by exact Hr.
      destruct (asked_output l) as [g|] eqn:Eo; [|congruence]. destruct (w_writable W g) eqn:Ew.
      + split; [|intros _ X; discriminate X]. right. split; auto. right. exists A, s. split; [exact HSt|]. split; [exact Hs|].
        exists g, t, fo, Q, d, f. auto.
      + split; [right; split; auto; left; reflexivity|]. intros _ _. exists g. auto.
  Qed.
  Lemma whole_verified :
    (exists N, forall fuel, (N <= fuel)%nat -> forall r, run fuel = Ok r -> right_verified key date W l R r) /\
    (can_start R (asked_init l) -> exists N, forall fuel, (N <= fuel)%nat -> exists r, run fuel = Ok r /\
       right_verified key date W l R r /\ (r = error_exit -> no_output_file W l)).
  Proof.
    destruct verify_answer as (N & HV). split.
    - exists N. intros fuel Hf r Er.
      assert (X : exists m, gr1c_main orc alloc fuel MODE_SYNTHESIS (asked_init l) (raw_of R) = Ok m).
      { rewrite run_verify_is in Er. apply bind_ok in Er. destruct Er as (q & Er & _). unfold Spin.gr1c_verify in Er.
        apply bind_ok in Er. destruct Er as (m & Er & _). eauto. }
      destruct X as (m & Em). destruct (HV fuel Hf m Em) as (r' & E1 & E2 & _). rewrite Er in E1. injection E1 as <-. exact E2.
    - intros Hc. destruct (realizable_synth R _ orc alloc Hu HF HU HD HT) as [_ HE]. destruct (HE Hc) as (N' & HN').
      exists (N + N')%nat. intros fuel Hf. destruct (HN' fuel ltac:(lia)) as (m & Em & Hne).
      destruct (HV fuel ltac:(lia) m Em) as (r' & E1 & E2 & E3). exists r'. auto.
  Qed.
End Runs.
Lemma same_run : forall orc alloc key date W fuel args l args' l' file,
  ProgramSpec.asked args l file -> ProgramSpec.asked args' l' file ->
  asked_mode l = asked_mode l' -> asked_mode l <> GR1C_MODE_SYNTHESIS -> asked_init l = asked_init l' -> asked_format l = asked_format l' ->
  gr1c_program orc alloc key date fuel W args = gr1c_program orc alloc key date fuel W args'.
Proof.
  intros orc alloc key date W fuel args l args' l' file HA HA' E1 Hm E2 E3.
  destruct (program_go orc alloc key date W fuel args l file HA) as (P & HP & ->).
  destruct (program_go orc alloc key date W fuel args' l' file HA') as (P' & HP' & ->).
  rewrite <- E1, <- E2, <- E3. destruct (open_input W file); [|reflexivity].
  destruct (asked_mode l) eqn:Em; try reflexivity; exfalso; try congruence.
Qed.
