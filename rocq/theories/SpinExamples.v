(** A verification model for an integer specification; a specification without environment
    variables whose strategy does not pass its verification model. *)
From Coq Require Import List ZArith Bool Arith Lia String.
From Verif Require Import Base Game Strs Support EnumProofs Ptree Form Solve FSpec RealProofs Automaton AutProofs Synth SynthSpec
  SynthFindings Examples HotSpec Nonbool RSpec NonboolProofs NbExamples Main MainSpec MainExamples
  AutIO PromelaSpec SpinSpec Spin SpinForm SpinText SpinDump SpinRuns SpinPath SpinFinal.
Import ListNotations.
Open Scope string_scope.
Open Scope list_scope.
Open Scope Z_scope.

Lemma pname_dec : forall s,
  (match s with EmptyString => false | String c r => name_char true c && name_chars r end &&
   negb (existsb (String.eqb s) keywords))%bool = true -> pname s.
Proof.
  intros s H. apply andb_true_iff in H. destruct H as [H1 H2].
  unfold pname. destruct s as [|c s]; [discriminate|]. apply andb_true_iff in H1. split; auto.
  intros K. apply negb_true_iff in H2. assert (X : existsb (String.eqb (String c s)) keywords = true); [|congruence].
  apply existsb_exists. exists (String c s). split; auto. apply String.eqb_refl.
Qed.
Lemma ex_int_names : spin_names (fdefaults ex_int).
Proof.
  constructor.
  - intros x [<-|[<-|[]]]; apply pname_dec; reflexivity.
  - cbn. repeat constructor; cbn; intuition discriminate.
  - intros x Hx. cbn in Hx. cbn. intuition (subst; discriminate).
Qed.
Lemma spin_instance : usable ex_int /\ tools ex_int robdd_oracle alloc_max /\ spin_names (fdefaults ex_int) /\ quiet ex_int /\
  exists A ev sv t, gr1c_verify robdd_oracle alloc_max 40 ALL_INIT (raw_of ex_int) = Ok (Strategy A ev sv, t) /\
    substring 73 168 t = "(X envinit && [] (!checketrans || envtrans) && []<> envgoal0000) -> (X sysinit && [] (!checkstrans || systrans) && []<> sysgoal0000 && []<> sysgoal0001 && [] !pmlfault)".
Proof.
  destruct main_instance as (H1 & H2 & _). split; [exact H1|]. split; [exact H2|]. split; [exact ex_int_names|].
  split; [intros E; discriminate E|]. do 4 eexists. split; [vm_compute; reflexivity|]. vm_compute. reflexivity.
Qed.
(** ** No environment variables *)
Definition ex_alone : rspec := {|
  rs_evars := []; rs_svars := [("b", -1)]; rs_einit := None; rs_sinit := Some (FNot (FVar "b"));
  rs_etrans := []; rs_strans := [FNot (FNext "b")]; rs_egoals := [FVar "b"]; rs_sgoals := [FVar "b"]
|}.
Definition alone : anode := Automaton.Node 1 true [0] 0 1 [1%nat].
Lemma alone_typed : well_typed ex_alone.
Proof.
  assert (S : forall p, uses (rs_vars ex_alone) p (FVar "b")).
  { intros p. split; intros y Hy; destruct p; cbn in Hy; try contradiction. destruct Hy as [<-|[]]. left. reflexivity. }
  assert (ST : state_typed ex_alone (FVar "b")) by (split; [apply S|split; reflexivity]).
  split; [intros x d [E|[]]; injection E as <- <-; lia|]. split; [split; [exact I|]|].
  { split; [apply (S false)|split; reflexivity]. }
  split; [intros f []|]. split.
  { intros f [<-|[]]. split; split; intros y Hy; cbn in Hy; try contradiction. destruct Hy as [<-|[]]. left. reflexivity. }
  split; [intros f [<-|[]]; exact ST|]. split; [intros f [<-|[]]; exact ST|].
  split; [split; [exact I|intros x _; reflexivity]|]. intros f Hf x _. cbn in Hf.
  destruct Hf as [<-|[<-|[<-|[]]]]; reflexivity.
Qed.
Lemma alone_usable : usable ex_alone.
Proof.
  split; [exact alone_typed|]. split; [cbn; repeat constructor; auto|]. split; [split|split].
  - cbn. repeat constructor; auto.
  - intros x d [E|[]] Hd. injection E as <- <-. lia.
  - intros x d y e [E|[]] Hd. injection E as <- <-. lia.
  - intros x d [E|[]]. injection E as <- <-. reflexivity.
Qed.
Lemma alone_names : spin_names (fdefaults ex_alone).
Proof.
  constructor.
  - intros x [<-|[]]; apply pname_dec; reflexivity.
  - cbn. repeat constructor; cbn; intuition discriminate.
  - intros x Hx. cbn in Hx. cbn. intuition (subst; discriminate).
Qed.
Lemma alone_path : forall p : nat -> anode, (forall t, In (p t) [alone] /\ In (aid (p (S t))) (atrans (p t))) -> forall t, p t = alone.
Proof. intros p Hp t. destruct (Hp t) as [[H|[]] _]. auto. Qed.
Lemma alone_correct : correct (fspec_of ex_alone) [alone].
Proof.
  constructor.
  - cbn. repeat constructor; auto.
  - intros x t [<-|[]] [<-|[]]. exists alone. split; [left; reflexivity|reflexivity].
  - intros x [<-|[]]. left. reflexivity.
  - intros x y [<-|[]] [<-|[]] _. split; [reflexivity|]. intros H. exfalso. apply H. reflexivity.
  - intros x e [<-|[]] [[<-|[]] _]. exists alone. split; [left; reflexivity|]. split; [left; reflexivity|reflexivity].
  - intros p Hp _ He g Hg. exfalso. destruct (He (FVar "b") (or_introl eq_refl) 0%nat) as (t & _ & Ht).
    rewrite (alone_path p Hp t) in Ht. discriminate Ht.
Qed.
Lemma no_env_refuted : exists R orc alloc fuel A ev sv t,
  usable R /\ tools R orc alloc /\ spin_names (fdefaults R) /\
  gr1c_verify orc alloc fuel ALL_INIT (raw_of R) = Ok (Strategy A ev sv, t) /\
  correct (fspec_of R) A /\ starts_well R A /\
  exists formula P defs f, spin_model t formula P defs f /\ ~ obeys P defs f.
Proof.
  exists ex_alone, robdd_oracle, alloc_max, 40%nat, [alone], NULL, (vlist [("b", -1)]),
    (spin_text (formula_text (fdefaults ex_alone)) (file_of (fdefaults ex_alone) [alone])).
  split; [exact alone_usable|]. split; [split; [apply robdd_oracle_ok|apply (proj2 (tools_exist (fspec_of ex_alone)))]|].
  split; [exact alone_names|]. split; [vm_compute; reflexivity|]. split; [exact alone_correct|].
  split; [intros x [<-|[]] _ _; reflexivity|].
  assert (Ht := defaults_typed _ alone_typed). assert (Hn := alone_names).
  assert (Hf : formed (fdefaults ex_alone) [alone]) by (constructor; apply alone_correct).
  exists (formula_text (fdefaults ex_alone)), (prog (fdefaults ex_alone) [alone]), (exps_of (fdefaults ex_alone)), (formula_of (fdefaults ex_alone)).
  split; [exists (file_of (fdefaults ex_alone) [alone]); repeat split; [apply formula_reads|apply defs_define; auto]|].
  intros Ho.
  destruct (path_asked (fdefaults ex_alone) [alone] Ht Hn Hf (fun _ => alone)) as (_ & _ & H); auto.
  - split; [intros t; split; left; reflexivity|reflexivity].
  - intros H. exfalso. apply H. reflexivity.
  - destruct (H (FVar "b") (or_introl eq_refl) 0%nat) as (t & _ & H1). discriminate H1.
Qed.
