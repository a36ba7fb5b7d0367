(** A run on a specification with an integer variable. *)
From Coq Require Import List ZArith Bool Arith String.
From Verif Require Import Base Game Strs Support EnumProofs Ptree Form Solve FSpec RealProofs Automaton Synth SynthSpec
  SynthFindings Examples Nonbool RSpec NbExamples Main MainSpec.
Import ListNotations.
Open Scope string_scope.
Open Scope list_scope.
Open Scope Z_scope.

Lemma main_instance : usable ex_int /\ tools ex_int robdd_oracle alloc_max /\
  (rs_evars ex_int <> [] \/ rs_etrans ex_int = []) /\
  opt_all (fun f => incl (fvars f) (names (rs_evars ex_int))) (rs_einit ex_int) /\
  opt_all (fun f => incl (fvars f) (names (rs_svars ex_int))) (rs_sinit ex_int) /\
  (exists s, initial (fspec_of ex_int) s) /\
  exists A, gr1c_main robdd_oracle alloc_max 40 MODE_SYNTHESIS ALL_INIT (raw_of ex_int) =
     Ok (Strategy A (vlist [("x", 2)]) (vlist [("b", -1)])) /\
   map (fun x => (astate x, amode x, ainit x)) A =
     [([1; 0], 0, false); ([2; 0], 0, false); ([1; 1], 1, false); ([2; 1], 1, false); ([0; 0], 0, true)].
Proof.
  destruct ex_bits as (H1 & H2 & H3 & H4).
  split; [split; [exact ex_int_typed|split; [exact H2|split; [exact H1|split; [exact H3|exact H4]]]]|].
  split; [split; [apply robdd_oracle_ok|apply (proj2 (tools_exist (fspec_of ex_int)))]|].
  split; [left; discriminate|].
  split; [intros z [<-|[]]; left; reflexivity|]. split; [intros z [<-|[]]; left; reflexivity|].
  split; [exists [0; 0]; split; [vm_compute; tauto|split; reflexivity]|].
  eexists. split; [vm_compute; reflexivity|]. reflexivity.
Qed.
Lemma reach_instance : well_scoped ex_follow /\ all_boolean ex_follow /\ fs_sgoals ex_follow <> [] /\
  separated ex_follow /\ tools_ok ex_follow robdd_oracle alloc_max /\
  exists A x, synthesize (spec_of ex_follow) robdd_oracle alloc_max 30 ALL_INIT = Ok A /\ In x A /\
    ~ start ex_follow ALL_INIT (astate x) /\ reached ex_follow (start ex_follow ALL_INIT) (astate x).
Proof.
  destruct follow_instance as (H1 & H2 & H3 & H4 & H5 & _ & A & HA & HM & _).
  split; [exact H1|]. split; [exact H2|]. split; [exact H3|]. split; [exact H4|]. split; [exact H5|].
  destruct A as [|x A]; [discriminate HM|]. exists (x :: A), x. split; [exact HA|]. split; [left; reflexivity|].
  split.
  - cbn [map] in HM. injection HM as E. rewrite E. intros (_ & HH & HK). vm_compute in HH, HK. discriminate.
  - destruct H5 as [H5 H6]. refine (r_reach ex_follow H1 H2 H3 robdd_oracle alloc_max H5 H6 30 ALL_INIT (x :: A) _ HA x _).
    + discriminate.
    + left. reflexivity.
Qed.
