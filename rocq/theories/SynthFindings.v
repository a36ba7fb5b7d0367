(** Specifications on which synthesize misbehaves, and a run on a good one. *)
From Coq Require Import List ZArith Lia Bool Arith String.
From Verif Require Import Base Game Bdd Support SupportProofs EnumProofs Strs Ptree Form Solve FSpec
  RealProofs Automaton AutProofs Synth SynthSpec Examples.
Import ListNotations.
Open Scope nat_scope.

Lemma gr1_forms : forall F p, gr1 (game_of F) p ->
  (forall g, In g (fs_egoals F) -> infinitely_often (holds F g) p) ->
  forall g, In g (fs_sgoals F) -> infinitely_often (holds F g) p.
Proof.
  intros F p H He g Hg. apply H.
  - intros h Hh. apply in_map_iff in Hh. destruct Hh as (f & <- & Hf). auto.
  - apply in_map. auto.
Qed.

Lemma envtrans_refuted : exists F orc alloc fuel A x y,
  well_scoped F /\ all_boolean F /\ fs_sgoals F <> [] /\ tools_ok F orc alloc /\
  synthesize (spec_of F) orc alloc fuel ALL_INIT = Ok A /\
  In x A /\ In y A /\ In (aid y) (atrans x) /\
  g_etr (game_of F) (astate x) (g_env (game_of F) (astate y)) = false.
Proof.
  exists ex_idle, robdd_oracle, alloc_max, 30. eexists.
  exists (Automaton.Node 1 true [1%Z] 0%Z 0%Z [2]), (Automaton.Node 2 false [0%Z] 0%Z 0%Z [2]).
  split; [exact ex_idle_scoped|]. split; [exact ex_idle_bool|]. split; [discriminate|].
  split; [apply tools_exist|]. split; [vm_compute; reflexivity|].
  split; [right; left; reflexivity|]. split; [left; reflexivity|]. split; [left; reflexivity|].
  reflexivity.
Qed.
Lemma flag_refuted : exists F orc alloc fuel A s,
  well_scoped F /\ all_boolean F /\ fs_sgoals F <> [] /\ tools_ok F orc alloc /\
  synthesize (spec_of F) orc alloc fuel ALL_INIT = Ok A /\ A <> [] /\
  initial F s /\ forall x, In x A -> astate x = s -> ainit x = false.
Proof.
  exists ex_lost, robdd_oracle, alloc_max, 30. eexists. exists [0%Z].
  split; [exact ex_lost_scoped|]. split; [exact ex_lost_bool|]. split; [discriminate|].
  split; [apply tools_exist|]. split; [vm_compute; reflexivity|].
  split; [discriminate|]. split; [split; [left; reflexivity|split; reflexivity]|].
  intros x [<-|[<-|[]]]; simpl; auto. discriminate.
Qed.
Lemma no_env_refuted : exists F orc alloc f W fuel,
  well_scoped F /\ all_boolean F /\ fs_sgoals F <> [] /\ tools_ok F orc alloc /\
  check_realizable (spec_of F) f ALL_INIT = Ok (Some W) /\ (exists s, initial F s) /\
  synthesize (spec_of F) orc alloc fuel ALL_INIT = Ok [].
Proof.
  exists ex_halt, robdd_oracle, alloc_max, 9. eexists. exists 30.
  split; [exact ex_halt_scoped|]. split; [exact ex_halt_bool|]. split; [discriminate|].
  split; [apply tools_exist|]. split; [vm_compute; reflexivity|].
  split; [exists [1%Z]; split; [right; left; reflexivity|split; reflexivity]|].
  vm_compute. reflexivity.
Qed.
Lemma empty_refuted : exists F orc alloc f W fuel,
  well_scoped F /\ all_boolean F /\ fs_sgoals F <> [] /\ tools_ok F orc alloc /\
  check_realizable (spec_of F) f ALL_ENV_EXIST_SYS_INIT = Ok (Some W) /\
  (exists e, In e (fs_envs F) /\ holds_env F (fs_einit F) e = true) /\
  synthesize (spec_of F) orc alloc fuel ALL_ENV_EXIST_SYS_INIT = Crash.
Proof.
  exists ex_empty, robdd_oracle, alloc_max, 9. eexists. exists 30.
  split; [exact ex_empty_scoped|]. split; [exact ex_empty_bool|]. split; [discriminate|].
  split; [apply tools_exist|]. split; [vm_compute; reflexivity|].
  split; [exists [0%Z]; split; [left; reflexivity|reflexivity]|].
  vm_compute. reflexivity.
Qed.
Lemma no_initial_refuted : exists F orc alloc f W fuel,
  well_scoped F /\ all_boolean F /\ fs_sgoals F <> [] /\ tools_ok F orc alloc /\ separated F /\
  fs_evars F <> [] /\
  check_realizable (spec_of F) f ALL_ENV_EXIST_SYS_INIT = Ok (Some W) /\
  synthesize (spec_of F) orc alloc fuel ALL_ENV_EXIST_SYS_INIT = Ok [].
Proof.
  exists ex_no_env, robdd_oracle, alloc_max, 9. eexists. exists 30.
  split; [exact ex_no_env_scoped|]. split; [exact ex_no_env_bool|]. split; [discriminate|].
  split; [apply tools_exist|].
  split; [split; [repeat constructor; simpl; intuition discriminate|split; [intros z []|exact I]]|].
  split; [discriminate|]. split; vm_compute; reflexivity.
Qed.
Lemma follow_instance :
  well_scoped ex_follow /\ all_boolean ex_follow /\ fs_sgoals ex_follow <> [] /\
  separated ex_follow /\ tools_ok ex_follow robdd_oracle alloc_max /\
  (exists W, check_realizable (spec_of ex_follow) 9 ALL_INIT = Ok (Some W)) /\
  exists A, synthesize (spec_of ex_follow) robdd_oracle alloc_max 30 ALL_INIT = Ok A /\
    map (fun x => (astate x, amode x, argrad x, ainit x)) A =
      [([1; 0], 0, 1, false); ([1; 1], 1, 1, false); ([0; 0], 0, 1, true)]%Z /\
    map (fun x => List.length (atrans x)) A = [2; 2; 2].
Proof.
  split; [exact ex_follow_scoped|]. split; [exact ex_follow_bool|]. split; [discriminate|].
  split.
  { split; [repeat constructor; simpl; intuition discriminate|].
    split; intros z [<-|[]]; left; reflexivity. }
  split; [apply tools_exist|]. split; [eexists; vm_compute; reflexivity|].
  eexists. split; [vm_compute; reflexivity|]. split; reflexivity.
Qed.
