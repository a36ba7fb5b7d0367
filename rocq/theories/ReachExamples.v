(** Runs of the reachability synthesizer, on a good input and on inputs where it
    misbehaves. *)
From Coq Require Import List ZArith Lia Bool Arith String.
From Verif Require Import Base Game Bdd BGame Support SupportProofs EnumProofs Ops OpsProofs Strs Ptree
  Form Solve FSpec RealProofs Automaton AutProofs Synth SynthSpec Examples
  Reach ReachSpec ReachLevels ReachProofs.
Import ListNotations.
Open Scope nat_scope.

(** ENV: x; SYS: y; ENVINIT: !x; SYSINIT: !y; SYSTRANS: [](y' -> x'); ENVGOAL: []<>x;
    SYSGOAL: []<>y *)
Definition ex_reach : fspec := {|
  fs_evars := [("x"%string, -1)%Z]; fs_svars := [("y"%string, -1)%Z];
  fs_einit := Some (FNot (FVar "x")); fs_sinit := Some (FNot (FVar "y"));
  fs_etrans := FTrue;
  fs_strans := FImp (FNext "y") (FNext "x");
  fs_egoals := [FVar "x"];
  fs_sgoals := [FVar "y"]
|}.
Lemma ex_reach_scoped : well_scoped ex_reach.
Proof. scoped. Qed.
Lemma ex_reach_bool : all_boolean ex_reach.
Proof. scoped. Qed.
(** the strategy waits in the first node until x holds *)
Lemma ex_reach_run : rg_synthesize (spec_of ex_reach) robdd_oracle alloc_max 20 =
  Ok [Automaton.Node 2 false [1; 1]%Z (-1) 0 []; Automaton.Node 1 false [0; 0]%Z (-1) 1 [1; 2]].
Proof. vm_compute. reflexivity. Qed.
Lemma ex_reach_start : exists s, initial ex_reach s.
Proof. exists [0; 0]%Z. split; [left; reflexivity|split; reflexivity]. Qed.

(** one system variable, no environment variable, every step allowed *)
Lemma one_np : no_primed_sys 0 1 (bOne 2).
Proof.
  intros s e w w' Hs He Hw Hw'.
  assert (H : forall u, bitvec 1 u -> bitvec 2 (s ++ e ++ u)).
  { intros u Hu. apply (bitvec_app 1 1); auto. apply (bitvec_app 0 1); auto. }
  rewrite !ev_One; auto.
Qed.
Lemma notv_good : Good 0 1 (bNot 2 (bVar 2 0)).
Proof.
  split; [apply wf_mk|]. intros s p q (Hs & Hb) (Hp & Hbp) (Hq & Hbq).
  destruct s as [|a [|]]; try discriminate. destruct p as [|b [|]]; try discriminate.
  destruct q as [|c [|]]; try discriminate.
  inversion Hb; subst. inversion Hbp; subst. inversion Hbq; subst.
  destruct H1 as [-> | ->], H3 as [-> | ->], H5 as [-> | ->]; reflexivity.
Qed.
Lemma tools_exist_n : forall n, oracle_ok n robdd_oracle /\ forall t A, ~ In (alloc_max t A) (ids A).
Proof. intros n. split; [apply robdd_oracle_ok|]. apply (tools_exist ex_reach). Qed.

(** the target lies outside of the permitted set *)
Lemma outside_refuted : exists ne ns orc alloc Entry Exit et st egs N fuel A (p : nat -> anode),
  oracle_ok (2 * (ne + ns)) orc /\ (forall t A, ~ In (alloc t A) (ids A)) /\
  no_primed_sys ne ns et /\ Good ne ns N /\ Forall (Good ne ns) egs /\
  Forall (bitvec (ne + ns)) Entry /\ Forall (bitvec (ne + ns)) Exit /\
  synthesize_reachgame ne ns orc alloc fuel Entry Exit et st egs N = Ok A /\
  (forall t, In (p t) A /\ In (aid (p (S t))) (atrans (p t))) /\
  (forall t, g_etr (bgame ne ns et st egs []) (astate (p t)) [] = true) /\
  (forall t g, In g egs -> evS (ne + ns) g (astate (p t)) = true) /\
  forall t, ~ In (astate (p t)) Exit.
Proof.
  exists 0, 1, robdd_oracle, alloc_max, [[0%Z]], [[1%Z]], (bOne 2), (bOne 2), [bOne 2],
    (bNot 2 (bVar 2 0)), 20, [Automaton.Node 1 false [0%Z] (-1) 1 [1]],
    (fun _ => Automaton.Node 1 false [0%Z] (-1) 1 [1]).
  split; [apply tools_exist_n|]. split; [apply (tools_exist_n 0)|]. split; [apply one_np|].
  split; [apply notv_good|]. split; [constructor; [apply good_One|constructor]|].
  split; [repeat constructor; left; reflexivity|].
  split; [constructor; [split; [reflexivity|constructor; [right; reflexivity|constructor]]|constructor]|].
  split; [vm_compute; reflexivity|]. split; [intros t; split; left; reflexivity|].
  split; [reflexivity|]. split; [intros t g [<-|[]]; reflexivity|].
  intros t [H|[]]. discriminate.
Qed.

(** no environment goal *)
Lemma no_egoal_refuted : exists ne ns orc alloc Entry Exit et st N fuel,
  oracle_ok (2 * (ne + ns)) orc /\ (forall t A, ~ In (alloc t A) (ids A)) /\
  no_primed_sys ne ns et /\ Good ne ns N /\
  Forall (bitvec (ne + ns)) Entry /\ Forall (bitvec (ne + ns)) Exit /\
  (forall s, In s Exit -> evS (ne + ns) N s = true) /\
  Entry <> [] /\
  (forall s, In s Entry -> evS (ne + ns) N s = true /\
     reach_wins (within (evS (ne + ns) N) (bgame ne ns et st [] [])) (among Exit) s) /\
  synthesize_reachgame ne ns orc alloc fuel Entry Exit et st [] N = Ok [].
Proof.
  exists 0, 1, robdd_oracle, alloc_max, [[0%Z]], [[1%Z]], (bOne 2), (bOne 2), (bOne 2), 20.
  split; [apply tools_exist_n|]. split; [apply (tools_exist_n 0)|]. split; [apply one_np|].
  split; [apply good_One|].
  split; [repeat constructor; left; reflexivity|].
  split; [constructor; [split; [reflexivity|constructor; [right; reflexivity|constructor]]|constructor]|].
  split; [intros s [<-|[]]; reflexivity|]. split; [discriminate|].
  split; [|vm_compute; reflexivity].
  intros s [<-|[]]. split; [reflexivity|].
  exists (fun _ _ => [1%Z]). split.
  - intros s h e Hh Hs [[<-|[]] He].
    assert (Hs' : s = [0%Z] \/ s = [1%Z]) by (inversion Hh; auto).
    split; [right; left; reflexivity|]. split; [reflexivity|].
    destruct Hs' as [-> | ->]; reflexivity.
  - intros p (H0 & _ & Hp) _. exists 1. destruct (Hp 0) as (e & _ & ->); [|reflexivity].
    intros u Hu. replace u with 0 by lia. rewrite H0. reflexivity.
Qed.

(** SYS: x; SYSINIT: !x; ENVTRANS: [](False); SYSTRANS: [](False); SYSGOAL: []<>x.
    There is no environment variable; the environment has no move at all *)
Definition ex_frozen : fspec := {|
  fs_evars := []; fs_svars := [("x"%string, -1)%Z];
  fs_einit := None; fs_sinit := Some (FNot (FVar "x"));
  fs_etrans := FFalse; fs_strans := FFalse; fs_egoals := []; fs_sgoals := [FVar "x"]
|}.
Lemma frozen_refuted : exists F orc alloc fuel,
  well_scoped F /\ all_boolean F /\ tools_ok F orc alloc /\
  (exists s, initial F s) /\ (forall s, initial F s -> reach_wins (game_of F) (rtarget F) s) /\
  rg_synthesize (spec_of F) orc alloc fuel = Ok [].
Proof.
  exists ex_frozen, robdd_oracle, alloc_max, 20. split; [scoped|]. split; [scoped|].
  split; [apply tools_exist|].
  split; [exists [0%Z]; split; [left; reflexivity|split; reflexivity]|].
  split; [|vm_compute; reflexivity].
  intros s _. exists (fun _ _ => []). split.
  - intros s1 h e _ _ (_ & H). discriminate.
  - intros p (_ & _ & Hp) _. destruct (rtarget ex_frozen (p 0)) eqn:E; [eauto|].
    destruct (Hp 0) as (e & (_ & He) & _); [|discriminate].
    intros u Hu. replace u with 0 by lia. auto.
Qed.
