(** Sessions used in the examples beside the theorems on the interactive mode. *)
From Coq Require Import List ZArith Bool Arith Lia String.
From Verif Require Import Base Game Bdd Support EnumProofs Strs Ptree Form Solve FSpec SolveProofs Levels
  Automaton Synth SynthSpec AutIO AutIOSpec Interactive InteractSpec InteractProofs InteractRun InteractUse Examples.
Import ListNotations.
Open Scope string_scope.
Open Scope list_scope.
Open Scope Z_scope.

Lemma ready_follow : ready ex_follow robdd_oracle 13.
Proof.
  split; [exact ex_follow_scoped|]. split; [exact ex_follow_bool|]. split; [discriminate|]. split; [discriminate|].
  split; [apply robdd_oracle_ok|]. vm_compute. lia.
Qed.
Lemma ready_stuck : ready ex_stuck robdd_oracle 9.
Proof.
  split; [exact ex_stuck_scoped|]. split; [exact ex_stuck_bool|]. split; [discriminate|]. split; [discriminate|].
  split; [apply robdd_oracle_ok|]. vm_compute. lia.
Qed.
Lemma ready_toggle : ready ex_toggle robdd_oracle 5.
Proof.
  split; [exact ex_toggle_scoped|]. split; [exact ex_toggle_bool|]. split; [discriminate|]. split; [discriminate|].
  split; [apply robdd_oracle_ok|]. vm_compute. lia.
Qed.

Definition ex_edits : list command :=
  [RestrictEnv [0; 0] [0]; RelaxSys [0; 0] [0; 1]; BlockSys [1]; RelaxSys [0; 0] [1; 1]; RefreshWinning].
Lemma ex_edits_valid : Forall (valid ex_follow) ex_edits.
Proof. repeat constructor; cbn; tauto. Qed.
Lemma ex_edits_run :
  asked ex_follow robdd_oracle 13
    ([EnvNext [0; 0]; SysNextA [0; 0] [1]; GetIndex [1; 0] 1; SysNext [0; 0] [1] 0] ++ ex_edits ++
     [EnvNext [0; 0]; SysNextA [0; 0] [0]; SysNextA [0; 0] [1]; SysNextA [1; 0] [1]; Winning [0; 0]; Winning [1; 0];
      Clear; EnvNext [0; 0]; SysNextA [1; 0] [1]; Winning [1; 0]; RefreshLevels; Winning [1; 0]]) =
  Ok ([AMoves [[0]; [1]]; AMoves [[0]; [1]]; AIndex 1; AMoves [[1]]] ++
      [ASilent; ASilent; ASilent; ASilent; ASilent] ++
      [AMoves [[1]]; AMoves [[0]]; AMoves [[0]; [1]]; AMoves [[0]]; ABool false; ABool false;
       ASilent; AMoves [[0]; [1]]; AMoves [[0]; [1]]; ABool false; ASilent; ABool true]).
Proof. vm_compute. reflexivity. Qed.

(** a state outside of all levels without an answer: the program reads outside of an array *)
Lemma ex_stuck_run : valid ex_stuck (SysNext [0; 1] [0] 0) /\
  asked ex_stuck robdd_oracle 9 [SysNext [0; 1] [0] 0] = Crash.
Proof. split; [cbn; intuition lia|vm_compute; reflexivity]. Qed.

(** following sysnext with two environment goals may go around in circles *)
Definition ex_swing (t : nat) : vec := if Nat.even t then [0] else [1].
Lemma ex_toggle_lost :
  ready ex_toggle robdd_oracle 5 /\ In (ex_swing 0) (fs_states ex_toggle) /\
  sys_wins (game_with ex_toggle (now (book_after ex_toggle []))) (ex_swing 0) /\
  follows ex_toggle robdd_oracle 5 [] 0 ex_swing /\
  (forall g, In g (fs_egoals ex_toggle) -> infinitely_often (holds ex_toggle g) ex_swing) /\
  forall t, sgoal ex_toggle 0 (ex_swing t) = false.
Proof.
  pose proof ready_toggle as HR. split; [exact HR|]. split; [cbn; auto|]. split.
  { assert (Hrep : replies ex_toggle robdd_oracle 5 [] (Winning [0]) (ABool true)).
    { exists []. split; [vm_compute; reflexivity|reflexivity]. }
    apply (replies_answers _ _ _ HR [] (Winning [0]) _ (Forall_nil _)) in Hrep; [|cbn; auto].
    destruct Hrep as (v & E & Hv). inversion E; subst. apply Hv. reflexivity. }
  split.
  { intros t _. exists [], (ex_swing (S t)), [[0]; [1]]. split; [split; [cbn; auto|reflexivity]|].
    unfold ex_swing. rewrite Nat.even_succ, <- Nat.negb_even. destruct (Nat.even t); cbn [negb].
    - split; [exists [ASilent]; split; [vm_compute; reflexivity|reflexivity]|]. split; [cbn; auto|reflexivity].
    - split; [exists [ASilent]; split; [vm_compute; reflexivity|reflexivity]|]. split; [cbn; auto|reflexivity]. }
  split.
  - intros g Hg t. cbn in Hg. unfold ex_swing. destruct Hg as [<-|[<-|[]]].
    + destruct (Nat.even t) eqn:E.
      * exists (S t). split; [lia|]. rewrite Nat.even_succ, <- Nat.negb_even, E. reflexivity.
      * exists t. split; [lia|]. rewrite E. reflexivity.
    + destruct (Nat.even t) eqn:E.
      * exists t. split; [lia|]. rewrite E. reflexivity.
      * exists (S t). split; [lia|]. rewrite Nat.even_succ, <- Nat.negb_even, E. reflexivity.
  - intros t. reflexivity.
Qed.

(** sysnexta lists answers that leave the winning set: the answer 1 to the move 0 in
    ex_stuck *)
Lemma ex_sysnexta_loses : exists l,
  replies ex_stuck robdd_oracle 9 [] (SysNextA [1; 0] [1]) (AMoves l) /\ In [1] l /\
  replies ex_stuck robdd_oracle 9 [] (Winning [1; 1]) (ABool false).
Proof.
  exists [[0]; [1]]. split; [exists []; split; [vm_compute; reflexivity|reflexivity]|]. split; [cbn; auto|].
  exists []. split; [vm_compute; reflexivity|reflexivity].
Qed.
(** at a goal state sysnext may list nothing although the system can go on winning:
    SYS: y; SYSTRANS: [](y -> !y'), SYSGOAL: []<>y *)
Definition ex_blink : fspec := {|
  fs_evars := []; fs_svars := [("y", -1); ("z", -1)];
  fs_einit := None; fs_sinit := None;
  fs_etrans := FTrue;
  fs_strans := FAnd (FImp (FVar "y") (FAnd (FNot (FNext "y")) (FNot (FNext "z"))))
                    (FImp (FAnd (FNot (FVar "y")) (FNot (FVar "z"))) (FAnd (FNot (FNext "y")) (FNext "z")));
  fs_egoals := []; fs_sgoals := [FVar "y"]
|}.
Lemma ready_blink : ready ex_blink robdd_oracle 9.
Proof.
  split; [scoped|]. split; [scoped|]. split; [discriminate|]. split; [discriminate|].
  split; [apply robdd_oracle_ok|]. vm_compute. lia.
Qed.
Lemma ex_blink_run :
  asked ex_blink robdd_oracle 9
    [Winning [1; 0]; SysNextA [1; 0] []; Winning [0; 0]; GetIndex [1; 0] 0; GetIndex [0; 0] 0;
     GetIndex [0; 1] 0; SysNext [1; 0] [] 0; SysNext [0; 0] [] 0; SysNext [0; 1] [] 0] =
  Ok [ABool true; AMoves [[0; 0]]; ABool true; AIndex 1; AIndex 3; AIndex 2; AMoves []; AMoves [[0; 1]];
      AMoves [[1; 0]; [1; 1]]].
Proof. vm_compute. reflexivity. Qed.

(** the play of ex_blink from [0; 0] by way of [0; 1] to the goal [1; 0] *)
Definition ex_blink_play (t : nat) : vec := match t with O => [0; 0] | S O => [0; 1] | _ => [1; 0] end.
Lemma ex_blink_follows : List.length (fs_egoals ex_blink) = 0%nat /\
  In (ex_blink_play 0) (fs_states ex_blink) /\
  sys_wins (game_with ex_blink (now (book_after ex_blink []))) (ex_blink_play 0) /\
  follows ex_blink robdd_oracle 9 [] 0 ex_blink_play /\ sgoal ex_blink 0 (ex_blink_play 0) = false.
Proof.
  split; [reflexivity|]. split; [cbn; auto|]. split; [|split; [|reflexivity]].
  - assert (Hrep : replies ex_blink robdd_oracle 9 [] (Winning [0; 0]) (ABool true)).
    { exists []. split; [vm_compute; reflexivity|reflexivity]. }
    apply (replies_answers _ _ _ ready_blink [] (Winning [0; 0]) _ (Forall_nil _)) in Hrep; [|cbn; auto].
    destruct Hrep as (v & E & Hv). inversion E; subst. apply Hv. reflexivity.
  - intros t Hno. destruct t as [|[|t]].
    + exists [], [0; 1], [[0; 1]]. split; [split; [cbn; auto|reflexivity]|].
      split; [exists [ASilent]; split; [vm_compute; reflexivity|reflexivity]|]. split; [cbn; auto|reflexivity].
    + exists [], [1; 0], [[1; 0]; [1; 1]]. split; [split; [cbn; auto|reflexivity]|].
      split; [exists [ASilent]; split; [vm_compute; reflexivity|reflexivity]|]. split; [cbn; auto|reflexivity].
    + exfalso. specialize (Hno (S (S t)) (le_n _)). discriminate.
Qed.
