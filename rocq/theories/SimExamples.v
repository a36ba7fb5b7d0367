(** Specifications and plays used in PSim.v. *)
From Coq Require Import List ZArith Bool Arith String Ascii Lia.
From Verif Require Import Base Game Bdd Support EnumProofs BGame OpsProofs Strs Ptree Form Solve FSpec SolveProofs
  Levels Nonbool RSpec Metric MetricSpec Automaton Synth SynthSpec Sim SimSpec SimUse.
Import ListNotations.
Open Scope string_scope.
Open Scope list_scope.
Open Scope Z_scope.

(** SYS: x in 0..3 as bits x0, x1, counting up modulo 4; SYSGOAL: x = 0 *)
Definition ex_cyc : fspec := {|
  fs_evars := []; fs_svars := [("x0", -1); ("x1", -1)];
  fs_einit := None; fs_sinit := None; fs_etrans := FTrue;
  fs_strans := FAnd (FIff (FNext "x0") (FNot (FVar "x0")))
                    (FIff (FNext "x1") (FNot (FIff (FVar "x0") (FVar "x1"))));
  fs_egoals := []; fs_sgoals := [FAnd (FNot (FVar "x0")) (FNot (FVar "x1"))]
|}.
(** SYS: x; every step is allowed; SYSGOAL: x & !x *)
Definition ex_any : fspec := {|
  fs_evars := []; fs_svars := [("x", -1)];
  fs_einit := None; fs_sinit := None; fs_etrans := FTrue; fs_strans := FTrue;
  fs_egoals := []; fs_sgoals := [FVar "x"; FNot (FVar "x")]
|}.
(** ENV: a; SYS: x in 0..3 as bits x0, x1. While a holds bit x0 is kept. The goals are
    x = 3 and x = 0. *)
Definition ex_env : fspec := {|
  fs_evars := [("a", -1)]; fs_svars := [("x0", -1); ("x1", -1)];
  fs_einit := None; fs_sinit := None; fs_etrans := FTrue;
  fs_strans := FImp (FNext "a") (FIff (FNext "x0") (FVar "x0"));
  fs_egoals := [FNot (FVar "a")];
  fs_sgoals := [FAnd (FVar "x0") (FVar "x1"); FAnd (FNot (FVar "x0")) (FNot (FVar "x1"))]
|}.
Lemma cyc_scoped : well_scoped ex_cyc.
Proof.
  unfold well_scoped, ex_cyc, state_form, incl; cbn. repeat split; auto; try tauto.
  - destruct H as [<-|[]]. cbn. tauto.
  - destruct H as [<-|[]]. reflexivity.
Qed.
Lemma cyc_boolean : all_boolean ex_cyc.
Proof.
  unfold all_boolean, ex_cyc; cbn. repeat split; auto; try tauto.
  - intros v [<-|[<-|[]]]; reflexivity.
  - intros f [<-|[]]. reflexivity.
Qed.
Lemma any_scoped : well_scoped ex_any.
Proof.
  unfold well_scoped, ex_any, state_form, incl; cbn. repeat split; auto; try tauto.
  - destruct H as [<-|[<-|[]]]; cbn; tauto.
  - destruct H as [<-|[<-|[]]]; reflexivity.
Qed.
Lemma any_boolean : all_boolean ex_any.
Proof.
  unfold all_boolean, ex_any; cbn. repeat split; auto; try tauto.
  - intros v [<-|[]]; reflexivity.
  - intros f [<-|[<-|[]]]; reflexivity.
Qed.
Lemma env_scoped : well_scoped ex_env.
Proof.
  unfold well_scoped, ex_env, state_form, incl; cbn. repeat split; auto; try tauto.
  all: try (destruct H as [<-|[<-|[]]]; cbn; tauto).
  all: try (destruct H as [<-|[]]; cbn; tauto).
  all: try (destruct H as [<-|[<-|[]]]; reflexivity).
  all: destruct H as [<-|[]]; reflexivity.
Qed.
Lemma env_boolean : all_boolean ex_env.
Proof.
  unfold all_boolean, ex_env; cbn. repeat split; auto; try tauto.
  all: intros v Hv; cbn in Hv; repeat (destruct Hv as [<-|Hv]; [reflexivity|]); destruct Hv.
Qed.
(** all states are winning *)
Lemma all_win : forall F, well_scoped F -> all_boolean F -> fs_sgoals F <> [] -> forall fuel W,
  compute_winning_set (spec_of F) fuel = Ok W ->
  forallb (evS (List.length (fs_evars F) + List.length (fs_svars F)) W) (fs_states F) = true ->
  forall s, In s (fs_states F) -> sys_wins (game_of F) s.
Proof.
  intros F H1 H2 H3 fuel W HW Hall s Hs.
  apply (winning_set_exact F H1 H2 H3 fuel W HW); auto. rewrite forallb_forall in Hall. auto.
Qed.
Lemma cyc_wins : forall s, In s (fs_states ex_cyc) -> sys_wins (game_of ex_cyc) s.
Proof.
  destruct (compute_winning_set (spec_of ex_cyc) 30) as [W| |] eqn:E; [|vm_compute in E; discriminate|vm_compute in E; discriminate].
  apply (all_win ex_cyc cyc_scoped cyc_boolean ltac:(discriminate) 30 W E).
  vm_compute in E. injection E as <-. vm_compute. reflexivity.
Qed.
Lemma any_wins : forall s, In s (fs_states ex_any) -> sys_wins (game_of ex_any) s.
Proof.
  destruct (compute_winning_set (spec_of ex_any) 30) as [W| |] eqn:E; [|vm_compute in E; discriminate|vm_compute in E; discriminate].
  apply (all_win ex_any any_scoped any_boolean ltac:(discriminate) 30 W E).
  vm_compute in E. injection E as <-. vm_compute. reflexivity.
Qed.
Lemma env_wins : forall s, In s (fs_states ex_env) -> sys_wins (game_of ex_env) s.
Proof.
  destruct (compute_winning_set (spec_of ex_env) 40) as [W| |] eqn:E; [|vm_compute in E; discriminate|vm_compute in E; discriminate].
  apply (all_win ex_env env_scoped env_boolean ltac:(discriminate) 40 W E).
  vm_compute in E. injection E as <-. vm_compute. reflexivity.
Qed.

(** the environment can always move *)
Lemma env_moves : forall F, fs_etrans F = FTrue -> fs_envs F <> [] -> forall s, exists e, legal_env (game_of F) s e.
Proof.
  intros F E H s. unfold legal_env. cbn [game_of g_envs g_etr]. rewrite E. cbn [sem].
  destruct (fs_envs F) as [|e l]; [congruence|]. exists e. split; [left; auto|reflexivity].
Qed.
Lemma field1 : fields_in 1 [(0, 1)].
Proof. intros o w [E|[]]. injection E as <- <-. repeat split; discriminate. Qed.
Lemma field2 : fields_in 2 [(0, 2)].
Proof. intros o w [E|[]]. injection E as <- <-. repeat split; discriminate. Qed.
Lemma field3 : fields_in 3 [(1, 2)].
Proof. intros o w [E|[]]. injection E as <- <-. repeat split; discriminate. Qed.

(** ** ex_any: the play moves once *)
Lemma any_states : forall s, In s (fs_states ex_any) <-> s = [0] \/ s = [1].
Proof.
  intros s. change (fs_states ex_any) with [[0]; [1]]. cbn. intuition auto.
Qed.
Lemma any_answer : forall s e x, answer ex_any s e x <-> e = [] /\ (x = [0] \/ x = [1]).
Proof.
  intros s e x. unfold answer, legal_env, legal_sys. cbn [game_of g_envs g_etr g_states g_str g_env].
  change (fs_envs ex_any) with [@nil Z]. rewrite any_states. cbn. split.
  - intros (([<-|[]] & _) & (H & _) & _). auto.
  - intros (-> & H). split; [auto|]. split; [auto|]. apply any_wins. apply any_states. auto.
Qed.
Lemma any_run : forall orc alloc, tools_ok ex_any orc alloc -> exists N, forall fuel, (N <= fuel)%nat -> forall rand num_it,
  exists A s, simulate (spec_of ex_any) orc fuel rand alloc "x" 1 [0] num_it = Ok (Some A) /\
    is_play A (Z.to_nat num_it) s /\ s 0%nat = [0] /\
    forall i, (1 <= i <= Z.to_nat num_it)%nat -> s i = [1].
Proof.
  intros orc alloc Ht.
  destruct (run_ok ex_any orc alloc any_scoped any_boolean ltac:(discriminate) Ht) as (N & HN).
  exists N. intros fuel Hf rand num_it.
  assert (H0 : In [0] (fs_states ex_any)) by (apply any_states; auto).
  destruct (HN fuel Hf rand "x" [(0, 1)] 1 [0] num_it ltac:(vm_compute; reflexivity) field1 ltac:(lia) H0 (any_wins _ H0)
              (fun s _ _ => env_moves ex_any eq_refl ltac:(discriminate) s))
    as (A & s & e & a & E & S0 & Hp & He & _ & _ & _ & H1).
  specialize (H1 eq_refl). exists A, s. split; auto. split; auto. split; auto.
  induction i as [|i IH]; intros Hi; [lia|]. specialize (H1 i ltac:(lia)).
  assert (Hen : forall j, (j < Z.to_nat num_it)%nat -> e j = []).
  { intros j Hj. destruct (He j Hj) as [Hin _]. cbn in Hin. destruct Hin as [<-|[]]. auto. }
  destruct i as [|i].
  - destruct H1 as [(Hn & _)|((Ha & _) & Hm)].
    + exfalso. apply (Hn [1]). split; [apply any_answer; rewrite Hen by lia; auto|]. intros j Hj. lia.
    + apply any_answer in Ha. destruct Ha as [_ [Ha|Ha]]; auto. exfalso.
      assert (T : forall x, target ex_any s 0 x <-> x = [1]).
      { intros x. unfold target. cbn [goal_at]. rewrite S0. change (holds ex_any (nth 0 (fs_sgoals ex_any) FTrue) [0]) with false.
        cbn iota. rewrite any_states. split.
        - intros ([-> | ->] & H & _); auto. discriminate H.
        - intros ->. split; auto. split; [reflexivity|]. apply any_wins, any_states. auto. }
      assert (D : forall y, set_dist [(0, 1)] (target ex_any s 0) y (dist [(0, 1)] [1] y)).
      { intros y. split; [exists [1]; split; auto; apply T; auto|]. intros g Hg. apply T in Hg. subst. lia. }
      specialize (Hm [1] _ _ ltac:(split; [apply any_answer; rewrite Hen by lia; auto|intros j Hj; lia]) (D _) (D _)).
      rewrite Ha in Hm. vm_compute in Hm. apply Hm. reflexivity.
  - rewrite <- (IH ltac:(lia)). destruct H1 as [(_ & H)|((Ha & Hno) & _)]; auto. exfalso.
    apply (Hno 0%nat ltac:(lia)). apply any_answer. apply any_answer in Ha. rewrite Hen by lia. destruct Ha as [_ Ha]. auto.
Qed.
Lemma any_goals : exists F txt s0, well_scoped F /\ all_boolean F /\
  In s0 (fs_states F) /\ (forall s, In s (fs_states F) -> sys_wins (game_of F) s) /\
  (forall s e s', In s (fs_states F) -> In s' (fs_states F) -> legal_env (game_of F) s e -> g_env (game_of F) s' = e ->
     legal_sys (game_of F) s e s') /\
  forall orc alloc, tools_ok F orc alloc -> exists N, forall fuel, (N <= fuel)%nat -> forall rand num_it,
  exists A s, simulate (spec_of F) orc fuel rand alloc txt 1 s0 num_it = Ok (Some A) /\
    is_play A (Z.to_nat num_it) s /\
    exists g, In g (fs_sgoals F) /\ forall i, (1 <= i <= Z.to_nat num_it)%nat -> holds F g (s i) = false.
Proof.
  exists ex_any, "x", [0]. split; [exact any_scoped|]. split; [exact any_boolean|].
  split; [apply any_states; auto|]. split; [exact any_wins|]. split.
  - intros s e s' _ Hs' _ He. split; auto.
  - intros orc alloc Ht. destruct (any_run orc alloc Ht) as (N & HN). exists N. intros fuel Hf rand num_it.
    destruct (HN fuel Hf rand num_it) as (A & s & E & Hp & _ & H). exists A, s. split; auto. split; auto.
    exists (FNot (FVar "x")). split; [right; left; reflexivity|]. intros i Hi. rewrite (H i Hi). reflexivity.
Qed.

(** ** ex_cyc: an illegal step *)
Lemma cyc_illegal : exists F txt horizon s0 A s,
  well_scoped F /\ all_boolean F /\ tools_ok F robdd_oracle alloc_max /\
  In s0 (fs_states F) /\ sys_wins (game_of F) s0 /\ (forall s, exists e, legal_env (game_of F) s e) /\
  compute_horizon (spec_of F) 30 robdd_oracle txt = Ok horizon /\
  simulate (spec_of F) robdd_oracle 30 (fun _ => 0) alloc_max txt horizon s0 5 = Ok (Some A) /\
  is_play A 5 s /\
  (forall i e, (i < 4)%nat -> legal_env (game_of F) (s i) e -> legal_sys (game_of F) (s i) e (s (S i))) /\
  forall e, ~ legal_sys (game_of F) (s 4%nat) e (s 5%nat).
Proof.
  set (l := [[0; 0]; [1; 0]; [0; 1]; [1; 1]; [0; 0]; [0; 0]]).
  exists ex_cyc, "x", 2, [0; 0].
  destruct (simulate (spec_of ex_cyc) robdd_oracle 30 (fun _ => 0) alloc_max "x" 2 [0; 0] 5) as [[A|]| |] eqn:E;
    try (vm_compute in E; discriminate E).
  exists A, (fun i => nth i l []).
  split; [exact cyc_scoped|]. split; [exact cyc_boolean|]. split; [apply tools_exist|].
  split; [cbn; auto|]. split; [apply cyc_wins; cbn; auto|].
  split; [apply env_moves; [reflexivity|discriminate]|]. split; [vm_compute; reflexivity|].
  split; [reflexivity|]. split.
  - vm_compute in E. injection E as <-. exists (fun i => S i). split; [intros; congruence|]. vm_compute. reflexivity.
  - split.
    + intros i e Hi (He & _). cbn in He. destruct He as [<-|[]].
      do 4 (destruct i as [|i]; [vm_compute; intuition auto|]). lia.
    + intros e (_ & _ & H). vm_compute in H. discriminate.
Qed.

(** ENV: a; SYS: x; the environment cannot move where x holds *)
Definition ex_halt : fspec := {|
  fs_evars := [("a", -1)]; fs_svars := [("x", -1)];
  fs_einit := None; fs_sinit := None; fs_etrans := FNot (FVar "x"); fs_strans := FTrue;
  fs_egoals := []; fs_sgoals := [FVar "x"]
|}.
Lemma halt_scoped : well_scoped ex_halt.
Proof.
  unfold well_scoped, ex_halt, state_form, incl; cbn. repeat split; auto; try tauto.
  all: try (destruct H as [<-|[]]; cbn; tauto).
Qed.
Lemma halt_boolean : all_boolean ex_halt.
Proof.
  unfold all_boolean, ex_halt; cbn. repeat split; auto; try tauto.
  all: intros v Hv; cbn in Hv; repeat (destruct Hv as [<-|Hv]; [reflexivity|]); destruct Hv.
Qed.
Lemma halt_wins : forall s, In s (fs_states ex_halt) -> sys_wins (game_of ex_halt) s.
Proof.
  destruct (compute_winning_set (spec_of ex_halt) 30) as [W| |] eqn:E; [|vm_compute in E; discriminate|vm_compute in E; discriminate].
  apply (all_win ex_halt halt_scoped halt_boolean ltac:(discriminate) 30 W E).
  vm_compute in E. injection E as <-. vm_compute. reflexivity.
Qed.
Lemma halt_stuck : forall e, ~ legal_env (game_of ex_halt) [0; 1] e.
Proof. intros e (_ & H). vm_compute in H. discriminate. Qed.
