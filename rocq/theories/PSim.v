(** Property C64: receding horizon simulation (src/sim.c).

    Reading guide. [simulate] computes the winning set of a specification and runs
    sim_rhc on it (Sim.v): text of the variable names measured, horizon, first state,
    number of steps; the result is the list of nodes of the play, or NULL. [rand] is the
    sequence of numbers rand() returns. SimSpec.v: [is_play A k s]: the nodes are the
    path s 0, ..., s k; [answer F s e s']: the environment may move by [e], the system
    may answer by going to [s'], and wins from there; [horizon_step]: what one step of
    the play is; [unseen]: an answer not possible in an earlier step; [changes]: the
    number of steps in which the state changes. *)
From Coq Require Import List ZArith Bool Arith String Ascii Lia.
From Verif Require Import Base Game Bdd Support EnumProofs Strs Ptree Form Solve FSpec Nonbool RSpec Metric MetricSpec
  Automaton Synth SynthSpec Sim SimSpec SimUse SimExamples.
Import ListNotations.
Open Scope string_scope.
Open Scope list_scope.
Open Scope nat_scope.

(** From a winning state, if the environment can move in all winning states, there is a
    play of the length asked for. It stays in the winning set. In each step the system
    heads for the state nearest to the goal sought among those that have come closer
    than ever before, and its state is a legal answer to the move of the environment;
    if there are none, the state stays the same, legal or not. Whatever its length, the
    play changes its state at most [h * 2 ^ n] times. *)
Theorem C64_play : forall F orc alloc, well_scoped F -> all_boolean F -> fs_sgoals F <> [] -> tools_ok F orc alloc ->
  exists N, forall fuel, N <= fuel ->
  forall rand txt fs horizon s0 num_it,
  let n := List.length (fs_evars F) + List.length (fs_svars F) in
  let sp := spec_of F in
  get_offsets (evar_list sp) (svar_list sp) txt = Ok (Some fs) -> fields_in n fs -> (1 <= horizon)%Z ->
  In s0 (fs_states F) -> sys_wins (game_of F) s0 ->
  (forall s, In s (fs_states F) -> sys_wins (game_of F) s -> exists e, legal_env (game_of F) s e) ->
  let h := Z.to_nat horizon in
  let k := Z.to_nat num_it in
  exists A s e a, simulate sp orc fuel rand alloc txt horizon s0 num_it = Ok (Some A) /\
    s 0 = s0 /\ is_play A k s /\
    (forall i, i < k -> legal_env (game_of F) (s i) (e i)) /\
    (forall i, i <= k -> In (s i) (fs_states F) /\ sys_wins (game_of F) (s i)) /\
    (forall i, i < k -> horizon_step F fs h s e a i) /\
    changes s k <= h * 2 ^ n /\
    (h = 1 -> forall i, i < k ->
      ((forall x, ~ unseen F s e i x) /\ s (S i) = s i) \/
      nearest fs (target F s i) (unseen F s e i) (s (S i))).
Proof. intros F orc alloc H1 H2 H3 H4. exact (run_ok F orc alloc H1 H2 H3 H4). Qed.
Print Assumptions C64_play.
(** in ex_env two different sequences of rand() give different plays *)
Example C64_play_instance :
  let sp := spec_of ex_env in
  let states := fun o : out (option aut) => match o with Ok (Some A) => map astate (rev A) | _ => [] end in
  well_scoped ex_env /\ all_boolean ex_env /\ tools_ok ex_env robdd_oracle alloc_max /\
  get_offsets (evar_list sp) (svar_list sp) "x" = Ok (Some [(1, 2)]%Z) /\ fields_in 3 [(1, 2)]%Z /\
  sys_wins (game_of ex_env) [0; 0; 0]%Z /\ (forall s, exists e, legal_env (game_of ex_env) s e) /\
  states (simulate sp robdd_oracle 40 (fun i => Z.of_nat (i / 2)) alloc_max "x" 2 [0; 0; 0]%Z 4) =
    [[0; 0; 0]; [0; 1; 1]; [0; 1; 1]; [1; 1; 0]; [1; 1; 0]]%Z /\
  states (simulate sp robdd_oracle 40 (fun i => Z.of_nat (S i)) alloc_max "x" 1 [0; 0; 0]%Z 3) =
    [[0; 0; 0]; [1; 0; 1]; [0; 1; 1]; [1; 1; 0]]%Z.
Proof.
  split; [exact env_scoped|]. split; [exact env_boolean|]. split; [apply tools_exist|].
  split; [vm_compute; reflexivity|]. split; [exact field3|].
  split; [apply env_wins; cbn; auto|]. split; [apply env_moves; [reflexivity|discriminate]|].
  split; vm_compute; reflexivity.
Qed.

(** A horizon below 1, or names that are not found: NULL *)
Theorem C64_refused : forall sp orc fuel rand alloc t W et st sgoals txt horizon s0 num_it,
  (horizon < 1)%Z \/ get_offsets (evar_list sp) (svar_list sp) txt = Ok None ->
  sim_rhc sp orc fuel rand alloc t W et st sgoals txt horizon s0 num_it = Ok None.
Proof. exact refused_ok. Qed.
Print Assumptions C64_refused.
Example C64_refused_instance :
  get_offsets (evar_list (spec_of ex_any)) (svar_list (spec_of ex_any)) "y" = Ok None /\
  simulate (spec_of ex_any) robdd_oracle 20 (fun _ => 0%Z) alloc_max "y" 1 [0%Z] 3 = Ok None /\
  simulate (spec_of ex_any) robdd_oracle 20 (fun _ => 0%Z) alloc_max "x" 0 [0%Z] 3 = Ok None.
Proof. repeat split; vm_compute; reflexivity. Qed.

(** Where the environment has no move, the remainder of a division by zero is taken *)
Theorem C64_stuck : forall F orc alloc, well_scoped F -> all_boolean F -> fs_sgoals F <> [] -> tools_ok F orc alloc ->
  exists N, forall fuel, N <= fuel ->
  forall rand txt fs horizon s0 num_it,
  get_offsets (evar_list (spec_of F)) (svar_list (spec_of F)) txt = Ok (Some fs) ->
  (1 <= horizon)%Z -> (1 <= num_it)%Z ->
  In s0 (fs_states F) -> (forall e, ~ legal_env (game_of F) s0 e) ->
  simulate (spec_of F) orc fuel rand alloc txt horizon s0 num_it = Crash.
Proof. intros F orc alloc H1 H2 H3 H4. exact (stuck_ok F orc alloc H1 H2 H3 H4). Qed.
Print Assumptions C64_stuck.
(** ex_halt: the environment cannot move where x holds; all states are winning *)
Example C64_stuck_instance :
  well_scoped ex_halt /\ all_boolean ex_halt /\ sys_wins (game_of ex_halt) [0; 1]%Z /\
  (forall e, ~ legal_env (game_of ex_halt) [0; 1]%Z e) /\
  simulate (spec_of ex_halt) robdd_oracle 30 (fun _ => 0%Z) alloc_max "x" 1 [0; 1]%Z 1 = Crash.
Proof.
  split; [exact halt_scoped|]. split; [exact halt_boolean|]. split; [apply halt_wins; cbn; auto|].
  split; [exact halt_stuck|vm_compute; reflexivity].
Qed.

(** The steps of the play need not be steps of the game: a counter that must move on
    stops as soon as it has gone round once, with the horizon the program computes *)
Theorem C64_legal_refuted : exists F txt horizon s0 A s,
  well_scoped F /\ all_boolean F /\ tools_ok F robdd_oracle alloc_max /\
  In s0 (fs_states F) /\ sys_wins (game_of F) s0 /\ (forall s, exists e, legal_env (game_of F) s e) /\
  compute_horizon (spec_of F) 30 robdd_oracle txt = Ok horizon /\
  simulate (spec_of F) robdd_oracle 30 (fun _ => 0%Z) alloc_max txt horizon s0 5 = Ok (Some A) /\
  is_play A 5 s /\
  (forall i e, i < 4 -> legal_env (game_of F) (s i) e -> legal_sys (game_of F) (s i) e (s (S i))) /\
  forall e, ~ legal_sys (game_of F) (s 4) e (s 5).
Proof. exact cyc_illegal. Qed.
Print Assumptions C64_legal_refuted.

(** The goals need not be reached again: in a game where the system may do what it likes,
    and has to make x true and false again and again, x becomes true and stays true *)
Theorem C64_goals_refuted : exists F txt s0, well_scoped F /\ all_boolean F /\
  In s0 (fs_states F) /\ (forall s, In s (fs_states F) -> sys_wins (game_of F) s) /\
  (forall s e s', In s (fs_states F) -> In s' (fs_states F) -> legal_env (game_of F) s e -> g_env (game_of F) s' = e ->
     legal_sys (game_of F) s e s') /\
  forall orc alloc, tools_ok F orc alloc -> exists N, forall fuel, N <= fuel -> forall rand num_it,
  exists A s, simulate (spec_of F) orc fuel rand alloc txt 1 s0 num_it = Ok (Some A) /\
    is_play A (Z.to_nat num_it) s /\
    exists g, In g (fs_sgoals F) /\ forall i, 1 <= i <= Z.to_nat num_it -> holds F g (s i) = false.
Proof. exact any_goals. Qed.
Print Assumptions C64_goals_refuted.
