(** Properties C01-C05 and C37: winning set, sublevel sets, realizability.

    Reading guide. A specification [F : fspec] (FSpec.v) denotes the two-player
    game [game_of F]; [sys_wins G s] (Game.v) says that the system has a winning
    strategy from [s]. [spec_of F] are the parse trees the tool works on. The
    hypothesis [well_scoped] is what check_gr1c_form demands, [all_boolean] says
    that integers have been expanded already, and at least one system goal is
    what main.c arranges. [fuel] bounds the number of loop iterations. *)
From Coq Require Import List ZArith Bool Arith.
From Verif Require Import Base Game Bdd BGame Ops OpsProofs SubProofs Strs Ptree Form Solve FSpec
  SolveProofs RealProofs Levels LevelProofs Examples.
Import ListNotations.
Open Scope nat_scope.

(** C01 *)
Theorem C01_winning_set_exact : forall F, well_scoped F -> all_boolean F -> fs_sgoals F <> [] ->
  forall fuel W, compute_winning_set (spec_of F) fuel = Ok W ->
  forall s p, In s (fs_states F) -> In p (fs_states F) ->
    (ev W (s ++ p) = true <-> sys_wins (game_of F) s).
Proof.
  intros F H1 H2 H3 fuel W HW s p Hs Hp.
  exact (winning_set_eval F H1 H2 H3 fuel W HW s p Hs Hp).
Qed.
Print Assumptions C01_winning_set_exact.
(** without system goals the code dereferences NULL *)
Theorem C01_no_goal_crashes : forall ne ns et st fuel egs, 0 < fuel ->
  compute_winning_set_BDD ne ns et st fuel egs [] = Crash.
Proof. exact winning_set_no_goal. Qed.
Print Assumptions C01_no_goal_crashes.

(** in [ex_stuck] exactly one of the four states is winning *)
Example C01_instance :
  well_scoped ex_stuck /\ all_boolean ex_stuck /\ fs_sgoals ex_stuck <> [] /\
  match compute_winning_set (spec_of ex_stuck) 9 with
  | Ok W => filter (fun s => ev W (s ++ s)) (fs_states ex_stuck) = [[1; 0]]%Z
  | _ => False
  end.
Proof.
  split; [exact ex_stuck_scoped|]. split; [exact ex_stuck_bool|]. split; [discriminate|].
  vm_compute. reflexivity.
Qed.

(** C02: the loops end, and a result does not depend on the bound. *)
Theorem C02_terminates : forall F, well_scoped F -> all_boolean F -> fs_sgoals F <> [] ->
  exists N, forall fuel, N <= fuel -> exists W, compute_winning_set (spec_of F) fuel = Ok W.
Proof. exact winning_set_terminates. Qed.
Print Assumptions C02_terminates.
Theorem C02_bound_irrelevant : forall F fuel fuel' W,
  compute_winning_set (spec_of F) fuel = Ok W -> fuel <= fuel' ->
  compute_winning_set (spec_of F) fuel' = Ok W.
Proof. exact winning_set_any. Qed.
Print Assumptions C02_bound_irrelevant.
(** on the level of BDDs: an explicit bound, number of (goal, state) pairs plus one *)
Theorem C02_winning_set_bound : forall ne ns et st egs sgs,
  no_primed_sys ne ns et -> Forall (Good ne ns) egs -> Forall (Good ne ns) sgs -> 0 < length sgs ->
  forall fuel, length sgs * 2 ^ (ne + ns) < fuel ->
  exists W, compute_winning_set_BDD ne ns et st fuel egs sgs = Ok W.
Proof. exact winning_set_bound. Qed.
Print Assumptions C02_winning_set_bound.
Theorem C02_sublevels_terminate : forall ne ns et st egs sgs,
  no_primed_sys ne ns et -> Forall (Good ne ns) egs -> Forall (Good ne ns) sgs ->
  0 < length sgs -> 0 < length egs ->
  forall fuel0 W, compute_winning_set_BDD ne ns et st fuel0 egs sgs = Ok W ->
  exists N, forall fuel, N <= fuel -> exists R,
    compute_sublevel_sets ne ns et st fuel W egs sgs = Ok (Some R).
Proof. intros ne ns et st egs sgs H1 H2 H3 H4 H5 f W HW.
  exact (proj1 (sublevels_ok ne ns et st H1 egs sgs H2 H3 H4 H5 f W HW)). Qed.
Print Assumptions C02_sublevels_terminate.
Theorem C02_sublevels_bound_irrelevant : forall ne ns et st f f' egs W sgs R, f <= f' ->
  compute_sublevel_sets ne ns et st f W egs sgs = Ok R ->
  compute_sublevel_sets ne ns et st f' W egs sgs = Ok R.
Proof. exact sublevel_mono. Qed.
Print Assumptions C02_sublevels_bound_irrelevant.

(** the realizability test always answers *)
Theorem C03_C05_total : forall F, well_scoped F -> all_boolean F -> fs_sgoals F <> [] ->
  forall flags, exists N, forall fuel, N <= fuel ->
  exists r, check_realizable (spec_of F) fuel flags = Ok r.
Proof. exact real_total. Qed.
Print Assumptions C03_C05_total.
(** a non-NULL answer is the winning set *)
Theorem C03_C05_result : forall F, well_scoped F -> all_boolean F -> fs_sgoals F <> [] ->
  forall flags fuel W, check_realizable (spec_of F) fuel flags = Ok (Some W) ->
  forall s p, In s (fs_states F) -> In p (fs_states F) ->
    (ev W (s ++ p) = true <-> sys_wins (game_of F) s).
Proof. exact real_result. Qed.
Print Assumptions C03_C05_result.

(** C03. [initial F s]: [s] is a state satisfying both initial conditions. *)
Theorem C03_all_init : forall F, well_scoped F -> all_boolean F -> fs_sgoals F <> [] ->
  forall fuel r, check_realizable (spec_of F) fuel ALL_INIT = Ok r ->
  (r <> None <->
   (exists s, initial F s) /\ forall s, initial F s -> sys_wins (game_of F) s).
Proof. exact all_init_verdict. Qed.
Print Assumptions C03_all_init.
(** the documentation does not ask for an initial state to exist *)
Theorem C03_documented_reading_refuted : exists F fuel,
  well_scoped F /\ all_boolean F /\ fs_sgoals F <> [] /\
  (forall s, initial F s -> sys_wins (game_of F) s) /\
  check_realizable (spec_of F) fuel ALL_INIT = Ok None.
Proof. exact all_init_refuted. Qed.
Print Assumptions C03_documented_reading_refuted.
Example C03_instance :
  (exists W, check_realizable (spec_of ex_follow) 9 ALL_INIT = Ok (Some W)) /\
  check_realizable (spec_of ex_stuck) 9 ALL_INIT = Ok None /\
  initial ex_follow [0; 0]%Z /\ initial ex_stuck [0; 0]%Z.
Proof.
  split; [eexists; vm_compute; reflexivity|]. split; [vm_compute; reflexivity|].
  split; (split; [simpl; auto|vm_compute; auto]).
Qed.

(** C04: for separated initial conditions with a satisfiable SYSINIT *)
Theorem C04_all_env_exist_sys : forall F, well_scoped F -> all_boolean F -> fs_sgoals F <> [] ->
  NoDup (names (fs_vars F)) ->
  opt_form (fun f => incl (fvars f) (names (fs_evars F))) (fs_einit F) ->
  opt_form (fun f => incl (fvars f) (names (fs_svars F))) (fs_sinit F) ->
  (exists s, In s (fs_states F) /\ holds_opt F (fs_sinit F) s = true) ->
  forall fuel r, check_realizable (spec_of F) fuel ALL_ENV_EXIST_SYS_INIT = Ok r ->
  (r <> None <->
   forall e, In e (fs_envs F) -> holds_env F (fs_einit F) e = true ->
   exists s, In s (fs_states F) /\ g_env (game_of F) s = e /\
     holds_opt F (fs_sinit F) s = true /\ sys_wins (game_of F) s).
Proof. exact aes_separated. Qed.
Print Assumptions C04_all_env_exist_sys.
(** without the separation hypotheses *)
Theorem C04_general : forall F, well_scoped F -> all_boolean F -> fs_sgoals F <> [] ->
  forall fuel r, check_realizable (spec_of F) fuel ALL_ENV_EXIST_SYS_INIT = Ok r ->
  (r <> None <-> forall s, initial F s ->
     exists s', initial F s' /\ g_env (game_of F) s' = g_env (game_of F) s /\
       sys_wins (game_of F) s').
Proof. exact aes_verdict. Qed.
Print Assumptions C04_general.
(** with an unsatisfiable SYSINIT the answer is "realizable" although no
    environment initialization can be answered *)
Theorem C04_unsat_sysinit_refuted : exists F fuel W,
  well_scoped F /\ all_boolean F /\ fs_sgoals F <> [] /\
  check_realizable (spec_of F) fuel ALL_ENV_EXIST_SYS_INIT = Ok (Some W) /\
  exists e, In e (fs_envs F) /\ holds_env F (fs_einit F) e = true /\
    ~ exists s, In s (fs_states F) /\ g_env (game_of F) s = e /\
        holds_opt F (fs_sinit F) s = true /\ sys_wins (game_of F) s.
Proof. exact aes_refuted. Qed.
Print Assumptions C04_unsat_sysinit_refuted.
Example C04_instance :
  (exists W, check_realizable (spec_of ex_follow) 9 ALL_ENV_EXIST_SYS_INIT = Ok (Some W)) /\
  check_realizable (spec_of ex_stuck) 9 ALL_ENV_EXIST_SYS_INIT = Ok None /\
  holds_opt ex_stuck (fs_sinit ex_stuck) [1; 0]%Z = true.
Proof.
  split; [eexists; vm_compute; reflexivity|]. split; vm_compute; reflexivity.
Qed.

(** C05 *)
Theorem C05_one_side : forall F, well_scoped F -> all_boolean F -> fs_sgoals F <> [] ->
  forall fuel r, check_realizable (spec_of F) fuel ONE_SIDE_INIT = Ok r ->
  (r <> None <->
   match fs_sinit F with
   | None => forall s, In s (fs_states F) -> holds_opt F (fs_einit F) s = true ->
               sys_wins (game_of F) s
   | Some f => exists s, In s (fs_states F) /\ holds F f s = true /\ sys_wins (game_of F) s
   end).
Proof. exact one_side_verdict. Qed.
Print Assumptions C05_one_side.
Example C05_instance :
  (exists W, check_realizable (spec_of ex_stuck) 9 ONE_SIDE_INIT = Ok (Some W)) /\
  check_realizable (spec_of ex_no_init) 9 ONE_SIDE_INIT = Ok None.
Proof. split; [eexists|]; vm_compute; reflexivity. Qed.

(** C37: for every system goal the arrays form a ladder (Levels.v) from the empty
    set to the winning set. [Good] BDDs are functions of the current state. *)
Theorem C37_sublevels_are_ladders : forall ne ns et st egs sgs,
  no_primed_sys ne ns et -> Forall (Good ne ns) egs -> Forall (Good ne ns) sgs ->
  0 < length sgs -> 0 < length egs ->
  forall fuel0 W, compute_winning_set_BDD ne ns et st fuel0 egs sgs = Ok W ->
  forall fuel R, compute_sublevel_sets ne ns et st fuel W egs sgs = Ok (Some R) ->
  length R = length sgs /\
  forall i, i < length sgs -> exists K,
    let Ys := fst (nth i R ([], [])) in
    let Xs := snd (nth i R ([], [])) in
    let set := evS (ne + ns) in
    let d := bZero (2 * (ne + ns)) in
    length Ys = S K /\ length Xs = S K /\
    is_ladder (bgame ne ns et st egs sgs) (set (nth i sgs d)) (set W)
      (fun r => set (nth r egs d)) (length egs)
      K (fun j => set (nth j Ys d)) (fun j r => set (nth r (nth j Xs []) d)).
Proof. intros ne ns et st egs sgs H1 H2 H3 H4 H5 f W HW.
  exact (proj2 (sublevels_ok ne ns et st H1 egs sgs H2 H3 H4 H5 f W HW)). Qed.
Print Assumptions C37_sublevels_are_ladders.
(** one environment and one system variable; SYSTRANS: the system variable may only
    become 1 together with the environment variable; goals x and y: three levels *)
Example C37_instance :
  let st := mk 4 (fun v => implb (nth 3 v 0 =? 1)%Z (nth 2 v 0 =? 1)%Z) in
  let x := mk 4 (fun v => nth 0 v 0 =? 1)%Z in
  let y := mk 4 (fun v => nth 1 v 0 =? 1)%Z in
  match compute_winning_set_BDD 1 1 (bOne 4) st 9 [x] [y] with
  | Ok W => match compute_sublevel_sets 1 1 (bOne 4) st 9 W [x] [y] with
            | Ok (Some [(Ys, _)]) =>
                map (fun Y => filter (fun s => evS 2 Y s) (all_vecs 2)) Ys =
                [[]; [[0;0];[0;1];[1;1]]; [[0;0];[0;1];[1;0];[1;1]]]%Z
            | _ => False
            end
  | _ => False
  end.
Proof. vm_compute. reflexivity. Qed.
