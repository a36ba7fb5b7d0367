(** Properties C06-C11: the strategy returned by synthesize.

    Reading guide. [F], [spec_of], [game_of], [fuel]: see PSolve.v. The strategy
    is a list of nodes ([anode], Automaton.v; the empty list is NULL): a node has
    an address [aid], a state [astate], a goal mode [amode], a reach annotation
    [argrad], an initial flag [ainit], and the addresses of its successors
    [atrans]. [tools_ok F orc alloc] is what is assumed of CUDD's cube generator
    and of malloc (SynthSpec.v). [sgoal F i s]: system goal [i] holds in [s]. *)
From Coq Require Import List ZArith Bool Arith.
From Verif Require Import Base Game Bdd Support EnumProofs Strs Ptree Form Solve FSpec RealProofs
  Automaton AutProofs Synth SynthSpec SynthFindings Examples.
Import ListNotations.
Open Scope nat_scope.

(** C06: transitions obey SYSTRANS (and ENVTRANS, when there is an environment
    variable), and every legal environment move is answered. *)
Theorem C06_safe : forall F, well_scoped F -> all_boolean F -> fs_sgoals F <> [] ->
  forall orc alloc, tools_ok F orc alloc ->
  forall fuel flags A, synthesize (spec_of F) orc alloc fuel flags = Ok A ->
  forall x y, In x A -> In y A -> In (aid y) (atrans x) ->
    g_str (game_of F) (astate x) (astate y) = true /\
    (fs_evars F <> [] -> g_etr (game_of F) (astate x) (g_env (game_of F) (astate y)) = true).
Proof. intros F H1 H2 H3 orc alloc [H4 H5]. exact (r_safe F H1 H2 H3 orc alloc H4 H5). Qed.
Print Assumptions C06_safe.
Theorem C06_never_stuck : forall F, well_scoped F -> all_boolean F -> fs_sgoals F <> [] ->
  forall orc alloc, tools_ok F orc alloc ->
  forall fuel flags A, synthesize (spec_of F) orc alloc fuel flags = Ok A ->
  forall x e, In x A -> legal_env (game_of F) (astate x) e ->
  exists y, In y A /\ In (aid y) (atrans x) /\ g_env (game_of F) (astate y) = e.
Proof. intros F H1 H2 H3 orc alloc [H4 H5]. exact (r_answer F H1 H2 H3 orc alloc H4 H5). Qed.
Print Assumptions C06_never_stuck.
(** without environment variables the strategy can contain transitions that
    ENVTRANS forbids *)
Theorem C06_envtrans_no_env_refuted : exists F orc alloc fuel A x y,
  well_scoped F /\ all_boolean F /\ fs_sgoals F <> [] /\ tools_ok F orc alloc /\
  synthesize (spec_of F) orc alloc fuel ALL_INIT = Ok A /\
  In x A /\ In y A /\ In (aid y) (atrans x) /\
  g_etr (game_of F) (astate x) (g_env (game_of F) (astate y)) = false.
Proof. exact envtrans_refuted. Qed.
Print Assumptions C06_envtrans_no_env_refuted.

(** C07. Without environment variables the path must obey ENVTRANS. *)
Theorem C07_live : forall F, well_scoped F -> all_boolean F -> fs_sgoals F <> [] ->
  forall orc alloc, tools_ok F orc alloc ->
  forall fuel flags A, synthesize (spec_of F) orc alloc fuel flags = Ok A ->
  forall p : nat -> anode,
    (forall t, In (p t) A /\ In (aid (p (S t))) (atrans (p t))) ->
    (fs_evars F = [] -> forall t, g_etr (game_of F) (astate (p t)) [] = true) ->
    (forall g, In g (fs_egoals F) -> infinitely_often (holds F g) (fun t => astate (p t))) ->
    forall g, In g (fs_sgoals F) -> infinitely_often (holds F g) (fun t => astate (p t)).
Proof.
  intros F H1 H2 H3 orc alloc [H4 H5] fuel flags A HA p Hp Hd.
  exact (gr1_forms F _ (r_live F H1 H2 H3 orc alloc H4 H5 fuel flags A HA p Hp Hd)).
Qed.
Print Assumptions C07_live.

(** C08. [has_node F A s]: there is a node for [s], in mode 0 or in a mode that
    skips goals which hold in [s]. *)
Theorem C08_all_init : forall F, well_scoped F -> all_boolean F -> fs_sgoals F <> [] ->
  forall orc alloc, tools_ok F orc alloc ->
  forall fuel A, synthesize (spec_of F) orc alloc fuel ALL_INIT = Ok A -> A <> [] ->
  (forall s, initial F s -> has_node F A s) /\
  (forall x, In x A -> ainit x = true -> initial F (astate x)).
Proof.
  intros F H1 H2 H3 orc alloc [H4 H5] fuel A HA.
  exact (r_all_init F H1 H2 H3 orc alloc H4 H5 fuel _ A HA eq_refl).
Qed.
Print Assumptions C08_all_init.
Theorem C08_one_side : forall F, well_scoped F -> all_boolean F -> fs_sgoals F <> [] ->
  forall orc alloc, tools_ok F orc alloc ->
  forall fuel A, synthesize (spec_of F) orc alloc fuel ONE_SIDE_INIT = Ok A -> A <> [] ->
  match fs_sinit F with
  | Some f => (exists s, has_node F A s /\ holds F f s = true) /\
      (forall x, In x A -> ainit x = true -> holds F f (astate x) = true)
  | None => (forall s, In s (fs_states F) -> holds_opt F (fs_einit F) s = true -> has_node F A s) /\
      (forall x, In x A -> ainit x = true -> holds_opt F (fs_einit F) (astate x) = true)
  end.
Proof.
  intros F H1 H2 H3 orc alloc [H4 H5] fuel A HA.
  exact (r_one_side F H1 H2 H3 orc alloc H4 H5 fuel _ A HA eq_refl).
Qed.
Print Assumptions C08_one_side.
Theorem C08_all_env_exist_sys : forall F, well_scoped F -> all_boolean F -> fs_sgoals F <> [] ->
  forall orc alloc, tools_ok F orc alloc -> separated F ->
  forall fuel A, synthesize (spec_of F) orc alloc fuel ALL_ENV_EXIST_SYS_INIT = Ok A -> A <> [] ->
  (forall e, In e (fs_envs F) -> holds_env F (fs_einit F) e = true ->
     exists s, has_node F A s /\ g_env (game_of F) s = e /\ holds_opt F (fs_sinit F) s = true) /\
  (forall x, In x A -> ainit x = true ->
     holds_env F (fs_einit F) (g_env (game_of F) (astate x)) = true /\
     holds_opt F (fs_sinit F) (astate x) = true).
Proof.
  intros F H1 H2 H3 orc alloc [H4 H5] Hs.
  exact (r_aes F H1 H2 H3 orc alloc H4 H5 Hs).
Qed.
Print Assumptions C08_all_env_exist_sys.
(** the node of an initial state need not carry the initial flag *)
Theorem C08_initial_flag_refuted : exists F orc alloc fuel A s,
  well_scoped F /\ all_boolean F /\ fs_sgoals F <> [] /\ tools_ok F orc alloc /\
  synthesize (spec_of F) orc alloc fuel ALL_INIT = Ok A /\ A <> [] /\
  initial F s /\ forall x, In x A -> astate x = s -> ainit x = false.
Proof. exact flag_refuted. Qed.
Print Assumptions C08_initial_flag_refuted.

(** C09 *)
Theorem C09_all_init : forall F, well_scoped F -> all_boolean F -> fs_sgoals F <> [] ->
  forall orc alloc, tools_ok F orc alloc ->
  fs_evars F <> [] \/ (forall s, In s (fs_states F) -> g_etr (game_of F) s [] = true) ->
  forall f W, check_realizable (spec_of F) f ALL_INIT = Ok (Some W) ->
  exists N, forall fuel, N <= fuel -> exists A,
    synthesize (spec_of F) orc alloc fuel ALL_INIT = Ok A /\ A <> [].
Proof.
  intros F H1 H2 H3 orc alloc [H4 H5]. exact (t_all_init F H1 H2 H3 orc alloc H4 H5).
Qed.
Print Assumptions C09_all_init.
Theorem C09_one_side : forall F, well_scoped F -> all_boolean F -> fs_sgoals F <> [] ->
  forall orc alloc, tools_ok F orc alloc ->
  fs_evars F <> [] \/ (forall s, In s (fs_states F) -> g_etr (game_of F) s [] = true) ->
  forall f W, check_realizable (spec_of F) f ONE_SIDE_INIT = Ok (Some W) ->
  (exists s, In s (fs_states F) /\ holds_opt F (fs_einit F) s = true) ->
  exists N, forall fuel, N <= fuel -> exists A,
    synthesize (spec_of F) orc alloc fuel ONE_SIDE_INIT = Ok A /\ A <> [].
Proof.
  intros F H1 H2 H3 orc alloc [H4 H5]. exact (t_one_side F H1 H2 H3 orc alloc H4 H5).
Qed.
Print Assumptions C09_one_side.
Theorem C09_all_env_exist_sys : forall F, well_scoped F -> all_boolean F -> fs_sgoals F <> [] ->
  forall orc alloc, tools_ok F orc alloc ->
  fs_evars F <> [] \/ (forall s, In s (fs_states F) -> g_etr (game_of F) s [] = true) ->
  separated F ->
  forall f W, check_realizable (spec_of F) f ALL_ENV_EXIST_SYS_INIT = Ok (Some W) ->
  (exists s, In s (fs_states F) /\ holds_opt F (fs_sinit F) s = true) ->
  (exists e, In e (fs_envs F) /\ holds_env F (fs_einit F) e = true) ->
  exists N, forall fuel, N <= fuel -> exists A,
    synthesize (spec_of F) orc alloc fuel ALL_ENV_EXIST_SYS_INIT = Ok A /\ A <> [].
Proof.
  intros F H1 H2 H3 orc alloc [H4 H5]. exact (t_aes F H1 H2 H3 orc alloc H4 H5).
Qed.
Print Assumptions C09_all_env_exist_sys.
(** without environment variables and with an ENVTRANS that fails in the initial
    state: realizable, yet NULL *)
Theorem C09_no_env_refuted : exists F orc alloc f W fuel,
  well_scoped F /\ all_boolean F /\ fs_sgoals F <> [] /\ tools_ok F orc alloc /\
  check_realizable (spec_of F) f ALL_INIT = Ok (Some W) /\ (exists s, initial F s) /\
  synthesize (spec_of F) orc alloc fuel ALL_INIT = Ok [].
Proof. exact no_env_refuted. Qed.
Print Assumptions C09_no_env_refuted.
(** with an unsatisfiable SYSINIT check_realizable can answer "realizable" for an
    empty winning set, and synthesize then reads outside the level-set arrays *)
Theorem C09_unsat_sysinit_refuted : exists F orc alloc f W fuel,
  well_scoped F /\ all_boolean F /\ fs_sgoals F <> [] /\ tools_ok F orc alloc /\
  check_realizable (spec_of F) f ALL_ENV_EXIST_SYS_INIT = Ok (Some W) /\
  (exists e, In e (fs_envs F) /\ holds_env F (fs_einit F) e = true) /\
  synthesize (spec_of F) orc alloc fuel ALL_ENV_EXIST_SYS_INIT = Crash.
Proof. exact empty_refuted. Qed.
Print Assumptions C09_unsat_sysinit_refuted.
(** without an environment initialization: realizable, yet NULL *)
Theorem C09_no_initial_state_refuted : exists F orc alloc f W fuel,
  well_scoped F /\ all_boolean F /\ fs_sgoals F <> [] /\ tools_ok F orc alloc /\ separated F /\
  fs_evars F <> [] /\
  check_realizable (spec_of F) f ALL_ENV_EXIST_SYS_INIT = Ok (Some W) /\
  synthesize (spec_of F) orc alloc fuel ALL_ENV_EXIST_SYS_INIT = Ok [].
Proof. exact no_initial_refuted. Qed.
Print Assumptions C09_no_initial_state_refuted.

(** C10 *)
Theorem C10_well_formed : forall F, well_scoped F -> all_boolean F -> fs_sgoals F <> [] ->
  forall orc alloc, tools_ok F orc alloc ->
  forall fuel flags A, synthesize (spec_of F) orc alloc fuel flags = Ok A ->
  NoDup (map aid A) /\
  (forall x y, In x A -> In y A -> astate x = astate y -> amode x = amode y -> x = y) /\
  (forall x t, In x A -> In t (atrans x) -> exists y, In y A /\ aid y = t) /\
  (forall x, In x A -> In (astate x) (fs_states F) /\
     (0 <= amode x < Z.of_nat (length (fs_sgoals F)))%Z).
Proof.
  intros F H1 H2 H3 orc alloc [H4 H5] fuel flags A HA.
  exact (conj (r_ids F H1 H2 H3 orc alloc H4 H5 fuel flags A HA)
        (conj (r_key F H1 H2 H3 orc alloc H4 H5 fuel flags A HA)
        (conj (r_closed F H1 H2 H3 orc alloc H4 H5 fuel flags A HA)
              (r_wf F H1 H2 H3 orc alloc H4 H5 fuel flags A HA)))).
Qed.
Print Assumptions C10_well_formed.
Theorem C10_deterministic : forall F, well_scoped F -> all_boolean F -> fs_sgoals F <> [] ->
  forall orc alloc, tools_ok F orc alloc ->
  forall fuel flags A, synthesize (spec_of F) orc alloc fuel flags = Ok A ->
  forall x a b y z, In x A -> In y A -> In z A ->
    nth_error (atrans x) a = Some (aid y) -> nth_error (atrans x) b = Some (aid z) ->
    g_env (game_of F) (astate y) = g_env (game_of F) (astate z) -> a = b.
Proof. intros F H1 H2 H3 orc alloc [H4 H5]. exact (r_det F H1 H2 H3 orc alloc H4 H5). Qed.
Print Assumptions C10_deterministic.

(** C11. The mode advances by [c] goals (cyclically), all of which hold in the
    target state; it stays iff the current goal does not hold there. *)
Theorem C11_modes : forall F, well_scoped F -> all_boolean F -> fs_sgoals F <> [] ->
  forall orc alloc, tools_ok F orc alloc ->
  forall fuel flags A, synthesize (spec_of F) orc alloc fuel flags = Ok A ->
  forall x y, In x A -> In y A -> In (aid y) (atrans x) ->
  let k := length (fs_sgoals F) in
  exists i c, i < k /\ amode x = Z.of_nat i /\ amode y = Z.of_nat ((i + c) mod k) /\
    (forall d, d < c -> sgoal F ((i + d) mod k) (astate y) = true) /\
    (0 < c <-> sgoal F i (astate y) = true).
Proof. intros F H1 H2 H3 orc alloc [H4 H5]. exact (r_mode F H1 H2 H3 orc alloc H4 H5). Qed.
Print Assumptions C11_modes.
Theorem C11_reach_annotation : forall F, well_scoped F -> all_boolean F -> fs_sgoals F <> [] ->
  forall orc alloc, tools_ok F orc alloc ->
  forall fuel flags A, synthesize (spec_of F) orc alloc fuel flags = Ok A ->
  forall x y, In x A -> In y A -> In (aid y) (atrans x) ->
    (0 <= argrad x)%Z /\
    (amode x = amode y -> (0 < argrad x)%Z -> (argrad y <= argrad x)%Z).
Proof. intros F H1 H2 H3 orc alloc [H4 H5]. exact (r_rgrad F H1 H2 H3 orc alloc H4 H5). Qed.
Print Assumptions C11_reach_annotation.
Theorem C11_annotation_zero : forall F, well_scoped F -> all_boolean F -> fs_sgoals F <> [] ->
  forall orc alloc, tools_ok F orc alloc ->
  forall fuel flags A, synthesize (spec_of F) orc alloc fuel flags = Ok A ->
  forall x, In x A -> argrad x = 0%Z ->
  forall i, i < length (fs_sgoals F) -> sgoal F i (astate x) = true.
Proof. intros F H1 H2 H3 orc alloc [H4 H5]. exact (r_rgrad0 F H1 H2 H3 orc alloc H4 H5). Qed.
Print Assumptions C11_annotation_zero.

(** C41: every node of the strategy, reachable or not, carries a winning state. *)
Theorem C41_nodes_winning : forall F, well_scoped F -> all_boolean F -> fs_sgoals F <> [] ->
  forall orc alloc, tools_ok F orc alloc ->
  forall fuel flags A, synthesize (spec_of F) orc alloc fuel flags = Ok A ->
  forall x, In x A -> sys_wins (game_of F) (astate x).
Proof. intros F H1 H2 H3 orc alloc [H4 H5]. exact (r_wins F H1 H2 H3 orc alloc H4 H5). Qed.
Print Assumptions C41_nodes_winning.

(** The hypotheses are met by [ex_follow], whose strategy has three nodes and six
    transitions (the two goals y and !y are visited in turn while x recurs). *)
Example C06_C11_instance :
  well_scoped ex_follow /\ all_boolean ex_follow /\ fs_sgoals ex_follow <> [] /\
  separated ex_follow /\ tools_ok ex_follow robdd_oracle alloc_max /\
  (exists W, check_realizable (spec_of ex_follow) 9 ALL_INIT = Ok (Some W)) /\
  exists A, synthesize (spec_of ex_follow) robdd_oracle alloc_max 30 ALL_INIT = Ok A /\
    map (fun x => (astate x, amode x, argrad x, ainit x)) A =
      [([1; 0], 0, 1, false); ([1; 1], 1, 1, false); ([0; 0], 0, 1, true)]%Z /\
    map (fun x => length (atrans x)) A = [2; 2; 2].
Proof. exact follow_instance. Qed.
