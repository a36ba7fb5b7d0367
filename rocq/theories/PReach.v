(** Property C38: the one-shot reachability synthesizer (rg, and the function used by
    the patching code).

    Reading guide. [F], [spec_of], [game_of], [tools_ok], [initial]: see PSolve.v and
    PSynth.v. [rg_synthesize sp orc alloc fuel] is the strategy rg computes (Reach.v); the
    empty list is NULL. [rtarget F]: the states of the system goal (none if there is no
    system goal; rg refuses more than one). [rentry F]: the initial states.
    [reach_wins G target s] (ReachSpec.v): from [s] the system can enforce, with legal
    moves only, that [target] is reached if the environment goals hold infinitely often.
    [within N G]: the game restricted to the states of [N]. [among l s]: [s] is in the
    list [l]. [reach_strategy] lists what the automaton must be (ReachSpec.v). *)
From Coq Require Import List ZArith Bool Arith.
From Verif Require Import Base Game Bdd BGame Support EnumProofs Ops OpsProofs Strs Ptree Form Solve
  FSpec RealProofs Automaton AutProofs Synth SynthSpec Reach ReachSpec ReachLevels ReachProofs
  ReachExamples.
Import ListNotations.
Open Scope nat_scope.

(** every transition is legal, a target node has none, every legal environment move is
    answered *)
Theorem C38_rg_safe : forall F, well_scoped F -> all_boolean F ->
  forall orc alloc, tools_ok F orc alloc ->
  forall fuel A, rg_synthesize (spec_of F) orc alloc fuel = Ok A -> A <> [] ->
  (forall x y, In x A -> In y A -> In (aid y) (atrans x) ->
     rtarget F (astate x) = false /\ g_str (game_of F) (astate x) (astate y) = true /\
     (fs_evars F <> [] -> legal_env (game_of F) (astate x) (g_env (game_of F) (astate y)))) /\
  (forall x e, In x A -> rtarget F (astate x) = false -> legal_env (game_of F) (astate x) e ->
     exists y, In y A /\ In (aid y) (atrans x) /\ g_env (game_of F) (astate y) = e).
Proof.
  intros F H1 H2 orc alloc [H3 H4] fuel A HA Hne.
  pose proof (rg_sound F H1 H2 orc alloc H3 H4 fuel A HA Hne) as HS. split.
  - intros x y Hx Hy Ht. destruct (rs_safe _ _ _ _ _ HS x y Hx Hy Ht) as (K1 & K2 & K3).
    split; [exact K1|]. split; [exact K2|]. intros Hv. apply K3.
    destruct (fs_evars F); [congruence|reflexivity].
  - intros x e Hx Ht He. destruct (rs_answer _ _ _ _ _ HS x e Hx Ht He) as (y & K1 & K2 & K3 & _).
    exists y. auto.
Qed.
Print Assumptions C38_rg_safe.
(** an infinite run along which the environment meets its goals reaches the target (so,
    as target nodes have no transition, there is none); a run that ends does so in the
    target or where the environment has no legal move. Without environment variables
    the run must obey ENVTRANS. *)
Theorem C38_rg_reaches : forall F, well_scoped F -> all_boolean F ->
  forall orc alloc, tools_ok F orc alloc ->
  forall fuel A, rg_synthesize (spec_of F) orc alloc fuel = Ok A -> A <> [] ->
  (forall p : nat -> anode,
     (forall t, In (p t) A /\ In (aid (p (S t))) (atrans (p t))) ->
     (fs_evars F = [] -> forall t, g_etr (game_of F) (astate (p t)) (g_env (game_of F) (astate (p t))) = true) ->
     (forall g, In g (fs_egoals F) -> infinitely_often (holds F g) (fun t => astate (p t))) ->
     exists t, rtarget F (astate (p t)) = true) /\
  (forall x, In x A -> atrans x = [] ->
     rtarget F (astate x) = true \/ forall e, ~ legal_env (game_of F) (astate x) e).
Proof.
  intros F H1 H2 orc alloc [H3 H4] fuel A HA Hne.
  pose proof (rg_sound F H1 H2 orc alloc H3 H4 fuel A HA Hne) as HS. split.
  - intros p Hp Hv Hg. apply (rs_live _ _ _ _ _ HS p Hp).
    + intros Hn. apply Hv. destruct (fs_evars F); [reflexivity|discriminate].
    + intros g Hin. apply in_map_iff in Hin. destruct Hin as (f & <- & Hf). auto.
  - exact (rs_end _ _ _ _ _ HS).
Qed.
Print Assumptions C38_rg_reaches.
(** the same and more: one node per state, exactly one transition for each environment
    move, all initial states present, nothing unreachable, annotation 0 exactly on the
    target and never growing *)
Theorem C38_rg_strategy : forall F, well_scoped F -> all_boolean F ->
  forall orc alloc, tools_ok F orc alloc ->
  forall fuel A, rg_synthesize (spec_of F) orc alloc fuel = Ok A -> A <> [] ->
  reach_strategy (game_of F) (rtarget F) (rentry F)
    (match fs_evars F with [] => true | _ => false end) A.
Proof. intros F H1 H2 orc alloc [H3 H4]. exact (rg_sound F H1 H2 orc alloc H3 H4). Qed.
Print Assumptions C38_rg_strategy.
(** rg succeeds exactly when there is an initial state and the target can be enforced
    from each *)
Theorem C38_rg_exact : forall F, well_scoped F -> all_boolean F ->
  forall orc alloc, tools_ok F orc alloc ->
  (fs_evars F <> [] \/ forall s, In s (fs_states F) -> g_etr (game_of F) s [] = true) ->
  exists B, forall fuel, B <= fuel -> exists A, rg_synthesize (spec_of F) orc alloc fuel = Ok A /\
    (A <> [] <-> (exists s, initial F s) /\
       forall s, initial F s -> reach_wins (game_of F) (rtarget F) s).
Proof. intros F H1 H2 orc alloc [H3 H4]. exact (rg_exact F H1 H2 orc alloc H3 H4). Qed.
Print Assumptions C38_rg_exact.
Example C38_example : exists A, rg_synthesize (spec_of ex_reach) robdd_oracle alloc_max 20 = Ok A /\
  A <> [] /\ well_scoped ex_reach /\ all_boolean ex_reach /\
  tools_ok ex_reach robdd_oracle alloc_max /\ fs_egoals ex_reach <> [] /\
  exists x y, In x A /\ In y A /\ In (aid y) (atrans x) /\ rtarget ex_reach (astate y) = true /\
    In (aid x) (atrans x).
Proof.
  eexists. split; [exact ex_reach_run|]. split; [discriminate|]. split; [exact ex_reach_scoped|].
  split; [exact ex_reach_bool|]. split; [apply tools_exist|]. split; [discriminate|].
  eexists. eexists. split; [right; left; reflexivity|]. split; [left; reflexivity|].
  split; [right; left; reflexivity|]. split; [reflexivity|]. left. reflexivity.
Qed.

(** The function behind it, with a set [N] of permitted states that contains the target,
    on arrays of states (the form the patching code uses). *)
Theorem C38_lists_strategy : forall ne ns orc alloc, oracle_ok (2 * (ne + ns)) orc ->
  (forall t A, ~ In (alloc t A) (ids A)) ->
  forall Entry Exit N et st egs, no_primed_sys ne ns et -> Good ne ns N -> Forall (Good ne ns) egs ->
  Forall (bitvec (ne + ns)) Entry -> Forall (bitvec (ne + ns)) Exit ->
  (forall s, In s Exit -> evS (ne + ns) N s = true) ->
  forall fuel A, synthesize_reachgame ne ns orc alloc fuel Entry Exit et st egs N = Ok A -> A <> [] ->
  reach_strategy (within (evS (ne + ns) N) (bgame ne ns et st egs [])) (among Exit) (among Entry)
    (ne =? 0) A /\
  forall s, In s Entry -> evS (ne + ns) N s = true /\
    reach_wins (within (evS (ne + ns) N) (bgame ne ns et st egs [])) (among Exit) s.
Proof. exact list_sound. Qed.
Print Assumptions C38_lists_strategy.
Theorem C38_lists_exact : forall ne ns orc alloc, oracle_ok (2 * (ne + ns)) orc ->
  (forall t A, ~ In (alloc t A) (ids A)) ->
  forall Entry Exit N et st egs, no_primed_sys ne ns et -> Good ne ns N -> Forall (Good ne ns) egs ->
  Forall (bitvec (ne + ns)) Entry -> Forall (bitvec (ne + ns)) Exit ->
  (forall s, In s Exit -> evS (ne + ns) N s = true) ->
  egs <> [] ->
  (0 < ne \/ forall s, bitvec (ne + ns) s ->
     g_etr (within (evS (ne + ns) N) (bgame ne ns et st egs [])) s [] = true) ->
  exists B, forall fuel, B <= fuel -> exists A,
    synthesize_reachgame ne ns orc alloc fuel Entry Exit et st egs N = Ok A /\
    (A <> [] <-> Entry <> [] /\
       forall s, In s Entry -> evS (ne + ns) N s = true /\
         reach_wins (within (evS (ne + ns) N) (bgame ne ns et st egs [])) (among Exit) s).
Proof. exact list_exact. Qed.
Print Assumptions C38_lists_exact.

(** Findings. If the target is not inside [N], the strategy can run forever without
    reaching it. *)
Theorem C38_target_outside_refuted :
  exists ne ns orc alloc Entry Exit et st egs N fuel A (p : nat -> anode),
  oracle_ok (2 * (ne + ns)) orc /\ (forall t A, ~ In (alloc t A) (ids A)) /\
  no_primed_sys ne ns et /\ Good ne ns N /\ Forall (Good ne ns) egs /\
  Forall (bitvec (ne + ns)) Entry /\ Forall (bitvec (ne + ns)) Exit /\
  synthesize_reachgame ne ns orc alloc fuel Entry Exit et st egs N = Ok A /\
  (forall t, In (p t) A /\ In (aid (p (S t))) (atrans (p t))) /\
  (forall t, g_etr (bgame ne ns et st egs []) (astate (p t)) [] = true) /\
  (forall t g, In g egs -> evS (ne + ns) g (astate (p t)) = true) /\
  forall t, ~ In (astate (p t)) Exit.
Proof. exact outside_refuted. Qed.
Print Assumptions C38_target_outside_refuted.
(** without an environment goal the function fails on games that can be won *)
Theorem C38_no_egoal_refuted : exists ne ns orc alloc Entry Exit et st N fuel,
  oracle_ok (2 * (ne + ns)) orc /\ (forall t A, ~ In (alloc t A) (ids A)) /\
  no_primed_sys ne ns et /\ Good ne ns N /\
  Forall (bitvec (ne + ns)) Entry /\ Forall (bitvec (ne + ns)) Exit /\
  (forall s, In s Exit -> evS (ne + ns) N s = true) /\
  Entry <> [] /\
  (forall s, In s Entry -> evS (ne + ns) N s = true /\
     reach_wins (within (evS (ne + ns) N) (bgame ne ns et st [] [])) (among Exit) s) /\
  synthesize_reachgame ne ns orc alloc fuel Entry Exit et st [] N = Ok [].
Proof. exact no_egoal_refuted. Qed.
Print Assumptions C38_no_egoal_refuted.
(** without environment variables a false ENVTRANS makes rg fail although no move of the
    environment need be answered *)
Theorem C38_no_env_refuted : exists F orc alloc fuel,
  well_scoped F /\ all_boolean F /\ tools_ok F orc alloc /\
  (exists s, initial F s) /\ (forall s, initial F s -> reach_wins (game_of F) (rtarget F) s) /\
  rg_synthesize (spec_of F) orc alloc fuel = Ok [].
Proof. exact frozen_refuted. Qed.
Print Assumptions C38_no_env_refuted.
(** no node of the strategy is marked as initial *)
Theorem C38_never_initial : forall F, well_scoped F -> all_boolean F ->
  forall orc alloc, tools_ok F orc alloc ->
  forall fuel A, rg_synthesize (spec_of F) orc alloc fuel = Ok A ->
  forall x, In x A -> ainit x = false.
Proof. intros F H1 H2 orc alloc [H3 H4]. exact (rg_noinit F H1 H2 orc alloc H3 H4). Qed.
Print Assumptions C38_never_initial.
