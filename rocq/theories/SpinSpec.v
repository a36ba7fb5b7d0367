(** Specification: the verification model that gr1c writes for a strategy, and when a
    strategy deserves to pass it. Not a model of code. *)
From Coq Require Import List ZArith Bool Arith String.
From Verif Require Import Base Game Strs Ptree Form Solve FSpec RSpec Automaton AutProofs SynthSpec HotSpec PromelaSpec.
Import ListNotations.
Open Scope list_scope.
Open Scope string_scope.

(** macros for goals: at least four digits *)
Definition number4 (z : Z) : string :=
  (match String.length (zdec z) with 1%nat => "000" | 2%nat => "00" | 3%nat => "0" | _ => "" end ++ zdec z)%string.
Definition numbered (s : string) (i : nat) : string := (s ++ number4 (Z.of_nat i))%string.
(** the names that the model uses for itself *)
Definition reserved (R : rspec) : list string :=
  (["current_node"; "checketrans"; "checkstrans"; "pmlfault"; "envinit"; "sysinit"; "envtrans"; "systrans"] ++
   map (numbered "envgoal") (seq 0 (List.length (rs_egoals R))) ++
   map (numbered "sysgoal") (seq 0 (List.length (rs_sgoals R))))%list.
(** the variables have names that can be used in the model *)
Record spin_names (R : rspec) : Prop := {
  sn_name : forall x, In x (names (rs_vars R)) -> pname x;
  sn_distinct : NoDup (names (rs_vars R) ++ map nx (names (rs_vars R)))%list;
  sn_fresh : forall x, In x (names (rs_vars R) ++ map nx (names (rs_vars R)))%list -> ~ In x (reserved R)
}.

(** nodes with distinct addresses, transitions that lead to nodes, states that give values
    to the variables *)
Record formed (R : rspec) (A : aut) : Prop := {
  fm_ids : NoDup (ids A);
  fm_closed : forall x t, In x A -> In t (atrans x) -> exists y, In y A /\ aid y = t;
  fm_states : forall x, In x A -> In (astate x) (fs_states (fspec_of R))
}.
(** an infinite path from an initial node *)
Definition from_start (A : aut) (p : nat -> anode) : Prop :=
  (forall t, In (p t) A /\ In (aid (p (S t))) (atrans (p t))) /\ ainit (p 0%nat) = true.
(** what is assumed of the environment along a path, and what is asked of the system *)
Definition assumed (R : rspec) (p : nat -> anode) : Prop :=
  let F := fspec_of R in
  rs_evars R <> [] ->
  holds_opt F (rs_einit R) (astate (p 0%nat)) = true /\
  (forall t, g_etr (game_of F) (astate (p t)) (g_env (game_of F) (astate (p (S t)))) = true) /\
  (forall g, In g (rs_egoals R) -> infinitely_often (holds F g) (fun t => astate (p t))).
Definition asked (R : rspec) (p : nat -> anode) : Prop :=
  let F := fspec_of R in
  holds_opt F (rs_sinit R) (astate (p 0%nat)) = true /\
  (forall t, g_str (game_of F) (astate (p t)) (astate (p (S t))) = true) /\
  (forall g, In g (rs_sgoals R) -> infinitely_often (holds F g) (fun t => astate (p t))).
(** the moves of the environment that its rules allow at a node are answered *)
Definition answered (R : rspec) (A : aut) (x : anode) : Prop :=
  let F := fspec_of R in
  forall e, In e (fs_envs F) -> (rs_evars R <> [] -> g_etr (game_of F) (astate x) e = true) ->
  exists y, In y A /\ In (aid y) (atrans x) /\ g_env (game_of F) (astate y) = e.
(** initial nodes satisfy SYSINIT, at least those that satisfy ENVINIT *)
Definition starts_well (R : rspec) (A : aut) : Prop :=
  forall x, In x A -> ainit x = true ->
    (rs_evars R <> [] -> holds_opt (fspec_of R) (rs_einit R) (astate x) = true) ->
    holds_opt (fspec_of R) (rs_sinit R) (astate x) = true.
(** without environment variables, nothing is assumed of the environment that the
    states do not satisfy anyway *)
Definition env_passive (R : rspec) (A : aut) : Prop :=
  rs_evars R = [] -> forall x, In x A ->
    g_etr (game_of (fspec_of R)) (astate x) [] = true /\
    forall g, In g (rs_egoals R) -> holds (fspec_of R) g (astate x) = true.
Definition quiet (R : rspec) : Prop := rs_evars R = [] -> rs_etrans R = [] /\ rs_egoals R = [].
