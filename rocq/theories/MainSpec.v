(** Specification: what it means that a strategy with integer-valued states is
    right for a specification. Not a model of code. *)
From Coq Require Import List ZArith Bool.
From Verif Require Import Base Game Support EnumProofs Ptree Form Solve FSpec RealProofs Automaton AutProofs SynthSpec Nonbool RSpec Main.
Import ListNotations.

Record implements (R : rspec) (A : aut) : Prop := {
  (** node addresses are distinct and every transition leads to a node *)
  im_ids : NoDup (ids A);
  im_closed : forall x t, In x A -> In t (atrans x) -> exists y, In y A /\ aid y = t;
  (** states assign to every variable a value of its domain *)
  im_states : forall x, In x A -> In (astate x) (fs_states (fspec_of R));
  (** transitions obey SYSTRANS, and ENVTRANS if there are environment variables *)
  im_safe : forall x y, In x A -> In y A -> In (aid y) (atrans x) ->
    g_str (game_of (fspec_of R)) (astate x) (astate y) = true /\
    (rs_evars R <> [] ->
     g_etr (game_of (fspec_of R)) (astate x) (g_env (game_of (fspec_of R)) (astate y)) = true);
  (** every environment move that ENVTRANS allows is answered *)
  im_answer : forall x e, In x A -> legal_env (game_of (fspec_of R)) (astate x) e ->
    exists y, In y A /\ In (aid y) (atrans x) /\ g_env (game_of (fspec_of R)) (astate y) = e;
  (** on an infinite path along which every ENVGOAL holds infinitely often, every
      SYSGOAL does *)
  im_live : forall p : nat -> anode,
    (forall t, In (p t) A /\ In (aid (p (S t))) (atrans (p t))) ->
    (rs_evars R = [] -> forall t, g_etr (game_of (fspec_of R)) (astate (p t)) [] = true) ->
    (forall g, In g (rs_egoals R) -> infinitely_often (holds (fspec_of R) g) (fun t => astate (p t))) ->
    forall g, In g (rs_sgoals R) -> infinitely_often (holds (fspec_of R) g) (fun t => astate (p t));
  (** every node is a winning state of the game *)
  im_wins : forall x, In x A -> sys_wins (game_of (fspec_of R)) (astate x)
}.

(** where the strategy starts, per interpretation of the initial conditions: nodes are
    marked initial only where play may start, and there is a node wherever it has to *)
Definition starts (R : rspec) (flags : init_flags_t) (A : aut) : Prop :=
  let F := fspec_of R in
  let node s := exists x, In x A /\ astate x = s in
  (forall x, In x A -> ainit x = true -> start F flags (astate x)) /\
  match flags with
  | ALL_INIT => forall s, initial F s -> node s
  | ALL_ENV_EXIST_SYS_INIT => forall e, In e (fs_envs F) -> holds_env F (rs_einit R) e = true ->
      exists s, node s /\ g_env (game_of F) s = e /\ holds_opt F (rs_sinit R) s = true
  | ONE_SIDE_INIT =>
      match rs_sinit R with
      | Some f => exists s, node s /\ holds F f s = true
      | None => forall s, In s (fs_states F) -> holds_opt F (rs_einit R) s = true -> node s
      end
  | UNDEFINED_INIT => True
  end.

(** the answer of a run that synthesizes, when the specification is realizable iff
    [P]: a strategy over the declared variables, or the verdict. [SynthFailed] (exit
    with an error after "realizable") is left open. *)
Definition right_answer (R : rspec) (flags : init_flags_t) (P : Prop) (r : main_result) : Prop :=
  match r with
  | Strategy A ev sv =>
      P /\ ev = vlist (rs_evars R) /\ sv = vlist (rs_svars R) /\ A <> [] /\
      implements R A /\ starts R flags A /\
      forall x, In x A -> reached (fspec_of R) (start (fspec_of R) flags) (astate x)
  | NotRealizable => ~ P
  | SynthFailed => P
  | Realizable | SpecError => False
  end.
(** the answer of a run that decides realizability *)
Definition right_verdict (P : Prop) (r : main_result) : Prop :=
  match r with
  | Realizable => P
  | NotRealizable => ~ P
  | _ => False
  end.

(** assumptions on the cube generator and on the allocator *)
Definition tools (R : rspec) (orc : oracle) (alloc : nat -> aut -> nat) : Prop :=
  oracle_ok (2 * length (all_bits (rs_vars R))) orc /\ forall t A, ~ In (alloc t A) (ids A).
(** assumptions on the specification *)
Definition usable (R : rspec) : Prop :=
  well_typed R /\ NoDup (names (rs_vars R)) /\ bits_distinct (rs_vars R) /\
  prefix_free (rs_vars R) /\ int_domains (rs_vars R).
(** a run that ends answers right; without environment variables, termination is
    claimed if there is no ENVTRANS rule *)
Definition synth_right (R : rspec) (orc : oracle) (alloc : nat -> aut -> nat) (flags : init_flags_t) (P : Prop) : Prop :=
  exists N, forall fuel, (N <= fuel)%nat -> forall r,
    gr1c_main orc alloc fuel MODE_SYNTHESIS flags (raw_of R) = Ok r -> right_answer R flags P r.
Definition synth_ends (R : rspec) (orc : oracle) (alloc : nat -> aut -> nat) (flags : init_flags_t) : Prop :=
  rs_evars R <> [] \/ rs_etrans R = [] ->
  exists N, forall fuel, (N <= fuel)%nat -> exists r,
    gr1c_main orc alloc fuel MODE_SYNTHESIS flags (raw_of R) = Ok r /\ r <> SynthFailed.
