(** Specification: strategies for GR(1) specifications whose nodes are labelled with the
    goal they seek, as include/patching.h:75-95 describes them. Not a model of
    code. *)
From Coq Require Import List ZArith Bool Arith.
From Verif Require Import Base Game Strs Ptree Form Solve FSpec Automaton AutProofs SynthSpec.
Import ListNotations.
Open Scope nat_scope.

(** the automaton is a strategy for the specification *)
Record correct (F : fspec) (A : aut) : Prop := {
  (** node addresses are distinct and every transition leads to a node *)
  co_ids : NoDup (ids A);
  co_closed : forall x t, In x A -> In t (atrans x) -> exists y, In y A /\ aid y = t;
  co_states : forall x, In x A -> In (astate x) (fs_states F);
  (** transitions obey SYSTRANS, and ENVTRANS if there are environment variables *)
  co_safe : forall x y, In x A -> In y A -> In (aid y) (atrans x) ->
    g_str (game_of F) (astate x) (astate y) = true /\
    (fs_evars F <> [] -> g_etr (game_of F) (astate x) (g_env (game_of F) (astate y)) = true);
  (** every environment move that ENVTRANS allows is answered *)
  co_answer : forall x e, In x A -> legal_env (game_of F) (astate x) e ->
    exists y, In y A /\ In (aid y) (atrans x) /\ g_env (game_of F) (astate y) = e;
  (** on an infinite path along which every ENVGOAL holds infinitely often, so does
      every SYSGOAL *)
  co_live : forall p : nat -> anode,
    (forall t, In (p t) A /\ In (aid (p (S t))) (atrans (p t))) ->
    (fs_evars F = [] -> forall t, g_etr (game_of F) (astate (p t)) [] = true) ->
    (forall g, In g (fs_egoals F) -> infinitely_often (holds F g) (fun t => astate (p t))) ->
    forall g, In g (fs_sgoals F) -> infinitely_often (holds F g) (fun t => astate (p t))
}.

(** the specification without system goal number [i] *)
Definition without (i : nat) (F : fspec) : fspec := {|
  fs_evars := fs_evars F; fs_svars := fs_svars F;
  fs_einit := fs_einit F; fs_sinit := fs_sinit F;
  fs_etrans := fs_etrans F; fs_strans := fs_strans F;
  fs_egoals := fs_egoals F;
  fs_sgoals := firstn i (fs_sgoals F) ++ skipn (S i) (fs_sgoals F)
|}.

(** the goals are sought in order: the mode of a node is the number of a goal; a
    transition keeps the mode, or advances it by [c] goals all of which hold in the
    state it leads to *)
Definition in_order (F : fspec) (A : aut) : Prop :=
  let k := length (fs_sgoals F) in
  (forall x, In x A -> (0 <= amode x < Z.of_nat k)%Z) /\
  forall x y, In x A -> In y A -> In (aid y) (atrans x) ->
  exists i c, i < k /\ amode x = Z.of_nat i /\ amode y = Z.of_nat ((i + c) mod k) /\
    forall j, j < c -> sgoal F ((i + j) mod k) (astate y) = true.
(** number [i + 1], cyclically *)
Definition after (F : fspec) (i : nat) : nat := S i mod length (fs_sgoals F).
(** goal [i] is never skipped: a transition that makes goal [i + 1] the one sought
    comes from a node where [i] is sought (or [i + 1] already) *)
Definition not_skipped (F : fspec) (i : nat) (A : aut) : Prop :=
  forall x y, In x A -> In y A -> In (aid y) (atrans x) -> amode y = Z.of_nat (after F i) ->
    amode x = Z.of_nat i \/ amode x = Z.of_nat (after F i).

(** nodes where another goal than number [i] or the one after it is sought *)
Definition elsewhere (F : fspec) (i : nat) (x : anode) : Prop :=
  amode x <> Z.of_nat i /\ amode x <> Z.of_nat (after F i).
(** the nodes that are not affected are still there, the initial ones among them *)
Definition keeps (F : fspec) (i : nat) (A B : aut) : Prop :=
  (forall x, In x A -> elsewhere F i x ->
     exists y, In y B /\ astate y = astate x /\ amode y = amode x /\ argrad y = argrad x /\
       ainit y = ainit x) /\
  (forall y, In y B -> ainit y = true -> exists x, In x A /\ astate x = astate y /\ ainit x = true).
(** two goals that no state satisfies at the same time *)
Definition apart (F : fspec) (i j : nat) : Prop :=
  forall s, In s (fs_states F) -> sgoal F i s = true -> sgoal F j s = true -> False.
(** the goals are sought in order, and the next one exactly when the one sought holds in
    the state a transition leads to *)
Definition seeks (F : fspec) (A : aut) : Prop :=
  let k := length (fs_sgoals F) in
  (forall x, In x A -> (0 <= amode x < Z.of_nat k)%Z) /\
  forall x y, In x A -> In y A -> In (aid y) (atrans x) ->
  exists i c, i < k /\ amode x = Z.of_nat i /\ amode y = Z.of_nat ((i + c) mod k) /\
    (forall j, j < c -> sgoal F ((i + j) mod k) (astate y) = true) /\
    (0 < c <-> sgoal F i (astate y) = true).
(** the environment can always move *)
Definition env_moves (F : fspec) : Prop :=
  forall s, In s (fs_states F) -> exists e, legal_env (game_of F) s e.
(** nodes that follow those where goal [i] or the one after it is sought *)
Definition leaves (F : fspec) (i : nat) (A : aut) (y : anode) : Prop :=
  In y A /\ elsewhere F i y /\ exists x, In x A /\ ~ elsewhere F i x /\ In (aid y) (atrans x).
(** there are not more of them than of those *)
Definition exits_fit (F : fspec) (i : nat) (A : aut) : Prop :=
  exists U D, (forall y, leaves F i A y -> In y U) /\
    NoDup D /\ (forall x, In x D -> In x A /\ ~ elsewhere F i x) /\ length U <= length D.
(** goal [i] becomes the one sought along some transition *)
Definition taken_up (F : fspec) (i : nat) (A : aut) : Prop :=
  exists x y, In x A /\ In y A /\ In (aid y) (atrans x) /\ amode x <> Z.of_nat i /\ amode y = Z.of_nat i.
