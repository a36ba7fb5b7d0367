(** Specification: strategies after changes of the rules of the game
    (include/patching.h:16-37; the change file is described in doc/formats.md:125-146, the
    meaning of the commands in doc/interaction.md, as in InteractSpec.v). Not a model of code, except
    [change_file], which says how a change file is written. *)
From Coq Require Import List ZArith Bool Arith Ascii String.
From Verif Require Import Base Game Support Strs Ptree Form Solve FSpec Automaton AutProofs SynthSpec AutIO ReadState ReadSpec
  HotSpec Interactive InteractSpec AutIOSpec.
Import ListNotations.
Open Scope string_scope.
Open Scope list_scope.
Open Scope nat_scope.

(** the commands of a change file *)
Definition is_change (c : command) : bool :=
  match c with
  | RestrictEnv _ _ | RestrictSys _ _ | RelaxEnv _ _ | RelaxSys _ _ | BlockSys _ => true
  | _ => false
  end.
(** the rules after the changes [l] *)
Definition changed (F : fspec) (l : list command) : rules := fold_left (fun r c => edit F c r) l (loaded F).

(** the automaton is a strategy for the specification with rules [r]. Where the
    environment's rules were restricted there may still be transitions for moves it can
    no longer make. *)
Record serves (F : fspec) (r : rules) (A : aut) : Prop := {
  sv_ids : NoDup (ids A);
  sv_closed : forall x t, In x A -> In t (atrans x) -> exists y, In y A /\ aid y = t;
  sv_states : forall x, In x A -> In (astate x) (fs_states F);
  sv_safe : forall x y, In x A -> In y A -> In (aid y) (atrans x) ->
    may_sys r (astate x) (astate y) = true /\
    (fs_evars F <> [] -> may_env r (astate x) (g_env (game_of F) (astate y)) = true \/
                         may_env (loaded F) (astate x) (g_env (game_of F) (astate y)) = true);
  sv_answer : forall x e, In x A -> legal_env (game_with F r) (astate x) e ->
    exists y, In y A /\ In (aid y) (atrans x) /\ g_env (game_of F) (astate y) = e;
  sv_live : forall p : nat -> anode,
    (forall t, In (p t) A /\ In (aid (p (S t))) (atrans (p t))) ->
    (fs_evars F = [] -> forall t, may_env r (astate (p t)) [] = true) ->
    (forall g, In g (fs_egoals F) -> infinitely_often (holds F g) (fun t => astate (p t))) ->
    forall g, In g (fs_sgoals F) -> infinitely_often (holds F g) (fun t => astate (p t))
}.

(** the command makes [x] unfit: it takes away a transition of [x], or lets the
    environment make a move that no transition of [x] answers *)
Definition unfit_by (F : fspec) (A : aut) (x : anode) (c : command) : Prop :=
  match c with
  | RestrictSys s s' => astate x = s /\ exists y, In y A /\ In (aid y) (atrans x) /\ astate y = s'
  | RelaxEnv s e => astate x = s /\ forall y, In y A -> In (aid y) (atrans x) -> g_env (game_of F) (astate y) <> e
  | BlockSys v => exists y, In y A /\ In (aid y) (atrans x) /\ out_of F (astate y) = v
  | _ => False
  end.
Definition unfit (F : fspec) (A : aut) (l : list command) (x : anode) : Prop :=
  exists c, In c l /\ unfit_by F A x c.
(** a goal is to be patched if a node where it is sought is unfit *)
Definition broken (F : fspec) (A : aut) (l : list command) (h : Z) : Prop :=
  exists x, In x A /\ amode x = h /\ unfit F A l x.

(** what patching needs of the strategy, besides [correct] and [in_order] *)
Record patchable (F : fspec) (N : list vec) (l : list command) (A : aut) : Prop := {
  (** there are no two nodes with the same state and goal *)
  pt_unique : forall x y, In x A -> In y A -> astate x = astate y -> amode x = amode y -> x = y;
  (** the reach annotation does not grow while the same goal is sought, except after
      states where all goals hold, and not even then within N *)
  pt_rgrad : forall x, In x A -> (0 <= argrad x)%Z;
  pt_down : forall x y, In x A -> In y A -> In (aid y) (atrans x) -> amode y = amode x ->
    (argrad y <= argrad x)%Z \/
    (forall g, In g (fs_sgoals F) -> holds F g (astate x) = true) /\ ~ (In (astate x) N /\ In (astate y) N);
  (** a node of N where a goal to be patched is sought and that can be entered from
      nodes seeking another goal can also be entered from outside of N with the same
      goal *)
  pt_entered : forall x y, In x A -> In y A -> In (aid y) (atrans x) -> amode y <> amode x ->
    In (astate y) N -> broken F A l (amode y) ->
    exists z, In z A /\ amode z = amode y /\ ~ In (astate z) N /\ In (aid y) (atrans z)
}.

(** the initial nodes of [B] are initial nodes of [A]; those of [A] that are outside of N
    or do not seek a goal to be patched are initial nodes of [B] *)
Definition starts_kept (F : fspec) (N : list vec) (l : list command) (A B : aut) : Prop :=
  (forall y, In y B -> ainit y = true -> exists x, In x A /\ ainit x = true /\ astate x = astate y /\ amode x = amode y) /\
  (forall x, In x A -> ainit x = true -> (~ In (astate x) N \/ ~ broken F A l (amode x)) ->
     exists y, In y B /\ ainit y = true /\ astate y = astate x /\ amode y = amode x).

(** the environment can always move *)
Definition env_moves_in (F : fspec) (r : rules) : Prop :=
  forall s, In s (fs_states F) -> exists e, legal_env (game_with F r) s e.

(** the formula is the conjunction of the formulas in the list *)
Inductive parts_of : form -> list form -> Prop :=
| parts_one : forall f, parts_of f [f]
| parts_and : forall f g l l', parts_of f l -> parts_of g l' -> parts_of (FAnd f g) (l ++ l').

(** ** Change files *)
(** the lines [ls] with blank lines and comments in between *)
Inductive with_comments : list string -> list string -> Prop :=
| wc_end : with_comments [] []
| wc_line : forall t ls ts, with_comments ls ts -> with_comments (t :: ls) (t :: ts)
| wc_comment : forall b ls ts, (b = "" \/ exists r, b = String "#" r) -> has_newline b = false -> with_comments ls ts ->
    with_comments ls ((b ++ eol)%string :: ts).
(** the states of N, one in a line, then the commands; no line is longer than the buffer
    of 1024 bytes *)
Definition change_file (N : list vec) (l : list command) (text : string) : Prop :=
  exists ts, with_comments (map (fun s => (join s ++ eol)%string) N ++ map command_text l) ts /\
    (forall t, In t ts -> String.length t < 1024) /\ text = String.concat "" ts.
