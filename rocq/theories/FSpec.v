(** Specification: GR(1) specifications written with formulas, and the game each
    of them denotes.

    Not a model of code. A specification declares environment and system
    variables with their domains (-1: Boolean, k >= 0: integers 0..k;
    doc/spc_format.md) and gives initial conditions, transition rules and goals.
    A state assigns to every variable, environment variables first, a value of
    its domain. *)
From Coq Require Import List ZArith Bool String.
From Verif Require Import Base Game Strs Ptree Form Solve.
Import ListNotations.
Open Scope string_scope.
Open Scope list_scope.
Open Scope Z_scope.

Record fspec := {
  fs_evars : list vdecl;
  fs_svars : list vdecl;
  fs_einit : option form;      (** [None]: clause omitted or empty *)
  fs_sinit : option form;
  fs_etrans : form;
  fs_strans : form;
  fs_egoals : list form;
  fs_sgoals : list form
}.

(** values of a domain *)
Definition dom (d : Z) : list Z := if d <? 0 then [0; 1] else zseq 0 d.
Fixpoint dvecs (ds : list Z) : list vec :=
  match ds with
  | [] => [[]]
  | d :: r => flat_map (fun x => map (cons x) (dvecs r)) (dom d)
  end.
Definition doms (vs : list vdecl) : list Z := map snd vs.

Section OfSpec.
  Variable F : fspec.
  Definition fs_vars : list vdecl := fs_evars F ++ fs_svars F.
  (** the states and the environment valuations *)
  Definition fs_states : list vec := dvecs (doms fs_vars).
  Definition fs_envs : list vec := dvecs (doms (fs_evars F)).
  Definition val (s : vec) : string -> Z := lookup (names fs_vars) s.
  Definition eval (e : vec) : string -> Z := lookup (names (fs_evars F)) e.

  (** truth of a state formula; an omitted initial condition is True *)
  Definition holds (f : form) (s : vec) : bool := sem (val s) (fun _ => 0) f.
  Definition holds_opt (f : option form) (s : vec) : bool :=
    match f with None => true | Some g => holds g s end.

  Definition game_of : game vec vec := {|
    g_states := fs_states;
    g_envs := fs_envs;
    g_env := firstn (List.length (fs_evars F));
    g_etr := fun s e => sem (val s) (eval e) (fs_etrans F);
    g_str := fun s s' => sem (val s) (val s') (fs_strans F);
    g_egoals := map holds (fs_egoals F);
    g_sgoals := map holds (fs_sgoals F)
  |}.

  (** every variable used is declared, primes occur only in transition rules, and
      ENVTRANS primes only environment variables (what check_gr1c_form demands,
      see C30) *)
  Definition state_form (f : form) : Prop := incl (fvars f) (names fs_vars) /\ fnexts f = [].
  Definition opt_form (P : form -> Prop) (f : option form) : Prop :=
    match f with None => True | Some g => P g end.
  Definition well_scoped : Prop :=
    opt_form state_form (fs_einit F) /\ opt_form state_form (fs_sinit F) /\
    (incl (fvars (fs_etrans F)) (names fs_vars) /\
     incl (fnexts (fs_etrans F)) (names (fs_evars F))) /\
    (incl (fvars (fs_strans F)) (names fs_vars) /\
     incl (fnexts (fs_strans F)) (names fs_vars)) /\
    (forall f, In f (fs_egoals F) -> state_form f) /\
    (forall f, In f (fs_sgoals F) -> state_form f).

  (** all variables are Boolean and no formula compares with a number *)
  Definition all_boolean : Prop :=
    (forall v, In v fs_vars -> snd v = -1) /\
    opt_form (fun f => boolean f = true) (fs_einit F) /\
    opt_form (fun f => boolean f = true) (fs_sinit F) /\
    boolean (fs_etrans F) = true /\ boolean (fs_strans F) = true /\
    (forall f, In f (fs_egoals F) -> boolean f = true) /\
    (forall f, In f (fs_sgoals F) -> boolean f = true).
End OfSpec.

(** the parse trees the tool works on for the specification [F] *)
Definition opt_tree (f : option form) : ptree :=
  match f with None => NULL | Some g => tree_of g end.
Definition spec_of (F : fspec) : spc_t := {|
  evar_list := vlist (fs_evars F);
  svar_list := vlist (fs_svars F);
  env_init := opt_tree (fs_einit F);
  sys_init := opt_tree (fs_sinit F);
  env_trans := tree_of (fs_etrans F);
  sys_trans := tree_of (fs_strans F);
  env_goals := map tree_of (fs_egoals F);
  sys_goals := map tree_of (fs_sgoals F)
|}.
