(** Specification: the sections of a specification file and what they mean.

    Not a model of code. [spelled_file ss ts]: the symbols [ts] spell the sections
    [ss]; [file_means ss]: the specification they add up to, [None] if a variable is
    declared twice or an initial condition given twice (doc/spc_format.md). *)
From Coq Require Import List ZArith Bool String.
From Verif Require Import Base Strs Ptree Form RSpec Lex Parse Syntax.
Import ListNotations.
Open Scope string_scope.
Open Scope list_scope.
Open Scope Z_scope.

Inductive section :=
| SVars (env : bool) (ds : list vdecl)
| SInit (env : bool) (f : option form)
| STrans (env : bool) (fs : list form)
| SGoal (env : bool) (fs : list form).

(** ** Spelling *)
Inductive spelled_decl : vdecl -> list ysym -> Prop :=
| sd_bool x : spelled_decl (x, -1) [YVar x]
| sd_int x hi : 0 <= hi ->
    spelled_decl (x, hi) [YVar x; YLbr; YNum 0; YComma; YNum hi; YRbr].
Inductive spelled_decls : list vdecl -> list ysym -> Prop :=
| sds_nil : spelled_decls [] []
| sds_cons d ds a b : spelled_decl d a -> spelled_decls ds b -> spelled_decls (d :: ds) (a ++ b).
(** formulas joined by the symbol [j] *)
Inductive spelled_forms (t : bool) (j : ysym) : list form -> list ysym -> Prop :=
| sf_one f a : reads t LIff a f -> spelled_forms t j [f] a
| sf_more f a fs b : reads t LIff a f -> spelled_forms t j fs b ->
    spelled_forms t j (f :: fs) (a ++ j :: b).
Inductive spelled : section -> list ysym -> Prop :=
| sp_vars (env : bool) ds a : spelled_decls ds a ->
    spelled (SVars env ds) ((if env then Y_E_VARS else Y_S_VARS) :: a ++ [YSemi])
| sp_init0 (env : bool) : spelled (SInit env None) [if env then Y_E_INIT else Y_S_INIT; YSemi]
| sp_init (env : bool) f a : reads false LIff a f ->
    spelled (SInit env (Some f)) ((if env then Y_E_INIT else Y_S_INIT) :: a ++ [YSemi])
| sp_trans0 (env : bool) : spelled (STrans env []) [if env then Y_E_TRANS else Y_S_TRANS; YSemi]
| sp_trans (env : bool) fs a : spelled_forms true YAndSafety fs a ->
    spelled (STrans env fs) ((if env then Y_E_TRANS else Y_S_TRANS) :: YSafety :: a ++ [YSemi])
| sp_goal0 (env : bool) : spelled (SGoal env []) [if env then Y_E_GOAL else Y_S_GOAL; YSemi]
| sp_goal (env : bool) fs a : spelled_forms false YAndLiveness fs a ->
    spelled (SGoal env fs) ((if env then Y_E_GOAL else Y_S_GOAL) :: YLiveness :: a ++ [YSemi]).
Inductive spelled_file : list section -> list ysym -> Prop :=
| sfi_nil : spelled_file [] []
| sfi_cons s ss a b : spelled s a -> spelled_file ss b -> spelled_file (s :: ss) (a ++ b).

(** ** Meaning *)
Definition no_spec : rspec := {|
  rs_evars := []; rs_svars := []; rs_einit := None; rs_sinit := None;
  rs_etrans := []; rs_strans := []; rs_egoals := []; rs_sgoals := []
|}.
Definition set_vars (env : bool) v R := {|
  rs_evars := if env then v else rs_evars R; rs_svars := if env then rs_svars R else v;
  rs_einit := rs_einit R; rs_sinit := rs_sinit R; rs_etrans := rs_etrans R; rs_strans := rs_strans R;
  rs_egoals := rs_egoals R; rs_sgoals := rs_sgoals R |}.
Definition set_init (env : bool) f R := {|
  rs_evars := rs_evars R; rs_svars := rs_svars R;
  rs_einit := if env then f else rs_einit R; rs_sinit := if env then rs_sinit R else f;
  rs_etrans := rs_etrans R; rs_strans := rs_strans R; rs_egoals := rs_egoals R; rs_sgoals := rs_sgoals R |}.
Definition set_trans (env : bool) fs R := {|
  rs_evars := rs_evars R; rs_svars := rs_svars R; rs_einit := rs_einit R; rs_sinit := rs_sinit R;
  rs_etrans := if env then fs else rs_etrans R; rs_strans := if env then rs_strans R else fs;
  rs_egoals := rs_egoals R; rs_sgoals := rs_sgoals R |}.
Definition set_goals (env : bool) fs R := {|
  rs_evars := rs_evars R; rs_svars := rs_svars R; rs_einit := rs_einit R; rs_sinit := rs_sinit R;
  rs_etrans := rs_etrans R; rs_strans := rs_strans R;
  rs_egoals := if env then fs else rs_egoals R; rs_sgoals := if env then rs_sgoals R else fs |}.
Definition the_vars (env : bool) R := if env then rs_evars R else rs_svars R.
Definition the_init (env : bool) R := if env then rs_einit R else rs_sinit R.
Definition the_trans (env : bool) R := if env then rs_etrans R else rs_strans R.
Definition the_goals (env : bool) R := if env then rs_egoals R else rs_sgoals R.

Fixpoint add_vars (env : bool) (ds : list vdecl) (R : rspec) : option rspec :=
  match ds with
  | [] => Some R
  | d :: r => if existsb (String.eqb (fst d)) (names (rs_vars R)) then None
              else add_vars env r (set_vars env (the_vars env R ++ [d]) R)
  end.
(** An empty ENVTRANS or SYSTRANS section means the rule True if there is no rule
    yet. An empty SYSGOAL section means the goal True; it replaces earlier goals. An
    empty ENVGOAL section means nothing. *)
Definition add_section (s : section) (R : rspec) : option rspec :=
  match s with
  | SVars env ds => add_vars env ds R
  | SInit env f =>
      match the_init env R with
      | Some _ => None
      | None => Some (set_init env f R)
      end
  | STrans env [] => Some (match the_trans env R with [] => set_trans env [FTrue] R | _ => R end)
  | STrans env fs => Some (set_trans env (the_trans env R ++ fs) R)
  | SGoal true [] => Some R
  | SGoal false [] => Some (set_goals false [FTrue] R)
  | SGoal env fs => Some (set_goals env (the_goals env R ++ fs) R)
  end.
Fixpoint add_sections (ss : list section) (R : rspec) : option rspec :=
  match ss with
  | [] => Some R
  | s :: r => match add_section s R with Some R' => add_sections r R' | None => None end
  end.
Definition file_means (ss : list section) : option rspec := add_sections ss no_spec.

(** the file does not begin with a formula *)
Definition no_formula (ts : list ysym) : Prop :=
  match ts with [] => True | k :: _ => starts_formula k = false end.
