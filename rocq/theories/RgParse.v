(** Model of the parser of gr1c-rg, generated from src/rg_parse.y (Makefile:69,127-128),
    and what a text means for gr1c-rg.

    src/rg_parse.y differs from src/gr1c_parse.y in one place: the goal of the system is
    written with EVENTUALLY_OP, and there is one in a section (rg_parse.y:323-333 instead
    of gr1c_parse.y:323-345). The scanner is the same. *)
From Coq Require Import List ZArith Bool String.
From Verif Require Import Base Strs Ptree Form Nonbool RSpec Lex Parse Syntax FileSpec TextSpec.
Import ListNotations.
Open Scope list_scope.

(** rg_parse.y:129-138 and 323-333: the system's goal *)
Definition rg_sgoal (s : pstate) (ts : list ysym) : option (pstate * list ysym) :=
  match ts with
  | YSemi :: r => Some (set_spc (with_sgoals [true_tree]) s, r)
  | YEventually :: r =>
      match formula false (p_gen s) r with
      | Some (tr, YSemi :: r') =>
          Some ({| p_spc := with_sgoals (r_sgoals (p_spc s) ++ [tr]) (p_spc s); p_gen := NULL |}, r')
      | _ => None
      end
  | _ => None
  end.
(** rg_parse.y:64-140, as [pexps] *)
Fixpoint rg_exps (fuel : nat) (s : pstate) (ts : list ysym) : out (option pstate) :=
  match fuel with
  | O => Fuel
  | S f =>
      match ts with
      | [] => Ok (Some s)
      | k :: r =>
          p <- (match k with
                | Y_E_VARS => Ok (option_map (fun p => ({| p_spc := fst p; p_gen := p_gen s |}, snd p))
                                  (pvars true (p_spc s) r))
                | Y_S_VARS => Ok (option_map (fun p => ({| p_spc := fst p; p_gen := p_gen s |}, snd p))
                                  (pvars false (p_spc s) r))
                | Y_E_INIT => Ok (pinit r_einit with_einit s r)
                | Y_S_INIT => Ok (pinit r_sinit with_sinit s r)
                | Y_E_TRANS => ptrans f r_etrans with_etrans s r
                | Y_S_TRANS => ptrans f r_strans with_strans s r
                | Y_E_GOAL => pgoals f true r_egoals with_egoals s r
                | Y_S_GOAL => Ok (rg_sgoal s r)
                | _ => Ok None
                end) ;;
          match p with
          | None => Ok None
          | Some (s', r') => rg_exps f s' r'
          end
      end
  end.
(** rg_parse.y:64-66, as [yyparse_tokens] *)
Definition rg_yyparse_tokens (ts : list ysym) : out (option raw_t) :=
  let fuel := S (List.length ts) in
  r <- (match ts with
        | k :: _ =>
            if starts_formula k then
              match formula false NULL ts with
              | Some (tr, r) => rg_exps fuel {| p_spc := spc_init; p_gen := tr |} r
              | None => Ok None
              end
            else rg_exps fuel pstate0 ts
        | [] => rg_exps fuel pstate0 ts
        end) ;;
  Ok (option_map p_spc r).
(** the whole front end: rg_main.c:224-227 *)
Definition rg_yyparse (text : string) : out (option raw_t) :=
  ts <- yylex text ;; rg_yyparse_tokens (symbols ts).

(** ** Specification: as for gr1c, but for the goal of the system: [SYSGOAL: <> f;] *)
Inductive rg_spelled : section -> list ysym -> Prop :=
| rgs_same : forall s a, (forall fs, s <> SGoal false fs) -> spelled s a -> rg_spelled s a
| rgs_goal0 : rg_spelled (SGoal false []) [Y_S_GOAL; YSemi]
| rgs_goal : forall f a, reads false LIff a f ->
    rg_spelled (SGoal false [f]) (Y_S_GOAL :: YEventually :: a ++ [YSemi]).
Inductive rg_spelled_file : list section -> list ysym -> Prop :=
| rgf_nil : rg_spelled_file [] []
| rgf_cons : forall s ss a b, rg_spelled s a -> rg_spelled_file ss b -> rg_spelled_file (s :: ss) (a ++ b).
Definition rg_text_means (text : string) (R : rspec) : Prop :=
  exists ys ss, text_symbols text ys /\ rg_spelled_file ss ys /\ file_means ss = Some R.
