(** Model of the parser generated from src/gr1c_parse.y, with the actions of the
    grammar. The LALR tables are not reproduced: the shift and reduce decisions are
    written out. The grammar's only conflicts are between reducing
    [propformula op propformula] or [! propformula] and shifting a further operator;
    Bison resolves them by the %left declarations, as [reduces] does. Default
    reductions made before a syntax error is noticed are left out (the run is aborted
    anyway). Allocation does not fail. *)
From Coq Require Import List ZArith Bool Arith Ascii String.
From Verif Require Import Base Strs Ptree Nonbool Lex.
Import ListNotations.
Open Scope list_scope.
Open Scope nat_scope.

(** ** Symbols: Bison's internal numbering of the tokens (yytranslate). [YEOF] is the
    end of the input, [YUNDEF] a character that occurs in no rule. *)
Inductive ysym :=
| Y_E_VARS | Y_S_VARS | Y_E_INIT | Y_E_TRANS | Y_E_GOAL | Y_S_INIT | Y_S_TRANS | Y_S_GOAL
| YVar (x : string) | YNum (z : Z) | YTrue | YFalse
| YLe | YGe | YNe | YIff | YImp
| YSafety | YAndSafety | YLiveness | YAndLiveness | YEventually
| YAmp | YBar | YBang | YEq | YQuote | YLt | YGt | YLpar | YRpar | YSemi | YComma | YLbr | YRbr
| YUNDEF | YEOF.
(** [return yytext[0]] gives a negative number for a character above 127 (char is
    signed on the platforms considered); the generated parser takes every token number
    up to 0 for the end of the input. *)
Definition ychar (c : ascii) : ysym :=
  if 128 <=? nat_of_ascii c then YEOF
  else if Ascii.eqb c "&" then YAmp else if Ascii.eqb c "|" then YBar
  else if Ascii.eqb c "!" then YBang else if Ascii.eqb c "=" then YEq
  else if Ascii.eqb c "'" then YQuote else if Ascii.eqb c "<" then YLt
  else if Ascii.eqb c ">" then YGt else if Ascii.eqb c "(" then YLpar
  else if Ascii.eqb c ")" then YRpar else if Ascii.eqb c ";" then YSemi
  else if Ascii.eqb c "," then YComma else if Ascii.eqb c "[" then YLbr
  else if Ascii.eqb c "]" then YRbr else YUNDEF.
Definition yytranslate (k : token) : ysym :=
  match k with
  | E_VARS => Y_E_VARS | S_VARS => Y_S_VARS | E_INIT => Y_E_INIT | E_TRANS => Y_E_TRANS
  | E_GOAL => Y_E_GOAL | S_INIT => Y_S_INIT | S_TRANS => Y_S_TRANS | S_GOAL => Y_S_GOAL
  | VARIABLE x => YVar x | NUMBER z => YNum z
  | TRUE_CONSTANT => YTrue | FALSE_CONSTANT => YFalse
  | LE_OP => YLe | GE_OP => YGe | NOT_EQUALS => YNe | EQUIV => YIff | IMPLIES => YImp
  | SAFETY_OP => YSafety | AND_SAFETY_OP => YAndSafety
  | LIVENESS_OP => YLiveness | AND_LIVENESS_OP => YAndLiveness | EVENTUALLY_OP => YEventually
  | CH c => ychar c
  end.
(** the symbols up to the first end of input *)
Fixpoint symbols (ts : list token) : list ysym :=
  match ts with
  | [] => []
  | k :: r => match yytranslate k with YEOF => [] | y => y :: symbols r end
  end.

(** ** Formulas: gr1c_parse.y:347-424 propformula ([t] false) and 426-556
    tpropformula ([t] true) *)
Inductive bop := OAnd | OOr | OImp | OIff.
Definition binop_of (k : ysym) : option bop :=
  match k with
  | YAmp => Some OAnd
  | YBar => Some OOr
  | YImp => Some OImp
  | YIff => Some OIff
  | _ => None
  end.
Definition bop_ty (o : bop) : ty :=
  match o with OAnd => PT_AND | OOr => PT_OR | OImp => PT_IMPLIES | OIff => PT_EQUIV end.
(** gr1c_parse.y:52-60: precedence levels of the operators that occur in formulas;
    '&', '|' and '!' are on one level *)
Definition prec (o : bop) : nat :=
  match o with OIff => 1 | OImp => 2 | OAnd | OOr => 8 end.
Definition prec_not : nat := 8.
Definition cmp_of (k : ysym) : option ty :=
  match k with
  | YEq => Some PT_EQUALS
  | YLt => Some PT_LT
  | YGt => Some PT_GT
  | YLe => Some PT_LE
  | YGe => Some PT_GE
  | YNe => Some PT_NOTEQ
  | _ => None
  end.

(** the symbols on the parser stack that wait for an operand, and '(' *)
Inductive item := IOp (o : bop) | INot | IParen.
(** an operator [p] on the stack and the lookahead operator [q]: reduce if [p] binds
    tighter or equally tight (%left) *)
Definition reduces (p q : nat) : bool := q <=? p.
(** reduce while the topmost operator binds at least as tight as [q]; the operands
    are in gen_tree_ptr *)
Fixpoint reduce_while (q : nat) (stk : list item) (gen : ptree) : list item * ptree :=
  match stk with
  | IOp o :: r => if reduces (prec o) q then reduce_while q r (pusht_operator gen (bop_ty o))
                  else (stk, gen)
  | INot :: r => if reduces prec_not q then reduce_while q r (pusht_operator gen PT_NEG)
                 else (stk, gen)
  | _ => (stk, gen)
  end.

(** gr1c_parse.y:377-424, 466-556: VARIABLE op NUMBER *)
Definition push_cmp (gen : ptree) (tv : ty) (x : string) (o : ty) (k : Z) : ptree :=
  pusht_operator (pusht_terminal (pusht_terminal gen tv (Some x) 0) PT_CONSTANT None k) o.

(** [have]: an operand has just been completed. The result is gen_tree_ptr when the
    formula ends, and the tokens from the lookahead token on; [None]: syntax error. *)
Fixpoint pform (t : bool) (have : bool) (stk : list item) (gen : ptree) (ts : list ysym)
    : option (ptree * list ysym) :=
  let finish :=
    match reduce_while 0 stk gen with
    | ([], gen') => Some (gen', ts)
    | _ => None
    end in
  match ts with
  | [] => if have then finish else None
  | k :: r =>
      if have then
        match binop_of k with
        | Some o => let (stk', gen') := reduce_while (prec o) stk gen in
                    pform t false (IOp o :: stk') gen' r
        | None =>
            match k with
            | YRpar =>
                match reduce_while 0 stk gen with
                | (IParen :: stk', gen') => pform t true stk' gen' r
                | _ => finish
                end
            | _ => finish
            end
        end
      else
        match k with
        | YTrue => pform t true stk (pusht_terminal gen PT_CONSTANT None 1) r
        | YFalse => pform t true stk (pusht_terminal gen PT_CONSTANT None 0) r
        | YBang => pform t false (INot :: stk) gen r
        | YLpar => pform t false (IParen :: stk) gen r
        | YVar x =>
            match r with
            | YQuote :: r1 =>
                if t then
                  match r1 with
                  | c :: r2 =>
                      match cmp_of c with
                      | Some o =>
                          match r2 with
                          | YNum z :: r3 =>
                              pform t true stk (push_cmp gen PT_NEXT_VARIABLE x o z) r3
                          | _ => None
                          end
                      | None =>
                          pform t true stk (pusht_terminal gen PT_NEXT_VARIABLE (Some x) 0) r1
                      end
                  | [] => pform t true stk (pusht_terminal gen PT_NEXT_VARIABLE (Some x) 0) r1
                  end
                else None
            | c :: r1 =>
                match cmp_of c with
                | Some o =>
                    match r1 with
                    | YNum z :: r2 => pform t true stk (push_cmp gen PT_VARIABLE x o z) r2
                    | _ => None
                    end
                | None => pform t true stk (pusht_terminal gen PT_VARIABLE (Some x) 0) r
                end
            | [] => pform t true stk (pusht_terminal gen PT_VARIABLE (Some x) 0) r
            end
        | _ => None
        end
  end.
Definition formula (t : bool) (gen : ptree) (ts : list ysym) : option (ptree * list ysym) :=
  pform t false [] gen ts.

(** ** Files *)

(** the globals [spc] (the arrays [env_trans_array] etc.) and [gen_tree_ptr] *)
Record pstate := { p_spc : raw_t; p_gen : ptree }.
(** include/common.h:57-69 SPC_INIT and the initial value of gen_tree_ptr *)
Definition spc_init : raw_t := {|
  r_evars := NULL; r_svars := NULL; r_einit := NULL; r_sinit := NULL;
  r_etrans := []; r_strans := []; r_egoals := []; r_sgoals := []
|}.
Definition pstate0 : pstate := {| p_spc := spc_init; p_gen := NULL |}.

Definition set_spc (f : raw_t -> raw_t) (s : pstate) : pstate :=
  {| p_spc := f (p_spc s); p_gen := p_gen s |}.
Definition with_evars v c := {| r_evars := v; r_svars := r_svars c; r_einit := r_einit c;
  r_sinit := r_sinit c; r_etrans := r_etrans c; r_strans := r_strans c;
  r_egoals := r_egoals c; r_sgoals := r_sgoals c |}.
Definition with_svars v c := {| r_evars := r_evars c; r_svars := v; r_einit := r_einit c;
  r_sinit := r_sinit c; r_etrans := r_etrans c; r_strans := r_strans c;
  r_egoals := r_egoals c; r_sgoals := r_sgoals c |}.
Definition with_einit v c := {| r_evars := r_evars c; r_svars := r_svars c; r_einit := v;
  r_sinit := r_sinit c; r_etrans := r_etrans c; r_strans := r_strans c;
  r_egoals := r_egoals c; r_sgoals := r_sgoals c |}.
Definition with_sinit v c := {| r_evars := r_evars c; r_svars := r_svars c; r_einit := r_einit c;
  r_sinit := v; r_etrans := r_etrans c; r_strans := r_strans c;
  r_egoals := r_egoals c; r_sgoals := r_sgoals c |}.
Definition with_etrans v c := {| r_evars := r_evars c; r_svars := r_svars c; r_einit := r_einit c;
  r_sinit := r_sinit c; r_etrans := v; r_strans := r_strans c;
  r_egoals := r_egoals c; r_sgoals := r_sgoals c |}.
Definition with_strans v c := {| r_evars := r_evars c; r_svars := r_svars c; r_einit := r_einit c;
  r_sinit := r_sinit c; r_etrans := r_etrans c; r_strans := v;
  r_egoals := r_egoals c; r_sgoals := r_sgoals c |}.
Definition with_egoals v c := {| r_evars := r_evars c; r_svars := r_svars c; r_einit := r_einit c;
  r_sinit := r_sinit c; r_etrans := r_etrans c; r_strans := r_strans c;
  r_egoals := v; r_sgoals := r_sgoals c |}.
Definition with_sgoals v c := {| r_evars := r_evars c; r_svars := r_svars c; r_einit := r_einit c;
  r_sinit := r_sinit c; r_etrans := r_etrans c; r_strans := r_strans c;
  r_egoals := r_egoals c; r_sgoals := v |}.

(** gr1c_parse.y:143-249: one declaration; [None]: duplicate variable *)
Definition declared (x : string) (c : raw_t) : bool :=
  negb (find_list_item (r_evars c) PT_VARIABLE (Some x) (-1) =? -1)%Z ||
  negb (find_list_item (r_svars c) PT_VARIABLE (Some x) (-1) =? -1)%Z.
Definition declare (env : bool) (x : string) (d : Z) (c : raw_t) : option raw_t :=
  if declared x c then None
  else Some (if env then with_evars (append_list_item (r_evars c) PT_VARIABLE (Some x) d) c
             else with_svars (append_list_item (r_svars c) PT_VARIABLE (Some x) d) c).
(** the declarations up to the semicolon *)
Fixpoint pvars (env : bool) (c : raw_t) (ts : list ysym) : option (raw_t * list ysym) :=
  match ts with
  | YSemi :: r => Some (c, r)
  | YVar x :: r =>
      match r with
      | YLbr :: r1 =>
          match r1 with
          | YNum lo :: YComma :: YNum hi :: YRbr :: r2 =>
              if negb (lo =? 0)%Z then None
              else if (hi <? 0)%Z then None
              else match declare env x hi c with
                   | Some c' => pvars env c' r2
                   | None => None
                   end
          | _ => None
          end
      | _ => match declare env x (-1) c with
             | Some c' => pvars env c' r
             | None => None
             end
      end
  | _ => None
  end.

(** gr1c_parse.y:251-345: formulas joined by [sep]; [t] as for [formula]. Every
    formula is appended to the array; gen_tree_ptr is NULL after each. [fuel] bounds
    the number of formulas. *)
Fixpoint plist (fuel : nat) (t : bool) (is_sep : ysym -> bool) (gen : ptree)
    (acc : list ptree) (ts : list ysym) : out (option (list ptree * list ysym)) :=
  match fuel with
  | O => Fuel
  | S f =>
      match formula t gen ts with
      | None => Ok None
      | Some (tr, k :: r) =>
          if is_sep k then plist f t is_sep NULL (acc ++ [tr]) r
          else match k with
               | YSemi => Ok (Some (acc ++ [tr], r))
               | _ => Ok None
               end
      | Some (_, []) => Ok None
      end
  end.
Definition is_and_safety (k : ysym) : bool := match k with YAndSafety => true | _ => false end.
Definition is_and_liveness (k : ysym) : bool := match k with YAndLiveness => true | _ => false end.

Definition is_null_tree (t : ptree) : bool := match t with NULL => true | _ => false end.
Definition true_tree : ptree := init_ptree PT_CONSTANT None 1.

(** gr1c_parse.y:72-100, 103-117: initial conditions *)
Definition pinit (get : raw_t -> ptree) (set : ptree -> raw_t -> raw_t) (s : pstate)
    (ts : list ysym) : option (pstate * list ysym) :=
  match ts with
  | YSemi :: r => if is_null_tree (get (p_spc s)) then Some (s, r) else None
  | _ =>
      match formula false (p_gen s) ts with
      | Some (tr, YSemi :: r) =>
          if is_null_tree (get (p_spc s))
          then Some ({| p_spc := set tr (p_spc s); p_gen := NULL |}, r)
          else None
      | _ => None
      end
  end.
(** gr1c_parse.y:84-93, 118-128 and 251-297: transition rules *)
Definition ptrans (fuel : nat) (get : raw_t -> list ptree) (set : list ptree -> raw_t -> raw_t)
    (s : pstate) (ts : list ysym) : out (option (pstate * list ysym)) :=
  match ts with
  | YSemi :: r =>
      match get (p_spc s) with
      | [] => Ok (Some (set_spc (set [true_tree]) s, r))
      | _ => Ok (Some (s, r))
      end
  | YSafety :: r =>
      p <- plist fuel true is_and_safety (p_gen s) (get (p_spc s)) r ;;
      match p with
      | Some (l, r') => Ok (Some ({| p_spc := set l (p_spc s); p_gen := NULL |}, r'))
      | None => Ok None
      end
  | _ => Ok None
  end.
(** gr1c_parse.y:94-95, 129-139 and 299-345: goals. An empty SYSGOAL replaces all
    system goals by True, an empty ENVGOAL changes nothing. *)
Definition pgoals (fuel : nat) (env : bool) (get : raw_t -> list ptree)
    (set : list ptree -> raw_t -> raw_t) (s : pstate) (ts : list ysym)
    : out (option (pstate * list ysym)) :=
  match ts with
  | YSemi :: r => Ok (Some (if env then s else set_spc (set [true_tree]) s, r))
  | YLiveness :: r =>
      p <- plist fuel false is_and_liveness (p_gen s) (get (p_spc s)) r ;;
      match p with
      | Some (l, r') => Ok (Some ({| p_spc := set l (p_spc s); p_gen := NULL |}, r'))
      | None => Ok None
      end
  | _ => Ok None
  end.

(** gr1c_parse.y:66-140 exp, one after the other up to the end of the input *)
Fixpoint pexps (fuel : nat) (s : pstate) (ts : list ysym) : out (option pstate) :=
  match fuel with
  | O => Fuel
  | S f =>
      match ts with
      | [] => Ok (Some s)
      | k :: r =>
          p <- (match k with
                | Y_E_VARS => Ok (option_map (fun p => ({| p_spc := fst p; p_gen := p_gen s |}, snd p))
                                  (pvars true (p_spc s) r))
                | Y_S_VARS => Ok (option_map (fun p => ({| p_spc := fst p; p_gen := p_gen s |}, snd p))
                                  (pvars false (p_spc s) r))
                | Y_E_INIT => Ok (pinit r_einit with_einit s r)
                | Y_S_INIT => Ok (pinit r_sinit with_sinit s r)
                | Y_E_TRANS => ptrans f r_etrans with_etrans s r
                | Y_S_TRANS => ptrans f r_strans with_strans s r
                | Y_E_GOAL => pgoals f true r_egoals with_egoals s r
                | Y_S_GOAL => pgoals f false r_sgoals with_sgoals s r
                | _ => Ok None
                end) ;;
          match p with
          | None => Ok None
          | Some (s', r') => pexps f s' r'
          end
      end
  end.

(** gr1c_parse.y:64-66 input: the file may begin with a formula. [None]: yyparse
    returns nonzero. *)
Definition starts_formula (k : ysym) : bool :=
  match k with
  | YTrue | YFalse | YVar _ | YBang | YLpar => true
  | _ => false
  end.
Definition yyparse_tokens (ts : list ysym) : out (option raw_t) :=
  let fuel := S (List.length ts) in
  r <- (match ts with
        | k :: _ =>
            if starts_formula k then
              match formula false NULL ts with
              | Some (tr, r) => pexps fuel {| p_spc := spc_init; p_gen := tr |} r
              | None => Ok None
              end
            else pexps fuel pstate0 ts
        | [] => pexps fuel pstate0 ts
        end) ;;
  Ok (option_map p_spc r).
(** the whole front end: main.c:341-342 *)
Definition yyparse (text : string) : out (option raw_t) :=
  ts <- yylex text ;; yyparse_tokens (symbols ts).
