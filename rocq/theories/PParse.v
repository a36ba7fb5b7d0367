(** Theorems on reading and writing specifications: C23, C45, C46, C47.

    Reading guide. [yylex] and [yyparse] are the scanner and the parser (Lex.v,
    Parse.v); [text_symbols] says which symbols a text has (LexSpec.v,
    TextSpec.v); [tree_of f] and [raw_of R] the trees and the tables that represent a
    formula and a specification. Syntax.v and FileSpec.v say which sequences of symbols
    are a formula ([derives], [reads]) or a file ([spelled_file], [file_means]). *)
From Coq Require Import List ZArith Bool Ascii String Lia.
From Verif Require Import Base Game Strs Ptree Form Support EnumProofs Solve FSpec RealProofs Automaton AutProofs
  SynthSpec Synth Nonbool RSpec NbExamples Main MainSpec MainProofs MainExamples FormCheck ListSpec ListProofs PipeVerdict FormPrint
  AutIO Lex LexSpec Parse Syntax ParseProofs FileSpec FileProofs TextSpec TextProofs.
Import ListNotations.
Open Scope string_scope.
Open Scope list_scope.
Open Scope Z_scope.

(** C23. [tree_of f] is the tree the parser builds for [f]; [derives] is the grammar,
    with all its ambiguity; [t]: primed variables are allowed. *)
Theorem C23_reads_back : forall t f, writable f -> clash_free f = true -> (t = false -> fnexts f = []) ->
  exists s ys, print_formula FORMULA_SYNTAX_GR1C (tree_of f) = Ok s /\ text_symbols s ys /\
    derives t ys f /\ (forall g, derives t ys g -> g = f) /\
    read_formula t s = Ok (Some (tree_of f)).
Proof. exact printed_reads_back. Qed.
Print Assumptions C23_reads_back.
(** if a connective joins a constant directly with a variable, the constant is printed
    as a number, and the text is not a formula *)
Theorem C23_clash : forall t f, writable f -> clash_free f = false ->
  exists s ys, print_formula FORMULA_SYNTAX_GR1C (tree_of f) = Ok s /\ text_symbols s ys /\
    (forall g, ~ derives t ys g) /\ read_formula t s = Ok None.
Proof. exact printed_clash. Qed.
Print Assumptions C23_clash.
Theorem C23_refuted : exists f, writable f /\ fnexts f = [] /\
  read_formula false "(x|True)" = Ok (Some (tree_of f)) /\
  print_formula FORMULA_SYNTAX_GR1C (tree_of f) = Ok "(x|1)" /\ read_formula false "(x|1)" = Ok None.
Proof.
  exists (FOr (FVar "x") FTrue). split; [|split; [|split; [|split]]]; try (vm_compute; reflexivity).
  repeat split; discriminate.
Qed.
Print Assumptions C23_refuted.
Definition ex_form : form :=
  FImp (FAnd (FVar "x") (FCmp true "y" CLe 3)) (FIff (FNot (FNext "x_1.a")) (FOr FFalse (FCmp false "y" CNe 0))).
Example C23_instance : writable ex_form /\ clash_free ex_form = true /\
  print_formula FORMULA_SYNTAX_GR1C (tree_of ex_form) = Ok "((x&(y'<=3))->((!x_1.a')<->(False|(y!=0))))".
Proof. repeat split; discriminate. Qed.

(** C45. The parser on the symbols of one formula: it accepts what the grammar
    derives, and resolves the ambiguity by binding strength ([reads]). *)
Theorem C45_formula : forall t ts tr,
  formula t NULL ts = Some (tr, []) <-> exists f, reads t LIff ts f /\ tr = tree_of f.
Proof. exact formula_accepts. Qed.
Print Assumptions C45_formula.
Theorem C45_derivable : forall t ts,
  (exists f, derives t ts f) <-> exists tr, formula t NULL ts = Some (tr, []).
Proof. exact formula_derivable. Qed.
Print Assumptions C45_derivable.
Theorem C45_unambiguous : forall t ts f g, reads t LIff ts f -> reads t LIff ts g -> f = g.
Proof. exact (fun t ts f g => reads_unique t LIff LIff ts f g). Qed.
Print Assumptions C45_unambiguous.
(** the parser on texts: [text_means text R] if the symbols of the text spell sections
    that add up to [R] *)
Theorem C45_accepts : forall text R, text_means text R -> yyparse text = Ok (Some (raw_of R)).
Proof. exact text_parse. Qed.
Print Assumptions C45_accepts.
Theorem C45_only : forall text raw, text_no_formula text -> yyparse text = Ok (Some raw) ->
  exists R, text_means text R /\ raw = raw_of R.
Proof. exact text_parse_only. Qed.
Print Assumptions C45_only.
Theorem C45_unique : forall text R R', text_means text R -> text_means text R' -> R = R'.
Proof. exact text_means_unique. Qed.
Print Assumptions C45_unique.
Theorem C45_ends : forall text, exists o, yyparse text = Ok o.
Proof. exact yyparse_total. Qed.
Print Assumptions C45_ends.
(** how formulas are grouped *)
Example C45_groups :
  read_formula false "a|b&c" = Ok (Some (tree_of (FAnd (FOr (FVar "a") (FVar "b")) (FVar "c")))) /\
  read_formula false "a&b|c" = Ok (Some (tree_of (FOr (FAnd (FVar "a") (FVar "b")) (FVar "c")))) /\
  read_formula false "a -> b -> c" = Ok (Some (tree_of (FImp (FImp (FVar "a") (FVar "b")) (FVar "c")))) /\
  read_formula false "a <-> b -> !c & d" =
    Ok (Some (tree_of (FIff (FVar "a") (FImp (FVar "b") (FAnd (FNot (FVar "c")) (FVar "d")))))) /\
  read_formula false "!a = 3" = Ok (Some (tree_of (FNot (FCmp false "a" CEq 3)))).
Proof. repeat split. Qed.
(** the condition on the first symbol is needed: a formula before the first section is
    accepted, and ends up inside the first formula of a section *)
Theorem C45_only_refuted : exists text raw, yyparse text = Ok (Some raw) /\ ~ exists R, raw = raw_of R.
Proof.
  exists ("x" ++ nl ++ "SYSINIT: y;")%string. eexists. split; [vm_compute; reflexivity|].
  intros ([ev sv ei si et st eg sg] & E). injection E. intros _ _ _ _ E1 _ _ _.
  destruct si as [f|]; [|discriminate E1]. destruct f; discriminate E1.
Qed.
Print Assumptions C45_only_refuted.

(** C46. Every specification can be written down; the text is read as that
    specification. [file_text] prints formulas with print_formula. *)
Theorem C46_written : forall R, writable_spec R ->
  yyparse (file_text (sections_of R)) = Ok (Some (raw_of R)).
Proof. intros R H. exact (text_parse _ _ (spec_text_means R H)). Qed.
Print Assumptions C46_written.
Theorem C46_sections : forall ss R, (forall s, In s ss -> writable_section s) -> file_means ss = Some R ->
  yyparse (file_text ss) = Ok (Some (raw_of R)).
Proof. intros ss R H1 H2. exact (text_parse _ _ (file_text_means ss R H1 H2)). Qed.
Print Assumptions C46_sections.
Example C46_instance : writable_spec ex_int /\ file_text (sections_of ex_int) =
"ENV: x[0,2];
SYS: b;
ENVINIT:(x=0);
SYSINIT:(!b);
ENVTRANS:[]((x=1)->(x'=2));
SYSTRANS:[]((x'<1)->(!b'))&[](b->((x'!=2)|(!b')));
ENVGOAL:[]<>(x=2);
SYSGOAL:[]<>b&[]<>(!b);
".
Proof. exact ex_int_written. Qed.

(** C47. The program on the text of a specification; [gr1c_text] is yyparse, then the
    check of the form, then the program of C42. *)
Theorem C47_bad_text : forall orc alloc fuel mode flags text,
  text_no_formula text -> (~ exists R, text_means text R) ->
  gr1c_text orc alloc fuel mode flags text = Ok SyntaxError.
Proof. exact text_bad. Qed.
Print Assumptions C47_bad_text.
Theorem C47_bad_form : forall orc alloc fuel mode flags text R,
  text_means text R -> ~ form_ok flags R -> gr1c_text orc alloc fuel mode flags text = Ok FormError.
Proof. exact text_bad_form. Qed.
Print Assumptions C47_bad_form.
Theorem C47_all_init : forall orc alloc text R,
  text_means text R -> form_ok ALL_INIT R -> usable R -> tools R orc alloc ->
  (exists N, forall fuel, (N <= fuel)%nat -> forall r,
     gr1c_text orc alloc fuel MODE_SYNTHESIS ALL_INIT text = Ok r -> exists r', r = Ran r' /\
     right_answer R ALL_INIT ((exists s, initial (fspec_of R) s) /\
       forall s, initial (fspec_of R) s -> sys_wins (game_of (fspec_of R)) s) r') /\
  (rs_evars R <> [] \/ rs_etrans R = [] ->
   exists N, forall fuel, (N <= fuel)%nat -> exists r,
     gr1c_text orc alloc fuel MODE_SYNTHESIS ALL_INIT text = Ok (Ran r) /\ r <> SynthFailed).
Proof.
  intros orc alloc text R HM HF HU HT. destruct (run_all_init R orc alloc HU HT) as [H1 H2].
  exact (Logic.conj (text_right _ _ _ _ _ HM HF _ H1) (text_ends _ _ _ _ _ HM HF H2)).
Qed.
Print Assumptions C47_all_init.
Theorem C47_all_env_exist_sys : forall orc alloc text R,
  text_means text R -> form_ok ALL_ENV_EXIST_SYS_INIT R -> usable R -> tools R orc alloc ->
  (exists s, In s (fs_states (fspec_of R)) /\ holds_opt (fspec_of R) (rs_sinit R) s = true) ->
  (exists N, forall fuel, (N <= fuel)%nat -> forall r,
     gr1c_text orc alloc fuel MODE_SYNTHESIS ALL_ENV_EXIST_SYS_INIT text = Ok r -> exists r', r = Ran r' /\
     right_answer R ALL_ENV_EXIST_SYS_INIT
       (forall e, In e (fs_envs (fspec_of R)) -> holds_env (fspec_of R) (rs_einit R) e = true ->
         exists s, In s (fs_states (fspec_of R)) /\ g_env (game_of (fspec_of R)) s = e /\
           holds_opt (fspec_of R) (rs_sinit R) s = true /\ sys_wins (game_of (fspec_of R)) s) r') /\
  ((exists s, initial (fspec_of R) s) -> rs_evars R <> [] \/ rs_etrans R = [] ->
   exists N, forall fuel, (N <= fuel)%nat -> exists r,
     gr1c_text orc alloc fuel MODE_SYNTHESIS ALL_ENV_EXIST_SYS_INIT text = Ok (Ran r) /\ r <> SynthFailed).
Proof. exact text_aes. Qed.
Print Assumptions C47_all_env_exist_sys.
Theorem C47_one_side : forall orc alloc text R,
  text_means text R -> form_ok ONE_SIDE_INIT R -> usable R -> tools R orc alloc ->
  (exists N, forall fuel, (N <= fuel)%nat -> forall r,
     gr1c_text orc alloc fuel MODE_SYNTHESIS ONE_SIDE_INIT text = Ok r -> exists r', r = Ran r' /\
     right_answer R ONE_SIDE_INIT
      (match rs_sinit R with
       | None => forall s, In s (fs_states (fspec_of R)) -> holds_opt (fspec_of R) (rs_einit R) s = true ->
           sys_wins (game_of (fspec_of R)) s
       | Some f => exists s, In s (fs_states (fspec_of R)) /\ holds (fspec_of R) f s = true /\
           sys_wins (game_of (fspec_of R)) s
       end) r') /\
  ((exists s, In s (fs_states (fspec_of R)) /\ holds_opt (fspec_of R) (rs_einit R) s = true) ->
   rs_evars R <> [] \/ rs_etrans R = [] ->
   exists N, forall fuel, (N <= fuel)%nat -> exists r,
     gr1c_text orc alloc fuel MODE_SYNTHESIS ONE_SIDE_INIT text = Ok (Ran r) /\ r <> SynthFailed).
Proof.
  intros orc alloc text R HM HF HU HT. destruct (run_one_side R orc alloc HU HT) as [H1 H2].
  exact (Logic.conj (text_right _ _ _ _ _ HM HF _ H1) (fun He => text_ends _ _ _ _ _ HM HF (H2 He))).
Qed.
Print Assumptions C47_one_side.
(** the mode that only decides; [chain_gives R flags P] is given by the theorems on C36 *)
Theorem C47_realizable : forall orc alloc flags text R P,
  text_means text R -> form_ok flags R -> usable R -> chain_gives R flags P ->
  exists N, forall fuel, (N <= fuel)%nat -> exists r,
    gr1c_text orc alloc fuel MODE_REALIZABLE flags text = Ok (Ran r) /\ right_verdict P r.
Proof. intros orc alloc flags text R P HM HF. exact (text_verdict orc alloc R flags text HM HF P). Qed.
Print Assumptions C47_realizable.
Example C47_instance : text_means ex_text ex_int /\ form_ok ALL_INIT ex_int /\ form_ok ALL_ENV_EXIST_SYS_INIT ex_int /\
  usable ex_int /\ tools ex_int robdd_oracle alloc_max /\
  exists A, gr1c_text robdd_oracle alloc_max 40 MODE_SYNTHESIS ALL_INIT ex_text =
     Ok (Ran (Strategy A (vlist [("x", 2)]) (vlist [("b", -1)]))) /\ List.length A = 5%nat.
Proof. exact ex_text_run. Qed.
