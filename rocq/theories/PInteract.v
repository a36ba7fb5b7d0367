(** Theorems on the interactive mode: C32, C33, C48. The vocabulary is in InteractSpec.v. *)
From Coq Require Import List ZArith Bool Arith String.
From Verif Require Import Base Game Bdd Support EnumProofs Strs Ptree Form Solve FSpec SolveProofs Levels
  Automaton Synth SynthSpec AutIO AutIOSpec ReadSpec Interactive InteractSpec InteractProofs InteractRun InteractText
  InteractUse InteractExamples Examples.
Import ListNotations.
Open Scope string_scope.
Open Scope list_scope.
Open Scope nat_scope.

(** * C32: the editing commands change exactly the intended moves, as later listed *)
Theorem C32_env_moves : forall F orc fuel, ready F orc fuel -> fs_evars F <> [] ->
  forall h c u x, Forall (valid F) h -> valid F c -> alive F orc fuel (h ++ [c]) ->
  In u (fs_states F) -> In x (fs_envs F) ->
  (shown_env F orc fuel (h ++ [c]) u x <->
   match c with
   | RestrictEnv s e => shown_env F orc fuel h u x /\ ~ (u = s /\ x = e)
   | RelaxEnv s e => shown_env F orc fuel h u x \/ (u = s /\ x = e)
   | BlockEnv e => shown_env F orc fuel h u x /\ x <> e
   | Clear => shown_env F orc fuel [] u x
   | _ => shown_env F orc fuel h u x
   end).
Proof. intros F orc fuel HR Hev h c u x Hh Hc Ha. exact (env_edit F orc fuel HR h c u x Hh Hc Ha Hev). Qed.
Print Assumptions C32_env_moves.
Theorem C32_sys_moves : forall F orc fuel, ready F orc fuel ->
  forall h c u x, Forall (valid F) h -> valid F c -> alive F orc fuel (h ++ [c]) ->
  In u (fs_states F) -> In x (fs_states F) ->
  (shown_sys F orc fuel (h ++ [c]) u x <->
   match c with
   | RestrictSys s s' => shown_sys F orc fuel h u x /\ ~ (u = s /\ x = s')
   | RelaxSys s s' => shown_sys F orc fuel h u x \/ (u = s /\ x = s')
   | BlockSys y => shown_sys F orc fuel h u x /\ out_of F x <> y
   | Clear => shown_sys F orc fuel [] u x
   | _ => shown_sys F orc fuel h u x
   end).
Proof. exact sys_edit. Qed.
Print Assumptions C32_sys_moves.
(** before any command the moves are those of the specification *)
Theorem C32_loaded_env : forall F orc fuel, ready F orc fuel -> forall u x, fs_evars F <> [] ->
  In u (fs_states F) -> In x (fs_envs F) ->
  (shown_env F orc fuel [] u x <-> legal_env (game_of F) u x).
Proof. exact env_loaded. Qed.
Print Assumptions C32_loaded_env.
Theorem C32_loaded_sys : forall F orc fuel, ready F orc fuel -> forall u x,
  In u (fs_states F) -> In x (fs_states F) ->
  (shown_sys F orc fuel [] u x <-> legal_sys (game_of F) u (firstn (List.length (fs_evars F)) x) x).
Proof. exact sys_loaded. Qed.
Print Assumptions C32_loaded_sys.
(** sessions without sysnext go on, so the lists exist *)
Theorem C32_alive : forall F orc fuel, ready F orc fuel -> forall h, Forall (valid F) h ->
  (forall c, In c h -> forall s e i, c <> SysNext s e i) -> alive F orc fuel h.
Proof. exact alive_quiet. Qed.
Print Assumptions C32_alive.
Example C32_instance : ready ex_follow robdd_oracle 13 /\ Forall (valid ex_follow) ex_edits /\
  asked ex_follow robdd_oracle 13
    ([EnvNext [0; 0]; SysNextA [0; 0] [1]; GetIndex [1; 0] 1; SysNext [0; 0] [1] 0] ++ ex_edits ++
     [EnvNext [0; 0]; SysNextA [0; 0] [0]; SysNextA [0; 0] [1]; SysNextA [1; 0] [1]; Winning [0; 0]; Winning [1; 0];
      Clear; EnvNext [0; 0]; SysNextA [1; 0] [1]; Winning [1; 0]; RefreshLevels; Winning [1; 0]])%Z =
  Ok ([AMoves [[0]; [1]]; AMoves [[0]; [1]]; AIndex 1; AMoves [[1]]] ++
      [ASilent; ASilent; ASilent; ASilent; ASilent] ++
      [AMoves [[1]]; AMoves [[0]]; AMoves [[0]; [1]]; AMoves [[0]]; ABool false; ABool false;
       ASilent; AMoves [[0]; [1]]; AMoves [[0]; [1]]; ABool false; ASilent; ABool true])%Z.
Proof. exact (Logic.conj ready_follow (Logic.conj ex_edits_valid ex_edits_run)). Qed.

(** * C33: the answers are those of the game *)
(** winning: the game at the last computation of the winning set *)
Theorem C33_winning : forall F orc fuel, ready F orc fuel -> forall h s a, Forall (valid F) h ->
  In s (fs_states F) -> replies F orc fuel h (Winning s) a ->
  exists v, a = ABool v /\ (v = true <-> sys_wins (game_with F (win (book_after F h))) s).
Proof. intros F orc fuel HR h s a Hh Hs. exact (replies_answers F orc fuel HR h (Winning s) a Hh Hs). Qed.
Print Assumptions C33_winning.
(** envnext and sysnexta: the moves of the rules in force *)
Theorem C33_envnext : forall F orc fuel, ready F orc fuel -> forall h s l, Forall (valid F) h ->
  In s (fs_states F) -> replies F orc fuel h (EnvNext s) (AMoves l) ->
  lists l (legal_env (game_with F (now (book_after F h))) s).
Proof. exact env_listed. Qed.
Print Assumptions C33_envnext.
Theorem C33_sysnexta : forall F orc fuel, ready F orc fuel -> forall h s e l, Forall (valid F) h ->
  In s (fs_states F) -> In e (fs_envs F) -> replies F orc fuel h (SysNextA s e) (AMoves l) ->
  lists l (fun y => legal_sys (game_with F (now (book_after F h))) s e (e ++ y)).
Proof. exact sys_listed. Qed.
Print Assumptions C33_sysnexta.
(** sysnext: legal answers into the winning set and the level below the index of the
    state, or else into its own level *)
Theorem C33_sysnext : forall F orc fuel, ready F orc fuel -> forall h s e i a, Forall (valid F) h ->
  valid F (SysNext s e i) -> replies F orc fuel h (SysNext s e i) a ->
  exists l, a = AMoves l /\ forall K Y j, sublevels F (lev (book_after F h)) i K Y -> index_in K Y s j ->
    lists l (sys_choice F (book_after F h) s e Y j).
Proof. intros F orc fuel HR h s e i a Hh Hv. exact (replies_answers F orc fuel HR h _ a Hh Hv). Qed.
Print Assumptions C33_sysnext.
Theorem C33_getindex : forall F orc fuel, ready F orc fuel -> forall h s i a, Forall (valid F) h ->
  valid F (GetIndex s i) -> replies F orc fuel h (GetIndex s i) a ->
  (sys_wins (game_with F (win (book_after F h))) s -> exists j, a = AIndex j /\
     forall K Y, sublevels F (lev (book_after F h)) i K Y -> index_in K Y s j) /\
  (~ sys_wins (game_with F (win (book_after F h))) s -> a = AInf).
Proof. intros F orc fuel HR h s i a Hh Hv. exact (replies_answers F orc fuel HR h _ a Hh Hv). Qed.
Print Assumptions C33_getindex.
(** the sublevel sets and the index mentioned exist and are unique *)
Theorem C33_sublevels : forall F, well_scoped F -> all_boolean F -> fs_sgoals F <> [] ->
  forall r i, i < List.length (fs_sgoals F) ->
  (exists K Y, sublevels F r i K Y) /\
  (forall K Y K' Y', sublevels F r i K Y -> sublevels F r i K' Y' ->
     K' = K /\ forall j s, j <= K -> In s (fs_states F) -> Y' j s = Y j s) /\
  (forall K Y s, sublevels F r i K Y -> In s (fs_states F) -> exists j, index_in K Y s j) /\
  (forall K Y s j, sublevels F r i K Y -> In s (fs_states F) -> index_in K Y s j ->
     forall K' Y' j', sublevels F r i K' Y' -> index_in K' Y' s j' -> j' = j).
Proof.
  intros F H1 H2 H3 r i Hi.
  exact (Logic.conj (sublevels_exist F H1 H2 H3 r i Hi) (Logic.conj (sublevels_unique F r i)
    (Logic.conj (index_exist F r i) (index_unique F r i)))).
Qed.
Print Assumptions C33_sublevels.
(** every command is answered, except sysnext at a state outside of all sublevel sets when
    no answer leads into the winning set and a sublevel set: then an array is read
    outside of its bounds *)
Theorem C33_answered : forall F orc fuel, ready F orc fuel -> forall h c, Forall (valid F) h -> valid F c ->
  alive F orc fuel h ->
  (~ stuck F (book_after F h) c -> exists a, replies F orc fuel h c a) /\
  (stuck F (book_after F h) c -> asked F orc fuel (h ++ [c]) = Crash).
Proof.
  intros F orc fuel HR h c Hh Hc Ha.
  exact (Logic.conj (replies_exist F orc fuel HR h c Hh Hc Ha) (stuck_crash F orc fuel HR h c Hh Hc)).
Qed.
Print Assumptions C33_answered.
(** the text typed and the text printed *)
Theorem C33_session : forall F orc fuel, ready F orc fuel ->
  int_ok (Z.of_nat (List.length (fs_sgoals F))) -> forall cs, Forall (valid F) cs -> Forall fits cs ->
  levelset_interactive (spec_of F) orc fuel (typed cs) = (l <- asked F orc fuel cs ;; Ok (transcript l)).
Proof. intros F orc fuel (_ & H2 & _) Hi. exact (session_asked F H2 Hi orc fuel). Qed.
Print Assumptions C33_session.
Example C33_instance : ready ex_blink robdd_oracle 9 /\ asked ex_blink robdd_oracle 9
    [Winning [1; 0]; SysNextA [1; 0] []; Winning [0; 0]; GetIndex [1; 0] 0; GetIndex [0; 0] 0;
     GetIndex [0; 1] 0; SysNext [1; 0] [] 0; SysNext [0; 0] [] 0; SysNext [0; 1] [] 0]%Z =
  Ok [ABool true; AMoves [[0; 0]]; ABool true; AIndex 1; AIndex 3; AIndex 2; AMoves []; AMoves [[0; 1]];
      AMoves [[1; 0]; [1; 1]]]%Z.
Proof. exact (Logic.conj ready_blink ex_blink_run). Qed.
Example C33_session_instance :
  typed [Winning [1; 0]; SysNextA [1; 0] []; GetIndex [0; 0] 0; Clear]%Z =
    ("winning 1 0" ++ eol ++ "sysnexta 1 0" ++ eol ++ "getindex 0 0 0" ++ eol ++ "clear" ++ eol)%string /\
  levelset_interactive (spec_of ex_blink) robdd_oracle 9
    (typed [Winning [1; 0]; SysNextA [1; 0] []; GetIndex [0; 0] 0; Clear]%Z) =
  Ok (">>> True" ++ eol ++ ">>> 0 0" ++ eol ++ "---" ++ eol ++ ">>> 3" ++ eol ++ ">>> " ++ ">>> ")%string.
Proof. vm_compute. exact (Logic.conj eq_refl eq_refl). Qed.
Example C33_stuck_instance : ready ex_stuck robdd_oracle 9 /\ valid ex_stuck (SysNext [0; 1] [0] 0)%Z /\
  asked ex_stuck robdd_oracle 9 [SysNext [0; 1] [0] 0]%Z = Crash.
Proof. exact (Logic.conj ready_stuck ex_stuck_run). Qed.
(** the number of a goal that does not exist, or too few values: refused, nothing is computed *)
Theorem C33_no_such_goal : forall F, all_boolean F -> forall s e g, In s (fs_states F) -> In e (fs_envs F) ->
  int_ok g -> (g < 0 \/ Z.of_nat (List.length (fs_sgoals F)) <= g)%Z ->
  command_line (spec_of F) ("sysnext " ++ join (s ++ e ++ [g]) ++ eol) =
    Ok (LSay ("Invalid mode: " ++ zdec g ++ eol)) /\
  command_line (spec_of F) ("getindex " ++ join (s ++ [g]) ++ eol) = Ok (LSay ("Invalid mode: " ++ zdec g ++ eol)).
Proof. exact bad_goal. Qed.
Print Assumptions C33_no_such_goal.
Theorem C33_too_few : forall F l w, ints l ->
  List.length l < List.length (fs_evars F) + List.length (fs_svars F) -> In w ["winning "; "envnext "] ->
  command_line (spec_of F) (w ++ join l ++ eol) = Ok (LSay ("Invalid arguments." ++ eol)).
Proof. exact few_args. Qed.
Print Assumptions C33_too_few.
Example C33_refused_instance :
  levelset_interactive (spec_of ex_blink) robdd_oracle 9
    ("getindex 0 0 1" ++ eol ++ "winning 1" ++ eol ++ "winning 1 0" ++ eol) =
  Ok (">>> Invalid mode: 1" ++ eol ++ ">>> Invalid arguments." ++ eol ++ ">>> True" ++ eol ++ ">>> ")%string.
Proof. vm_compute. reflexivity. Qed.
(** sysnexta may list answers that leave the winning set (as doc/interaction.md says) *)
Theorem C33_sysnexta_winning_refuted : exists F orc fuel s e l y, ready F orc fuel /\
  replies F orc fuel [] (SysNextA s e) (AMoves l) /\ In y l /\
  replies F orc fuel [] (Winning (e ++ y)) (ABool false).
Proof.
  destruct ex_sysnexta_loses as (l & H).
  exact (ex_intro _ ex_stuck (ex_intro _ robdd_oracle (ex_intro _ 9 (ex_intro _ [1; 0]%Z (ex_intro _ [1]%Z
    (ex_intro _ l (ex_intro _ [1]%Z (Logic.conj ready_stuck H)))))))).
Qed.
Print Assumptions C33_sysnexta_winning_refuted.

(** * C48: following sysnext *)
(** at a winning state where the goal does not hold sysnext has an answer, and all its
    answers are legal and winning *)
Theorem C48_answer : forall F orc fuel, ready F orc fuel -> forall h s e i, Forall (valid F) h ->
  alive F orc fuel h -> valid F (SysNext s e i) ->
  sys_wins (game_with F (now (book_after F h))) s -> sgoal F i s = false ->
  legal_env (game_with F (now (book_after F h))) s e ->
  exists l, replies F orc fuel (h ++ [RefreshLevels]) (SysNext s e i) (AMoves l) /\ l <> [] /\
    forall y, In y l -> legal_sys (game_with F (now (book_after F h))) s e (e ++ y) /\
                        sys_wins (game_with F (now (book_after F h))) (e ++ y).
Proof. exact sysnext_answers. Qed.
Print Assumptions C48_answer.
(** with at most one environment goal, following sysnext from a winning state leads to the
    goal, if the environment meets its goal again and again *)
Theorem C48_reaches : forall F orc fuel, ready F orc fuel -> List.length (fs_egoals F) <= 1 ->
  forall h i p, Forall (valid F) h -> i < List.length (fs_sgoals F) -> In (p 0) (fs_states F) ->
  sys_wins (game_with F (now (book_after F h))) (p 0) -> follows F orc fuel h i p ->
  (forall g, In g (fs_egoals F) -> infinitely_often (holds F g) p) ->
  exists t, sgoal F i (p t) = true /\
    forall t', t' <= t -> In (p t') (fs_states F) /\ sys_wins (game_with F (now (book_after F h))) (p t').
Proof. exact follow_reaches. Qed.
Print Assumptions C48_reaches.
Example C48_instance : ready ex_blink robdd_oracle 9 /\ List.length (fs_egoals ex_blink) = 0 /\
  In (ex_blink_play 0) (fs_states ex_blink) /\
  sys_wins (game_with ex_blink (now (book_after ex_blink []))) (ex_blink_play 0) /\
  follows ex_blink robdd_oracle 9 [] 0 ex_blink_play /\ sgoal ex_blink 0 (ex_blink_play 0) = false.
Proof. exact (Logic.conj ready_blink ex_blink_follows). Qed.
(** with two environment goals this fails: the answers listed for one state may follow
    different environment goals, and the play circles for ever although the environment
    meets all its goals *)
Theorem C48_two_goals_refuted : exists F orc fuel i p, ready F orc fuel /\ In (p 0) (fs_states F) /\
  sys_wins (game_with F (now (book_after F []))) (p 0) /\ follows F orc fuel [] i p /\
  (forall g, In g (fs_egoals F) -> infinitely_often (holds F g) p) /\ forall t, sgoal F i (p t) = false.
Proof.
  exact (ex_intro _ ex_toggle (ex_intro _ robdd_oracle (ex_intro _ 5 (ex_intro _ 0 (ex_intro _ ex_swing
    ex_toggle_lost))))).
Qed.
Print Assumptions C48_two_goals_refuted.
