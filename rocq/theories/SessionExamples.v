(** Examples of sessions. *)
From Coq Require Import List ZArith Bool Arith Ascii String Lia.
From Verif Require Import Base Game Strs Ptree Form Support EnumProofs Solve FSpec Automaton AutIO AutIOSpec Synth SynthSpec MainExamples
  Interactive InteractSpec InteractProofs SessionSpec SessionProofs
  Nonbool NonboolProofs RSpec PipeProofs MainSpec ListSpec ListProofs Lex LexSpec Parse Syntax FileSpec TextSpec TextProofs JsonSpec JsonWrite
  Options OptSpec Program ProgramSpec ProgramProofs SessionRun.
Import ListNotations.
Open Scope string_scope.
Open Scope list_scope.
Open Scope Z_scope.

(** where y holds the environment can make the system lose *)
Definition talk_text : string :=
"ENV: x;
SYS: y;
ENVGOAL: []<>x;
SYSTRANS: [](y -> !x' & y');
SYSGOAL: []<>!y & []<>(x | !y);
".
Definition talk : rspec := {|
  rs_evars := [("x", -1)]; rs_svars := [("y", -1)]; rs_einit := None; rs_sinit := None; rs_etrans := [];
  rs_strans := [FImp (FVar "y") (FAnd (FNot (FNext "x")) (FNext "y"))];
  rs_egoals := [FVar "x"];
  rs_sgoals := [FNot (FVar "y"); FOr (FVar "x") (FNot (FVar "y"))]
|}.
Lemma talk_means : text_means talk_text talk.
Proof.
  apply means_by_parse.
  - intros ys H. apply text_symbols_iff in H. destruct H as (ts & H & <-).
    assert (E : exists k, Lex.yylex talk_text = Ok k /\ no_formula (symbols k)) by (eexists; split; [vm_compute; reflexivity|reflexivity]).
    destruct E as (k & E & Hk). rewrite E in H. injection H as <-. exact Hk.
  - vm_compute. reflexivity.
Qed.
Lemma talk_form : form_ok ALL_ENV_EXIST_SYS_INIT talk.
Proof. destruct (form_check_ok ALL_ENV_EXIST_SYS_INIT talk) as [[H _]|(_ & s & H & _)]; [auto|]. exfalso. vm_compute in H. discriminate H. Qed.
Lemma talk_no_ints : GrPatchSpec.no_ints talk.
Proof. intros x d [E|[E|[]]]; injection E as <- <-; reflexivity. Qed.
Definition talk_entries : list entry :=
  [Ask QVar; Ask QNumGoals; Ask (QGoal 1); Ask QEnvGoals; Do (Winning [0; 0]); Do (Winning [0; 1]); Do (EnvNext [0; 1]);
   Do (SysNext [0; 0] [1] 0); Do (BlockEnv [1]); Do (EnvNext [0; 1]); Do RefreshWinning; Do (Winning [0; 1]);
   Ask (QOther "addvar env z"); Do (GetIndex [0; 0] 0); Ask QEnvVar; Ask (QReorder false)].
Definition talk_typed : string :=
"var
numgoals
printgoal 1
printegoals
winning 0 0
winning 0 1
envnext 0 1
sysnext 0 0 1 0
blockenv 1
envnext 0 1
refresh winning
winning 0 1
addvar env z
getindex 0 0 0
envvar
disable autoreorder
quit
".
Definition talk_world (typed : string) : world :=
  World (fun f => if String.eqb f "talk.spc" then Some talk_text else None) typed (fun _ => false).
Definition talk_out : string :=
">>> x (0), y (1)
>>> 2
>>> (x|(!y))
>>> x
---
>>> True
>>> False
>>> 0
1
---
>>> 0
---
>>> >>> 0
---
>>> >>> True
>>> Unrecognized command: addvar env z

>>> 1
>>> x (0)
>>> 
>>> ".
Lemma talk_usable : usable talk.
Proof.
  split; [|split; [|split; [|split]]].
  - unfold well_typed, state_typed, uses, no_ne0, opt_all; cbn; repeat split; intros; repeat match goal with
    | H : _ \/ _ |- _ => destruct H
    | H : False |- _ => destruct H
    | H : (_, _) = (_, _) |- _ => injection H; clear H; intros; subst
    | H : _ = _ |- _ => subst
    | H : In _ _ |- _ => cbn in H
    end; try discriminate; try lia; auto.
  - vm_compute. repeat constructor; simpl; intuition discriminate.
  - split.
    + vm_compute. repeat constructor; simpl; intuition discriminate.
    + intros x d [E|[E|[]]] Hd i Hi; injection E as <- <-; lia.
  - intros x d y e [E|[E|[]]] Hd; injection E as <- <-; lia.
  - intros x d [E|[E|[]]]; injection E as <- <-; reflexivity.
Qed.
Lemma talk_ok : Forall (entry_ok (session_game talk)) talk_entries.
Proof.
  assert (S : forall s, existsb (vec_eqb s) (fs_states (session_game talk)) = true -> In s (fs_states (session_game talk))).
  { intros s H. apply existsb_exists in H. destruct H as (t & Ht & E). apply vec_eqb_eq in E. subst. exact Ht. }
  assert (E : forall s, existsb (vec_eqb s) (fs_envs (session_game talk)) = true -> In s (fs_envs (session_game talk))).
  { intros s H. apply existsb_exists in H. destruct H as (t & Ht & E). apply vec_eqb_eq in E. subst. exact Ht. }
  assert (G : (0 < List.length (fs_sgoals (session_game talk)))%nat /\ (1 < List.length (fs_sgoals (session_game talk)))%nat) by (cbn; lia).
  repeat (apply Forall_cons; [split; [vm_compute; repeat constructor|]|]); [..|apply Forall_nil].
  1, 2: exact I.
  - split; [apply G|]. repeat split; discriminate.
  - intros f [<-|[]]. repeat split; discriminate.
  - apply S. reflexivity.
  - apply S. reflexivity.
  - apply S. reflexivity.
  - split; [apply S; reflexivity|]. split; [apply E; reflexivity|apply G].
  - apply E. reflexivity.
  - apply S. reflexivity.
  - exact I.
  - apply S. reflexivity.
  - split; [reflexivity|]. intros w r H. repeat (destruct H as [<-|H]; [intros X; discriminate X|]). destruct H.
  - split; [apply S; reflexivity|apply G].
  - exact I.
  - exact I.
Qed.
Lemma talk_run : gr1c_program robdd_oracle alloc_max ex_key "now" 40 (talk_world talk_typed) ["-i"; "talk.spc"] = Ok (Exits 0 talk_out None).
Proof. vm_compute. reflexivity. Qed.
Lemma talk_lost : gr1c_program robdd_oracle alloc_max ex_key "now" 40 (talk_world ("sysnext 0 1 1 0" ++ newline_text)) ["-i"; "talk.spc"] = Crash.
Proof. vm_compute. reflexivity. Qed.
Lemma talk_asked : ProgramSpec.asked ["-i"; "talk.spc"] [OInteractive] (Some "talk.spc").
Proof.
  split; [|split; [|split; [|split; [|split; [|split; [|split; [intros b|split; [|discriminate]]]]]]]];
    try (intros H; cbn in H; repeat destruct H as [H|H]; try discriminate H; auto; fail).
  - intros (a & r & E & H). injection E as <- _. cbn in H. repeat destruct H as [H|H]; try discriminate H; auto.
  - exists [["-i"]], ["talk.spc"]. split; [|split; [constructor; reflexivity | reflexivity]]. repeat constructor.
  - intros b H. cbn in H. repeat destruct H as [H|H]; try discriminate H; auto.
Qed.
Lemma addvar_unknown :
  (exists a b, help_page = (a ++ "addvar env (sys) VARIABLE" ++ b)%string) /\
  forall F r, has_newline r = false -> (String.length r < 240)%nat ->
    entry_ok F (Ask (QOther ("addvar " ++ r)%string)) /\
    forall t, query_reply F (QOther ("addvar " ++ r)%string) t <-> t = ("Unrecognized command: addvar " ++ r ++ newline_text)%string.
Proof.
  split.
  - exists (String.concat newline_text ["winning STATE"; "envnext STATE"; "sysnext STATE1 STATE2ENV GOALMODE"; "sysnexta STATE1 STATE2ENV";
      "restrict STATE1 STATE2"; "relax STATE1 STATE2"; "clear"; "blocksys STATESYS"; "blockenv STATEENV";
      "getindex STATE GOALMODE"; "refresh winning"; "refresh levels"; ""]), (newline_text ++ String.concat newline_text ["envvar"; "sysvar";
      "var"; "numgoals"; "printgoal GOALMODE"; "printegoals"; "enable (disable) autoreorder"; "quit"])%string. reflexivity.
  - intros F r Hr Hl. split; [|intros t; cbn; reflexivity]. split.
    + cbn [entry_text query_line]. rewrite !InteractText.string_len_app. cbn. lia.
    + split; [rewrite newline_app, Hr; reflexivity|]. intros w q H. repeat (destruct H as [<-|H]; [intros X; discriminate X|]). destruct H.
Qed.
Lemma addvar_run :
  gr1c_program robdd_oracle alloc_max ex_key "now" 40 (talk_world ("addvar env z" ++ newline_text)) ["-i"; "talk.spc"] =
    Ok (Exits 0 (">>> Unrecognized command: addvar env z" ++ newline_text ++ newline_text ++ ">>> ")%string None).
Proof. vm_compute. reflexivity. Qed.
Lemma lamp_refused : (exists x d, In (x, d) (rs_vars NbExamples.ex_int) /\ (0 <= d)%Z) /\
  gr1c_program robdd_oracle alloc_max ex_key "now" 40 (World (fun _ => Some ex_text) "" (fun _ => false)) ["-i"; "lamp.spc"] = Ok error_exit.
Proof.
  split; [|vm_compute; reflexivity].
  assert (E : existsb (fun v => 0 <=? snd v) (rs_vars NbExamples.ex_int) = true) by reflexivity.
  apply existsb_exists in E. destruct E as ([x d] & H1 & H2). exists x, d. split; [exact H1|apply Z.leb_le; exact H2].
Qed.
