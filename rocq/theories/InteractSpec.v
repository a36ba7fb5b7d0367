(** Specification: what an interactive session (gr1c -i) must answer.

    Not a model of code, except [encode], [asked] and [command_text], which say how the
    commands of a session are handed to the model of src/interactive.c. The meaning of
    the commands follows doc/interaction.md. *)
From Coq Require Import List ZArith Bool Arith String.
From Verif Require Import Base Game Levels Bdd Support Strs Ptree Form Solve FSpec SolveProofs SynthSpec
  Automaton Synth AutIO ReadState ReadSpec Interactive.
Import ListNotations.
Open Scope string_scope.
Open Scope list_scope.
Open Scope nat_scope.

(** the moves allowed at some time of the session *)
Record rules := {
  may_env : vec -> vec -> bool;
  may_sys : vec -> vec -> bool
}.

Inductive command :=
| Winning (s : vec)
| EnvNext (s : vec)
| SysNext (s e : vec) (i : nat)
| SysNextA (s e : vec)
| GetIndex (s : vec) (i : nat)
| RestrictEnv (s e : vec)
| RestrictSys (s s' : vec)
| RelaxEnv (s e : vec)
| RelaxSys (s s' : vec)
| BlockEnv (e : vec)
| BlockSys (y : vec)
| Clear
| RefreshWinning
| RefreshLevels.

Section InteractSpec.
  Variable F : fspec.

  (** the rules of the specification as loaded *)
  Definition loaded : rules := {| may_env := g_etr (game_of F); may_sys := g_str (game_of F) |}.
  (** the game of the specification with other rules *)
  Definition game_with (r : rules) : game vec vec := {|
    g_states := fs_states F;
    g_envs := fs_envs F;
    g_env := g_env (game_of F);
    g_etr := may_env r;
    g_str := may_sys r;
    g_egoals := g_egoals (game_of F);
    g_sgoals := g_sgoals (game_of F)
  |}.
  (** valuations of the system variables, and the system part of a state *)
  Definition fs_outs : list vec := dvecs (doms (fs_svars F)).
  Definition out_of (s : vec) : vec := skipn (List.length (fs_evars F)) s.

  Definition with_env (r : rules) (f : vec -> vec -> bool) : rules :=
    {| may_env := f; may_sys := may_sys r |}.
  Definition with_sys (r : rules) (f : vec -> vec -> bool) : rules :=
    {| may_env := may_env r; may_sys := f |}.
  (** the rules after a command *)
  Definition edit (c : command) (r : rules) : rules :=
    match c with
    | RestrictEnv s e => with_env r (fun u x => may_env r u x && negb (vec_eqb u s && vec_eqb x e))
    | RestrictSys s s' => with_sys r (fun u x => may_sys r u x && negb (vec_eqb u s && vec_eqb x s'))
    | RelaxEnv s e => with_env r (fun u x => may_env r u x || (vec_eqb u s && vec_eqb x e))
    | RelaxSys s s' => with_sys r (fun u x => may_sys r u x || (vec_eqb u s && vec_eqb x s'))
    | BlockEnv e => with_env r (fun u x => may_env r u x && negb (vec_eqb x e))
    | BlockSys y => with_sys r (fun u x => may_sys r u x && negb (vec_eqb (out_of x) y))
    | Clear => loaded
    | _ => r
    end.

  (** the rules in force now, at the last computation of the winning set, and at the
      last computation of the sublevel sets *)
  Record book := { now : rules; win : rules; lev : rules }.
  Definition opening : book := {| now := loaded; win := loaded; lev := loaded |}.
  Definition update (b : book) (c : command) : book := {|
    now := edit c (now b);
    win := match c with RefreshWinning | RefreshLevels => now b | _ => win b end;
    lev := match c with RefreshLevels => now b | _ => lev b end
  |}.
  Definition book_after (h : list command) : book := fold_left update h opening.

  (** [Y 0], ..., [Y K] are the sublevel sets of the game with rules [r] and system
      goal [i] (Levels.v); an environment without goals has the goal True *)
  Definition sublevels (r : rules) (i K : nat) (Y : nat -> vec -> bool) : Prop :=
    exists W X,
      (forall s, In s (fs_states F) -> (W s = true <-> sys_wins (game_with r) s)) /\
      is_ladder (game_with r) (sgoal F i) W (fun q => holds F (nth q (egoals1 F) FTrue))
        (List.length (egoals1 F)) K Y X.
  (** [j] is the first level that contains [s], or [K + 1] *)
  Definition index_in (K : nat) (Y : nat -> vec -> bool) (s : vec) (j : nat) : Prop :=
    0 < j <= K + 1 /\ Y (j - 1) s = false /\ (j <= K -> Y j s = true).

  (** the system may answer the move [e] made in [s] with [y] and is then in the
      winning set and in [T] *)
  Definition good_answer (b : book) (s e : vec) (T : vec -> bool) (y : vec) : Prop :=
    legal_sys (game_with (now b)) s e (e ++ y) /\ sys_wins (game_with (win b)) (e ++ y) /\
    T (e ++ y) = true.
  (** the answers sysnext must list when [s] has index [j] *)
  Definition sys_choice (b : book) (s e : vec) (Y : nat -> vec -> bool) (j : nat) (y : vec) : Prop :=
    good_answer b s e (Y (j - 1)) y \/
    (forall z, ~ good_answer b s e (Y (j - 1)) z) /\ good_answer b s e (Y j) y.

  (** a list without repetitions of exactly the elements of [P] *)
  Definition lists (l : list vec) (P : vec -> Prop) : Prop := NoDup l /\ forall x, In x l <-> P x.

  (** sysnext is asked at a state outside of all levels and there is no answer into the
      winning set and the last level *)
  Definition stuck (b : book) (c : command) : Prop :=
    match c with
    | SysNext s e i => forall K Y, sublevels (lev b) i K Y ->
        index_in K Y s (K + 1) /\ forall z, ~ good_answer b s e (Y K) z
    | _ => False
    end.
  Definition answers (b : book) (c : command) (a : answer) : Prop :=
    match c with
    | Winning s => exists v, a = ABool v /\ (v = true <-> sys_wins (game_with (win b)) s)
    | EnvNext s =>
        match fs_evars F with
        | [] => a = ANone
        | _ => exists l, a = AMoves l /\ lists l (legal_env (game_with (now b)) s)
        end
    | SysNextA s e =>
        exists l, a = AMoves l /\ lists l (fun y => legal_sys (game_with (now b)) s e (e ++ y))
    | SysNext s e i =>
        exists l, a = AMoves l /\
          forall K Y j, sublevels (lev b) i K Y -> index_in K Y s j -> lists l (sys_choice b s e Y j)
    | GetIndex s i =>
        (sys_wins (game_with (win b)) s -> exists j, a = AIndex j /\
           forall K Y, sublevels (lev b) i K Y -> index_in K Y s j) /\
        (~ sys_wins (game_with (win b)) s -> a = AInf)
    | _ => a = ASilent
    end.
  Inductive session_ok : book -> list command -> list answer -> Prop :=
  | session_nil : forall b, session_ok b [] []
  | session_cons : forall b c cs a l, answers b c a -> session_ok (update b c) cs l ->
      session_ok b (c :: cs) (a :: l).

  (** the arguments have the right length and are valuations, goals exist *)
  Definition valid (c : command) : Prop :=
    let st := fun s => In s (fs_states F) in
    let en := fun e => In e (fs_envs F) in
    match c with
    | Winning s | EnvNext s => st s
    | SysNext s e i => st s /\ en e /\ i < List.length (fs_sgoals F)
    | SysNextA s e | RestrictEnv s e | RelaxEnv s e => st s /\ en e
    | GetIndex s i => st s /\ i < List.length (fs_sgoals F)
    | RestrictSys s s' | RelaxSys s s' => st s /\ st s'
    | BlockEnv e => en e
    | BlockSys y => In y fs_outs
    | Clear | RefreshWinning | RefreshLevels => True
    end.

  (** ** The commands in the model *)
  Definition encode (c : command) : intcom :=
    match c with
    | Winning s => INTCOM_WINNING s
    | EnvNext s => INTCOM_ENVNEXT s
    | SysNext s e i => INTCOM_SYSNEXT (s ++ e) (Z.of_nat i)
    | SysNextA s e => INTCOM_SYSNEXTA (s ++ e)
    | GetIndex s i => INTCOM_GETINDEX s (Z.of_nat i)
    | RestrictEnv s e => INTCOM_RESTRICT (s ++ e)
    | RestrictSys s s' => INTCOM_RESTRICT (s ++ s')
    | RelaxEnv s e => INTCOM_RELAX (s ++ e)
    | RelaxSys s s' => INTCOM_RELAX (s ++ s')
    | BlockEnv e => INTCOM_BLKENV e
    | BlockSys y => INTCOM_BLKSYS y
    | Clear => INTCOM_CLEAR
    | RefreshWinning => INTCOM_REWIN
    | RefreshLevels => INTCOM_RELEVELS
    end.
  (** the answers to a list of commands *)
  Definition asked (orc : oracle) (fuel : nat) (cs : list command) : out (list answer) :=
    let sp := spec_of F in
    b <- spec_BDDs sp ;;
    match b with
    | (et, st, eg, sg) =>
        x <- start_state (num_env sp) (num_sys sp) et st eg sg orc fuel ;;
        p <- exec_all (num_env sp) (num_sys sp) et st eg sg orc fuel x (map encode cs) ;;
        Ok (snd p)
    end.

  (** the specification can be used in interaction mode, the cubes of CUDD are cubes, and
      the loops may run long enough *)
  Definition ready (orc : oracle) (fuel : nat) : Prop :=
    well_scoped F /\ all_boolean F /\ fs_sgoals F <> [] /\ fs_svars F <> [] /\
    oracle_ok (2 * (List.length (fs_evars F) + List.length (fs_svars F))) orc /\
    List.length (fs_sgoals F) * 2 ^ (List.length (fs_evars F) + List.length (fs_svars F)) +
      2 ^ (List.length (fs_evars F) + List.length (fs_svars F)) < fuel.
  (** after the commands [h] the session still runs *)
  Definition alive (orc : oracle) (fuel : nat) (h : list command) : Prop :=
    exists l, asked orc fuel h = Ok l.
  (** after the commands [h] the command [c] is answered with [a] *)
  Definition replies (orc : oracle) (fuel : nat) (h : list command) (c : command) (a : answer) : Prop :=
    exists l, asked orc fuel (h ++ [c]) = Ok (l ++ [a]) /\ List.length l = List.length h.

  (** after the commands [h] the list of envnext for [u] contains [x] *)
  Definition shown_env (orc : oracle) (fuel : nat) (h : list command) (u x : vec) : Prop :=
    exists l, replies orc fuel h (EnvNext u) (AMoves l) /\ In x l.
  (** after the commands [h] the list of sysnexta for [u] and the environment part of [x]
      contains the system part of [x] *)
  Definition shown_sys (orc : oracle) (fuel : nat) (h : list command) (u x : vec) : Prop :=
    exists l, replies orc fuel h (SysNextA u (firstn (List.length (fs_evars F)) x)) (AMoves l) /\
      In (out_of x) l.
  (** a play in which, until goal [i] holds, the environment moves as it may and the system
      chooses among the answers listed by sysnext, after [h] and "refresh levels" *)
  Definition follows (orc : oracle) (fuel : nat) (h : list command) (i : nat) (p : nat -> vec) : Prop :=
    forall t, (forall t', t' <= t -> sgoal F i (p t') = false) -> exists e y l, legal_env (game_with (now (book_after h))) (p t) e /\
      replies orc fuel (h ++ [RefreshLevels]) (SysNext (p t) e i) (AMoves l) /\ In y l /\ p (S t) = e ++ y.

  (** ** The commands as typed, and the transcript *)
  Definition command_text (c : command) : string :=
    let args := fun l => (join l ++ eol)%string in
    match c with
    | Winning s => ("winning " ++ args s)%string
    | EnvNext s => ("envnext " ++ args s)%string
    | SysNext s e i => ("sysnext " ++ args (s ++ e ++ [Z.of_nat i])%list)%string
    | SysNextA s e => ("sysnexta " ++ args (s ++ e)%list)%string
    | GetIndex s i => ("getindex " ++ args (s ++ [Z.of_nat i])%list)%string
    | RestrictEnv s e => ("restrict " ++ args (s ++ e)%list)%string
    | RestrictSys s s' => ("restrict " ++ args (s ++ s')%list)%string
    | RelaxEnv s e => ("relax " ++ args (s ++ e)%list)%string
    | RelaxSys s s' => ("relax " ++ args (s ++ s')%list)%string
    | BlockEnv e => ("blockenv " ++ args e)%string
    | BlockSys y => ("blocksys " ++ args y)%string
    | Clear => ("clear" ++ eol)%string
    | RefreshWinning => ("refresh winning" ++ eol)%string
    | RefreshLevels => ("refresh levels" ++ eol)%string
    end.
  Definition typed (cs : list command) : string := String.concat "" (map command_text cs).
  (** the line fits into the buffer of 256 bytes *)
  Definition fits (c : command) : Prop := String.length (command_text c) < 256.
  Fixpoint transcript (l : list answer) : string :=
    match l with
    | [] => ">>> "
    | a :: r => (">>> " ++ answer_text a ++ transcript r)%string
    end.
End InteractSpec.
