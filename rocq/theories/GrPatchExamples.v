(** Runs of gr1c and then gr1c-patch. *)
From Coq Require Import List ZArith Bool Arith Ascii String Lia.
From Verif Require Import Interactive InteractSpec Patch PatchSpec PatchLoad HotLoad PatchExamples.
From Verif Require Import Base Game Strs Ptree Form Support EnumProofs Solve SolveProofs FSpec Automaton AutProofs
  SynthSpec Synth SynthFindings Nonbool NonboolProofs RSpec NbExamples NbStateProofs PipeProofs Main MainSpec PipeVerdict MainProofs MainExamples FormCheck ListSpec ListProofs AutIO AutIOSpec AutIOProofs
  ReadSpec ReadProofs Lex LexSpec Parse Syntax FileSpec TextSpec TextProofs AutWrite Output JsonSpec JsonWrite FormatSpec WriteProofs FormatProofs AutmanProofs
  Options OptSpec Program ProgramSpec Hotswap HotSpec HotExamples Metric MetricSpec AddSpec HotInt
  GrPatch GrPatchSpec GrPatchMade GrPatchRuns.
Import ListNotations.
Open Scope string_scope.
Open Scope list_scope.
Open Scope Z_scope.

Lemma text_given : forall R A text, correct (fspec_of R) A -> can_write (Z.of_nat (List.length (rs_vars R))) A = true ->
  aut_aut_dump A (Z.of_nat (List.length (rs_vars R))) = Ok text -> strategy_text R A text.
Proof.
  intros R A text HC Hw E. destruct (can_write_ok _ _ Hw) as (W & t & E' & Hs). rewrite E in E'. injection E' as <-.
  split; [exact HC|]. split; [exact W|]. split; [exact Hs|].
  destruct W as (_ & _ & Hnd & _ & HW).
  assert (H1 : states_fit (List.length (rs_vars R)) A) by (intros x Hx; destruct (HW x Hx) as (X & _); lia).
  assert (H2 : closed_aut A) by (intros x Hx t Ht; destruct (HW x Hx) as (_ & _ & _ & _ & X); auto).
  exists (rows_aut A). split; [apply rows_numbered; exact H2|].
  rewrite (AutmanProofs.aut_text A (rows_aut A) _ H1 H2 Hnd) in E by (apply rows_numbered; exact H2). injection E as <-. reflexivity.
Qed.
Lemma plain_now : chars plain "now".
Proof. cbn. unfold plain. cbn. repeat split; try discriminate; try lia. Qed.

(** ** Rooms in a row; nobody may enter room 3 while e holds *)
Definition rooms_text : string :=
"ENV: e;
SYS: x[0,3];
SYSINIT: x = 0;
SYSTRANS: [](x = 0 -> x' < 2) & [](x = 1 -> x' < 3)
  & [](x = 2 -> x' > 0) & [](x = 3 -> x' > 1) & [](e' & x < 3 -> x' < 3);
ENVGOAL: []<>!e;
SYSGOAL: []<>(x = 0) & []<>(x = 3) & []<>(x = 2);
".
Definition rooms : rspec := {|
  rs_evars := [("e", -1)]; rs_svars := [("x", 3)];
  rs_einit := None; rs_sinit := Some (FCmp false "x" CEq 0);
  rs_etrans := [];
  rs_strans := [FImp (FCmp false "x" CEq 0) (FCmp true "x" CLt 2); FImp (FCmp false "x" CEq 1) (FCmp true "x" CLt 3);
                FImp (FCmp false "x" CEq 2) (FCmp true "x" CGt 0); FImp (FCmp false "x" CEq 3) (FCmp true "x" CGt 1);
                FImp (FAnd (FNext "e") (FCmp false "x" CLt 3)) (FCmp true "x" CLt 3)];
  rs_egoals := [FNot (FVar "e")];
  rs_sgoals := [FCmp false "x" CEq 0; FCmp false "x" CEq 3; FCmp false "x" CEq 2]
|}.
Lemma rooms_means : text_means rooms_text rooms.
Proof.
  apply means_by_parse.
  - intros ys H. apply text_symbols_iff in H. destruct H as (ts & H & <-).
    assert (E : exists k, Lex.yylex rooms_text = Ok k /\ no_formula (symbols k)) by (eexists; split; [vm_compute; reflexivity|reflexivity]).
    destruct E as (k & E & Hk). rewrite E in H. injection H as <-. exact Hk.
  - vm_compute. reflexivity.
Qed.
Lemma rooms_form : form_ok UNDEFINED_INIT rooms.
Proof. destruct (form_check_ok UNDEFINED_INIT rooms) as [[H _]|(_ & s & H & _)]; [auto|]. exfalso. vm_compute in H. discriminate H. Qed.
Ltac typed := unfold goal_typed, well_typed, state_typed, uses, no_ne0, opt_all; cbn;
  repeat split; intros; repeat match goal with
    | H : _ \/ _ |- _ => destruct H
    | H : False |- _ => destruct H
    | H : (_, _) = (_, _) |- _ => injection H; clear H; intros; subst
    | H : _ = _ |- _ => subst
    | H : In _ _ |- _ => cbn in H
    end; try discriminate; try lia; auto; try (exists 3; split; [lia|solve [auto]]).
Lemma rooms_usable : usable rooms.
Proof.
  split; [|split; [|split; [|split]]].
  - typed.
  - vm_compute. repeat constructor; simpl; intuition discriminate.
  - split.
    + vm_compute. repeat constructor; simpl; intuition discriminate.
    + intros x d [E|[E|[]]] Hd i Hi; injection E as <- <-; [lia|]; change (width 3) with 2 in Hi;
        assert (Hc : i = 0 \/ i = 1) by lia; destruct Hc as [-> | ->]; vm_compute; discriminate.
  - intros x d y e [E|[E|[]]] Hd [E'|[E'|[]]] Hne b Hb; injection E as <- <-; injection E' as <- <-;
      try congruence; try lia; vm_compute in Hb; destruct Hb as [<-|[]]; reflexivity.
  - intros x d [E|[E|[]]]; injection E as <- <-; reflexivity.
Qed.
Lemma rooms_tools : tools rooms robdd_oracle alloc_max.
Proof. split; [apply robdd_oracle_ok|apply (proj2 (tools_exist (fspec_of rooms)))]. Qed.

Definition rooms_aut : aut := Eval vm_compute in
  match gr1c_main robdd_oracle alloc_max 40 MODE_SYNTHESIS ALL_INIT (raw_of rooms) with Ok (Strategy A _ _) => A | _ => [] end.
Definition rooms_file : string :=
"1
0 0 0 0 1 3 9 10
1 1 1 0 0 1 0 10
2 0 1 0 0 1 0 10
3 1 2 0 0 1 2 1
4 0 2 0 0 2 2 3
5 0 3 0 2 1 4 3
6 1 2 0 1 1 5 6
7 0 2 0 1 1 5 6
8 1 1 0 1 1 7 6
9 0 1 0 1 2 7 6
10 1 0 1 1 2 9 8
".
Lemma rooms_made : correct (fspec_of rooms) rooms_aut /\ in_order (fspec_of rooms) rooms_aut /\ seeks (fspec_of rooms) rooms_aut.
Proof.
  assert (E : exists A', synthesize (spec_of (solver_spec (-1) ALL_INIT rooms)) robdd_oracle alloc_max 40 ALL_INIT = Ok A' /\ A' <> [] /\
    with_states (EncProofs.dec (rs_vars rooms)) A' = rooms_aut).
  { eexists. split; [vm_compute; reflexivity|]. split; [discriminate|vm_compute; reflexivity]. }
  destruct E as (A' & E & Hne & <-).
  refine (made_int ALL_INIT rooms rooms_usable robdd_oracle alloc_max rooms_tools _ _ 40 A' E Hne); discriminate.
Qed.
Lemma rooms_strategy : strategy_text rooms rooms_aut rooms_file.
Proof. apply text_given; [apply rooms_made|vm_compute; reflexivity|vm_compute; reflexivity]. Qed.

Definition rooms_world : world :=
  World (fun f => if String.eqb f "rooms.spc" then Some rooms_text else if String.eqb f "rooms.aut" then Some rooms_file
                  else None) rooms_file (fun f => String.eqb f "new.aut").
Lemma rooms_spec : spec_given rooms_world ["rooms.spc"] rooms.
Proof. split; [exists rooms_text; split; [reflexivity|exact rooms_means]|]. split; [exact rooms_form|exact rooms_usable]. Qed.
Lemma rooms_input : patch_input rooms_world ["rooms.spc"] "rooms.aut" rooms rooms_aut.
Proof. split; [exact rooms_spec|]. exists rooms_file. split; [reflexivity|exact rooms_strategy]. Qed.

Ltac no_such := let H := fresh in intros H; cbn in H; repeat destruct H as [H|H]; try discriminate H; auto.
Ltac asked_tac := split; [|split; [intros ?b; no_such|split; [no_such|split; [split; [no_such|split; [no_such|intros ?b; no_such]]|
  split; [intros [[X Y]|[X Y]]; cbn in *; congruence|split; [intros [X Y]; discriminate X|split; reflexivity]]]]]].

(** *** the second goal is removed *)
Definition rm_args : list string := ["-t"; "aut"; "-a"; "rooms.aut"; "-r"; "1"; "rooms.spc"; "-o"; "new.aut"].
Definition rm_opts : list popt := [PType FORMAT_AUT; PAut "rooms.aut"; PRemove 1; POut "new.aut"].
Lemma rm_asked : patch_asked rm_args rm_opts ["rooms.spc"] (Remove 1) "rooms.aut".
Proof.
  asked_tac.
  apply (pl_opt (PType FORMAT_AUT) ["-t"; "aut"]); [exact (pw_t FORMAT_AUT "")|].
  apply (pl_opt (PAut "rooms.aut") ["-a"; "rooms.aut"]); [constructor|].
  apply (pl_opt (PRemove 1) ["-r"; "1"]).
  { apply (pw_r "1" 1); [|vm_compute; discriminate]. exists "1", "". split; [reflexivity|]. split; [exact (zdec_text "" 1 eq_refl)|reflexivity]. }
  apply pl_file; [reflexivity|]. apply (pl_opt (POut "new.aut") ["-o"; "new.aut"]); constructor.
Qed.
Lemma rm_ready : ready robdd_oracle alloc_max ex_key "now" rooms_world rm_args rm_opts (Remove 1) rooms rooms_aut [].
Proof.
  split; [exists ["rooms.spc"], "rooms.aut"; split; [exact rm_asked|exact rooms_input]|split; [reflexivity|intros x []]|
    exact rooms_tools|exact ex_key_ok|exact plain_now].
Qed.
Lemma rooms_states : forall P : vec -> Prop, (forall s, In s (fs_states (fspec_of rooms)) -> P s) <->
  Forall P [[0; 0]; [0; 1]; [0; 2]; [0; 3]; [1; 0]; [1; 1]; [1; 2]; [1; 3]].
Proof.
  intros P. replace [[0; 0]; [0; 1]; [0; 2]; [0; 3]; [1; 0]; [1; 1]; [1; 2]; [1; 3]] with (fs_states (fspec_of rooms)) by (vm_compute; reflexivity).
  rewrite Forall_forall. reflexivity.
Qed.
Lemma rooms_apart : forall i j, (i < 3)%nat -> (j < 3)%nat -> i <> j -> apart (fspec_of rooms) i j.
Proof.
  intros i j Hi Hj Hn. unfold apart. apply (rooms_states (fun s => sgoal (fspec_of rooms) i s = true -> sgoal (fspec_of rooms) j s = true -> False)).
  assert (Ci : (i = 0 \/ i = 1 \/ i = 2)%nat) by lia. assert (Cj : (j = 0 \/ j = 1 \/ j = 2)%nat) by lia.
  destruct Ci as [-> | [-> | ->]], Cj as [-> | [-> | ->]]; try congruence; repeat (constructor; [vm_compute; intros; discriminate|]); constructor.
Qed.
Lemma rooms_env : GrPatchSpec.env_moves rooms.
Proof.
  unfold GrPatchSpec.env_moves. apply (rooms_states (fun s => exists e, legal_env (game_of (fspec_of rooms)) s e)).
  repeat (constructor; [exists [0]; vm_compute; auto|]). constructor.
Qed.
Lemma rooms_not_skipped : not_skipped (fspec_of rooms) 1 rooms_aut.
Proof.
  destruct rooms_made as (C & O & _). apply HotSynth.order_not_skipped; [cbn; lia|cbn; lia|apply (co_states _ _ C)|exact O|].
  intros j Hj E. apply rooms_apart; [exact Hj|lia|]. intros ->. vm_compute in E. discriminate E.
Qed.
Lemma rooms_exits : exits_fit (fspec_of rooms) 1 rooms_aut.
Proof.
  exists (filter (fun x => Automaton.amode x =? 0) rooms_aut), (filter (fun x => negb (Automaton.amode x =? 0)) rooms_aut).
  destruct rooms_made as (C & O & _). split; [|split; [|split]].
  - intros y (Hy & (E1 & E2) & _). apply filter_In. split; [exact Hy|]. destruct (proj1 O y Hy) as [H1 H2].
    change (HotSpec.after (fspec_of rooms) 1) with 2%nat in E2. change (List.length (fs_sgoals (fspec_of rooms))) with 3%nat in H2. lia.
  - apply NoDup_filter. apply (NoDup_map_inv aid). exact (co_ids _ _ C).
  - intros x Hx. apply filter_In in Hx. destruct Hx as (Hx & E). split; [exact Hx|]. intros (E1 & E2).
    destruct (proj1 O x Hx) as [H1 H2].
    change (HotSpec.after (fspec_of rooms) 1) with 2%nat in E2. change (List.length (fs_sgoals (fspec_of rooms))) with 3%nat in H2. lia.
  - vm_compute. lia.
Qed.
Definition rm_file : string :=
"1
0 1 1 0 0 1 5 6
1 0 1 0 0 1 5 6
2 1 2 0 0 1 1 0
3 0 2 0 0 2 1 2
4 0 1 0 2 1 3 2
5 0 0 0 2 2 4 6
6 1 0 1 2 1 4 6
".
Lemma rm_run : ready robdd_oracle alloc_max ex_key "now" rooms_world rm_args rm_opts (Remove (Z.of_nat 1)) rooms rooms_aut [] /\
  (3 <= List.length (rs_sgoals rooms))%nat /\ (1 < List.length (rs_sgoals rooms))%nat /\
  in_order (fspec_of rooms) rooms_aut /\ not_skipped (fspec_of rooms) 1 rooms_aut /\
  GrPatchSpec.env_moves rooms /\ (rs_evars rooms <> [] \/ rs_etrans rooms = []) /\ seeks (fspec_of rooms) rooms_aut /\
  apart (fspec_of rooms) 2 0 /\ exits_fit (fspec_of rooms) 1 rooms_aut /\ taken_up (fspec_of rooms) 1 rooms_aut /\ ~ no_out_file rooms_world rm_opts /\
  patch_program robdd_oracle alloc_max ex_key "now" (fun _ => NULL) 40 rooms_world rm_args = Ok (Exits 0 "" (Some ("new.aut", rm_file))).
Proof.
  split; [exact rm_ready|]. split; [cbn; lia|]. split; [cbn; lia|]. split; [apply rooms_made|]. split; [exact rooms_not_skipped|].
  split; [exact rooms_env|]. split; [left; discriminate|]. split; [apply rooms_made|]. split; [apply rooms_apart; lia|].
  split; [exact rooms_exits|]. split; [|split; [|vm_compute; reflexivity]].
  - assert (E : exists x y, nth_error rooms_aut 1 = Some x /\ nth_error rooms_aut 0 = Some y /\ existsb (Nat.eqb (aid y)) (atrans x) = true /\
      Automaton.amode x <> 1 /\ Automaton.amode y = 1).
    { eexists; eexists. split; [reflexivity|]. split; [reflexivity|]. split; [vm_compute; reflexivity|]. split; [vm_compute; discriminate|reflexivity]. }
    destruct E as (x & y & Ex & Ey & Ht & E1 & E2). exists x, y. split; [eapply nth_error_In; eauto|]. split; [eapply nth_error_In; eauto|].
    split; [|split; [exact E1|exact E2]]. apply existsb_exists in Ht. destruct Ht as (t & Ht & E). apply Nat.eqb_eq in E. subst. exact Ht.
  - intros (f & E & E'). injection E as <-. discriminate E'.
Qed.

(** *** the goal x = 1 is added; the strategy comes from stdin *)
Definition add_args : list string := ["-m"; " x"; "-f"; "x = 1"; "-a"; "-"; "-t"; "aut"; "--"; "rooms.spc"].
Definition add_opts : list popt := [PMetric " x"; PGoal "x = 1"; PAut "-"; PType FORMAT_AUT].
Lemma add_asked' : patch_asked add_args add_opts ["rooms.spc"] (Add "x = 1") "-".
Proof.
  asked_tac.
  apply (pl_opt (PMetric " x") ["-m"; " x"]); [constructor|].
  apply (pl_opt (PGoal "x = 1") ["-f"; "x = 1"]); [constructor|].
  apply (pl_opt (PAut "-") ["-a"; "-"]); [constructor|].
  apply (pl_opt (PType FORMAT_AUT) ["-t"; "aut"]); [exact (pw_t FORMAT_AUT "")|constructor].
Qed.
Lemma rooms_measured : measured rooms add_opts ["x"].
Proof.
  split; [exact (spaced_space _ _ (spaced_last "x"))|].
  intros x [<-|[]]. split; [split; [discriminate|intros [H|[]]; discriminate H]|]. split; [right; left; reflexivity|].
  intros y e [E|[E|[]]] Hn b Hb; injection E as <- <-; [|congruence]. vm_compute in Hb. destruct Hb as [<-|[]]. reflexivity.
Qed.
Lemma add_ready : ready robdd_oracle alloc_max ex_key "now" rooms_world add_args add_opts (Add "x = 1") rooms rooms_aut ["x"].
Proof.
  split; [exists ["rooms.spc"], "-"; split; [exact add_asked'|split; [exact rooms_spec|exists rooms_file; split; [reflexivity|exact rooms_strategy]]]|
    exact rooms_measured|exact rooms_tools|exact ex_key_ok|exact plain_now].
Qed.
Lemma add_means : formula_means "x = 1" (FCmp false "x" CEq 1).
Proof.
  exists [YVar "x"; YEq; YNum 1]. split.
  - apply text_symbols_iff. eexists. split; vm_compute; reflexivity.
  - do 4 constructor. exact (at_cmp false "x" CEq 1).
Qed.
Lemma add_place : comes_behind ["x"] rooms (FCmp false "x" CEq 1) 0.
Proof.
  split; [cbn; lia|]. split; [discriminate|]. intros _ _.
  exists (fun j => match j with 0%nat => 1 | 1%nat => 2 | _ => 1 end). split; [|split].
  - intros j Hj. cbn [List.length rs_sgoals rooms] in Hj. unfold value_goal_dist. cbn zeta.
    assert (K : forall f a c d, (forall s, In s (fs_states (fspec_of rooms)) -> (holds (fspec_of rooms) f s = true <-> nth 1 s 0 = a)) ->
       In [0; a] (fs_states (fspec_of rooms)) -> c = 1 -> d = Z.abs (a - c) ->
       let pairs := fun p : vec * vec => In (fst p) (fs_states (fspec_of rooms)) /\ In (snd p) (fs_states (fspec_of rooms)) /\
          holds (fspec_of rooms) f (fst p) = true /\ holds (fspec_of rooms) (FCmp false "x" CEq 1) (snd p) = true in
       ((exists p, pairs p) -> least pairs (fun p => value_dist (rs_vars rooms) ["x"] (snd p) (fst p)) d) /\
       ((forall p, ~ pairs p) -> d = -1)).
    { intros f a c d Hf Ha -> -> pairs.
      assert (H1 : pairs ([0; a], [0; 1])).
      { repeat split; cbn [fst snd]; auto; [vm_compute; tauto|apply Hf; auto]. }
      assert (Hg : forall s, In s (fs_states (fspec_of rooms)) -> holds (fspec_of rooms) (FCmp false "x" CEq 1) s = true -> nth 1 s 0 = 1).
      { apply (rooms_states (fun s => holds (fspec_of rooms) (FCmp false "x" CEq 1) s = true -> nth 1 s 0 = 1)).
        repeat (constructor; [vm_compute; intros; congruence|]). constructor. }
      assert (Hv : forall s t, In s (fs_states (fspec_of rooms)) -> In t (fs_states (fspec_of rooms)) ->
        value_dist (rs_vars rooms) ["x"] t s = Z.abs (nth 1 t 0 - nth 1 s 0)).
      { intros s t Hs Ht.
        assert (Q : forallb (fun s => forallb (fun t => value_dist (rs_vars rooms) ["x"] t s =? Z.abs (nth 1 t 0 - nth 1 s 0))
          (fs_states (fspec_of rooms))) (fs_states (fspec_of rooms)) = true) by (vm_compute; reflexivity).
        rewrite forallb_forall in Q. specialize (Q s Hs). rewrite forallb_forall in Q. apply Z.eqb_eq. exact (Q t Ht). }
      split; [intros _|intros X; exfalso; apply (X _ H1)]. split.
      - exists ([0; a], [0; 1]). split; [exact H1|]. cbn [fst snd]. rewrite Hv; [cbn [nth]; lia|auto|vm_compute; tauto].
      - intros (s & t) (P1 & P2 & P3 & P4). cbn [fst snd] in *. rewrite (Hv s t P1 P2), (Hg t P2 P4). apply Hf in P3; auto. lia. }
    assert (Cj : (j = 0 \/ j = 1 \/ j = 2)%nat) by lia. destruct Cj as [-> | [-> | ->]]; cbn [nth rs_sgoals rooms].
    + apply (K _ 0 1); auto; [|vm_compute; tauto].
      apply (rooms_states (fun s => holds (fspec_of rooms) (FCmp false "x" CEq 0) s = true <-> nth 1 s 0 = 0)).
      repeat (constructor; [vm_compute; split; intros; congruence|]). constructor.
    + apply (K _ 3 1); auto; [|vm_compute; tauto].
      apply (rooms_states (fun s => holds (fspec_of rooms) (FCmp false "x" CEq 3) s = true <-> nth 1 s 0 = 3)).
      repeat (constructor; [vm_compute; split; intros; congruence|]). constructor.
    + apply (K _ 2 1); auto; [|vm_compute; tauto].
      apply (rooms_states (fun s => holds (fspec_of rooms) (FCmp false "x" CEq 2) s = true <-> nth 1 s 0 = 2)).
      repeat (constructor; [vm_compute; split; intros; congruence|]). constructor.
  - intros j Hj. cbn in Hj. assert (Cj : (j = 0 \/ j = 1 \/ j = 2)%nat) by lia. destruct Cj as [-> | [-> | ->]]; lia.
  - intros j Hj. lia.
Qed.

Definition add_file : string :=
"1
0 0 0 0 1 3 8 7
1 1 1 0 0 1 0 6
2 0 1 0 0 1 0 6
3 1 2 0 0 1 2 1
4 0 2 0 0 2 2 3
5 1 2 0 2 1 9 5
6 1 0 1 1 2 8 7
7 1 1 0 2 2 11 10
8 0 1 0 2 3 11 10
9 0 3 0 3 1 4 3
10 1 2 0 2 1 9 10
11 0 2 0 2 2 9 10
".
Lemma add_run : ready robdd_oracle alloc_max ex_key "now" rooms_world add_args add_opts (Add "x = 1") rooms rooms_aut ["x"] /\
  formula_means "x = 1" (FCmp false "x" CEq 1) /\ goal_typed rooms (FCmp false "x" CEq 1) /\ (2 <= List.length (rs_sgoals rooms))%nat /\
  in_order (fspec_of rooms) rooms_aut /\ proceeds (fspec_of rooms) rooms_aut /\ full_domains rooms /\
  comes_behind ["x"] rooms (FCmp false "x" CEq 1) 0 /\ apart (fspec_of rooms) 0 (HotSpec.after (fspec_of rooms) 0) /\
  new_apart (fspec_of rooms) (FCmp false "x" CEq 1) (HotSpec.after (fspec_of rooms) 0) /\
  patch_program robdd_oracle alloc_max ex_key "now" (fun _ => NULL) 40 rooms_world add_args = Ok (Exits 0 add_file None).
Proof.
  split; [exact add_ready|]. split; [exact add_means|]. split; [typed|]. split; [cbn; lia|]. split; [apply rooms_made|].
  split; [|split; [|split; [exact add_place|split; [apply rooms_apart; cbn; lia|split; [|vm_compute; reflexivity]]]]].
  - destruct rooms_made as (C & _ & S). apply (AddLoad.made_proceeds (fspec_of rooms) rooms_aut 0); auto; [cbn; lia|cbn; lia|apply rooms_apart; cbn; lia].
  - intros x d [E|[E|[]]] Hd; injection E as <- <-; [lia|reflexivity].
  - unfold new_apart. apply (rooms_states (fun s => holds (fspec_of rooms) (FCmp false "x" CEq 1) s = true -> sgoal (fspec_of rooms) (HotSpec.after (fspec_of rooms) 0) s = true -> False)).
    repeat (constructor; [vm_compute; intros; discriminate|]). constructor.
Qed.

(** ** A detour: from 00 to 01, from there to 10 or by way of 11 to 10, and back to 00 *)
Definition detour_text : string :=
"SYS: a b;
SYSINIT: !a & !b;
SYSTRANS: [](!a & !b -> !a' & b') & [](!a & b -> a') & [](a & b -> a' & !b') & [](a & !b -> !a' & !b');
SYSGOAL: []<>(!a & !b);
".
Definition detour : rspec := {|
  rs_evars := []; rs_svars := [("a", -1); ("b", -1)];
  rs_einit := None; rs_sinit := Some (FAnd (FNot (FVar "a")) (FNot (FVar "b")));
  rs_etrans := [];
  rs_strans := [FImp (FAnd (FNot (FVar "a")) (FNot (FVar "b"))) (FAnd (FNot (FNext "a")) (FNext "b"));
                FImp (FAnd (FNot (FVar "a")) (FVar "b")) (FNext "a");
                FImp (FAnd (FVar "a") (FVar "b")) (FAnd (FNext "a") (FNot (FNext "b")));
                FImp (FAnd (FVar "a") (FNot (FVar "b"))) (FAnd (FNot (FNext "a")) (FNot (FNext "b")))];
  rs_egoals := [];
  rs_sgoals := [FAnd (FNot (FVar "a")) (FNot (FVar "b"))]
|}.
Lemma detour_means : text_means detour_text detour.
Proof.
  apply means_by_parse.
  - intros ys H. apply text_symbols_iff in H. destruct H as (ts & H & <-).
    assert (E : exists k, Lex.yylex detour_text = Ok k /\ no_formula (symbols k)) by (eexists; split; [vm_compute; reflexivity|reflexivity]).
    destruct E as (k & E & Hk). rewrite E in H. injection H as <-. exact Hk.
  - vm_compute. reflexivity.
Qed.
Lemma detour_form : form_ok UNDEFINED_INIT detour.
Proof. destruct (form_check_ok UNDEFINED_INIT detour) as [[H _]|(_ & s & H & _)]; [auto|]. exfalso. vm_compute in H. discriminate H. Qed.
Lemma detour_usable : usable detour.
Proof.
  split; [|split; [|split; [|split]]].
  - typed.
  - vm_compute. repeat constructor; simpl; intuition discriminate.
  - split.
    + vm_compute. repeat constructor; simpl; intuition discriminate.
    + intros x d [E|[E|[]]] Hd i Hi; injection E as <- <-; lia.
  - intros x d y e [E|[E|[]]] Hd; injection E as <- <-; lia.
  - intros x d [E|[E|[]]]; injection E as <- <-; reflexivity.
Qed.
Lemma detour_tools : tools detour robdd_oracle alloc_max.
Proof. split; [apply robdd_oracle_ok|apply (proj2 (tools_exist (fspec_of detour)))]. Qed.
Definition detour_aut : aut := Eval vm_compute in
  match gr1c_main robdd_oracle alloc_max 40 MODE_SYNTHESIS ALL_INIT (raw_of detour) with Ok (Strategy A _ _) => A | _ => [] end.
Definition detour_file : string :=
"1
0 1 0 0 0 1 2
1 0 1 0 0 2 0
2 0 0 1 0 0 1
".
Lemma detour_made : correct (fspec_of detour) detour_aut /\ in_order (fspec_of detour) detour_aut /\ seeks (fspec_of detour) detour_aut.
Proof.
  assert (E : exists A', synthesize (spec_of (solver_spec (-1) ALL_INIT detour)) robdd_oracle alloc_max 40 ALL_INIT = Ok A' /\ A' <> [] /\
    with_states (EncProofs.dec (rs_vars detour)) A' = detour_aut).
  { eexists. split; [vm_compute; reflexivity|]. split; [discriminate|vm_compute; reflexivity]. }
  destruct E as (A' & E & Hne & <-).
  refine (made_int ALL_INIT detour detour_usable robdd_oracle alloc_max detour_tools _ _ 40 A' E Hne); discriminate.
Qed.
Lemma detour_strategy : strategy_text detour detour_aut detour_file.
Proof. apply text_given; [apply detour_made|vm_compute; reflexivity|vm_compute; reflexivity]. Qed.
(** the transition from 01 to 10 is forbidden; three states may be visited instead, or two;
    the transition from 11 to 10, which the strategy does not use, is forbidden *)
Definition cut : list command := [RestrictSys [0; 1] [1; 0]].
Definition unused : list command := [RestrictSys [1; 1] [1; 0]].
Definition n2 : list vec := [[1; 0]; [1; 1]].
Definition cut_text : string :=
"# around
0 1
1 0
1 1
restrict 0 1 1 0
".
Definition out_text : string :=
"1 0
1 1
restrict 0 1 1 0
".
Definition unused_text : string :=
"0 1
1 0
1 1

restrict 1 1 1 0
".
Ltac short := let t := fresh in let H := fresh in intros t H; cbn in H;
  repeat (destruct H as [<-|H]; [vm_compute; lia|]); destruct H.
Lemma cut_given : change_file n3 cut cut_text /\ change_file n2 cut out_text /\ change_file n3 unused unused_text.
Proof.
  split; [|split].
  - exists [("# around" ++ eol)%string; ("0 1" ++ eol)%string; ("1 0" ++ eol)%string; ("1 1" ++ eol)%string; ("restrict 0 1 1 0" ++ eol)%string].
    split; [|split; [short|reflexivity]]. apply wc_comment; [right; exists " around"; reflexivity|reflexivity|].
    repeat (apply wc_line). apply wc_end.
  - exists [("1 0" ++ eol)%string; ("1 1" ++ eol)%string; ("restrict 0 1 1 0" ++ eol)%string].
    split; [|split; [short|reflexivity]]. repeat (apply wc_line). apply wc_end.
  - exists [("0 1" ++ eol)%string; ("1 0" ++ eol)%string; ("1 1" ++ eol)%string; eol; ("restrict 1 1 1 0" ++ eol)%string].
    split; [|split; [short|reflexivity]]. do 3 apply wc_line. apply (wc_comment ""%string); [left; reflexivity|reflexivity|].
    repeat (apply wc_line). apply wc_end.
Qed.
Definition detour_world : world :=
  World (fun f => if String.eqb f "d.spc" then Some detour_text else if String.eqb f "d.aut" then Some detour_file
                  else if String.eqb f "cut.txt" then Some cut_text else if String.eqb f "out.txt" then Some out_text
                  else if String.eqb f "unused.txt" then Some unused_text else None) detour_text (fun f => String.eqb f "new.aut").
Definition e_args (f : string) : list string := ["-t"; "aut"; "-a"; "d.aut"; "-e"; f].
Definition e_opts (f : string) : list popt := [PType FORMAT_AUT; PAut "d.aut"; PChanges f].
Lemma e_ready : forall f, ready robdd_oracle alloc_max ex_key "now" detour_world (e_args f) (e_opts f) (Change f) detour detour_aut [].
Proof.
  intros f. split; [exists [], "d.aut"; split|split; [reflexivity|intros x []]|exact detour_tools|exact ex_key_ok|exact plain_now].
  - split; [|split; [intros b; no_such|split; [no_such|split; [split; [no_such|split; [no_such|intros b; no_such]]|
      split; [intros [[X Y]|[X Y]]; cbn in *; congruence|split; [intros [_ (a & X & Y)]; injection X as <-; discriminate Y|split; reflexivity]]]]]].
    apply (pl_opt (PType FORMAT_AUT) ["-t"; "aut"]); [exact (pw_t FORMAT_AUT "")|].
    apply (pl_opt (PAut "d.aut") ["-a"; "d.aut"]); [constructor|].
    apply (pl_opt (PChanges f) ["-e"; f]); constructor.
  - split; [|exists detour_file; split; [reflexivity|exact detour_strategy]].
    split; [exists detour_text; split; [reflexivity|exact detour_means]|]. split; [exact detour_form|exact detour_usable].
Qed.
Lemma e_given : forall f text N cs, w_file detour_world f = Some text -> change_file N cs text ->
  forallb (fun s => inb s (fs_states (fspec_of detour))) N = true -> forallb (validb (fspec_of detour)) cs = true ->
  change_given detour_world detour f N cs.
Proof.
  intros f text N cs H1 H2 H3 H4. rewrite forallb_forall in H3, H4. split; [exists text; auto|].
  split; [intros x d [E|[E|[]]]; injection E as _ <-; reflexivity|]. split; [discriminate|]. split; [discriminate|].
  split; [intros s Hs; apply inb_ok; auto|]. split; [apply Forall_forall; intros c Hc; apply validb_ok; auto|].
  apply forallb_forall. intros c Hc. apply (validb_ok (fspec_of detour)). auto.
Qed.
Lemma cut_patchable : patchable (fspec_of detour) n3 cut detour_aut.
Proof.
  split.
  - intros x y Hx Hy E _. cbn in Hx, Hy. destruct Hx as [<-|[<-|[<-|[]]]], Hy as [<-|[<-|[<-|[]]]]; try reflexivity; discriminate E.
  - intros x Hx. cbn in Hx. destruct Hx as [<-|[<-|[<-|[]]]]; cbn; lia.
  - intros x y Hx Hy Ht _. cbn in Hx, Hy. destruct Hx as [<-|[<-|[<-|[]]]], Hy as [<-|[<-|[<-|[]]]]; cbn in Ht; try lia; try (left; cbn; lia).
    right. split; [intros g [<-|[]]; reflexivity|]. intros [H _]. vm_compute in H. intuition discriminate.
  - intros x y Hx Hy _ Hm. exfalso. apply Hm. cbn in Hx, Hy. destruct Hx as [<-|[<-|[<-|[]]]], Hy as [<-|[<-|[<-|[]]]]; reflexivity.
Qed.
Definition cut_file : string :=
"1
0 1 0 0 0 2 1
1 0 0 1 0 0 3
2 1 1 0 0 3 0
3 0 1 0 0 4 2
".
Lemma cut_run :
  ready robdd_oracle alloc_max ex_key "now" detour_world (e_args "cut.txt") (e_opts "cut.txt") (Change "cut.txt") detour detour_aut [] /\
  change_given detour_world detour "cut.txt" n3 cut /\ in_order (fspec_of detour) detour_aut /\
  patchable (fspec_of detour) n3 cut detour_aut /\ env_moves_in (fspec_of detour) (changed (fspec_of detour) cut) /\
  (forall s e, ~ In (RelaxEnv s e) cut) /\ (exists x, In x detour_aut /\ unfit (fspec_of detour) detour_aut cut x) /\
  patch_program robdd_oracle alloc_max ex_key "now" (fun _ => NULL) 40 detour_world (e_args "cut.txt") =
    Ok (Exits 0 cut_file None).
Proof.
  split; [apply e_ready|]. split; [apply (e_given "cut.txt" cut_text); [reflexivity|apply cut_given|reflexivity|reflexivity]|].
  split; [apply detour_made|]. split; [exact cut_patchable|]. split; [|split; [|split]].
  - intros s Hs. exists []. vm_compute in Hs. destruct Hs as [<-|[<-|[<-|[<-|[]]]]]; vm_compute; auto.
  - intros s e [H|[]]. discriminate H.
  - eexists. split; [right; left; reflexivity|]. exists (RestrictSys [0; 1] [1; 0]). split; [left; reflexivity|]. split; [reflexivity|].
    eexists. split; [left; reflexivity|]. split; [left; reflexivity|reflexivity].
  - vm_compute. reflexivity.
Qed.
Lemma out_run : change_given detour_world detour "out.txt" n2 cut /\
  (exists x, In x detour_aut /\ unfit (fspec_of detour) detour_aut cut x /\ ~ In (astate x) n2) /\
  patch_program robdd_oracle alloc_max ex_key "now" (fun _ => NULL) 40 detour_world (e_args "out.txt") = Ok error_exit.
Proof.
  split; [apply (e_given "out.txt" out_text); [reflexivity|apply cut_given|reflexivity|reflexivity]|]. split; [|vm_compute; reflexivity].
  eexists. split; [right; left; reflexivity|]. split.
  - exists (RestrictSys [0; 1] [1; 0]). split; [left; reflexivity|]. split; [reflexivity|].
    eexists. split; [left; reflexivity|]. split; [left; reflexivity|reflexivity].
  - intros H. vm_compute in H. intuition discriminate.
Qed.
Lemma unused_run : change_given detour_world detour "unused.txt" n3 unused /\
  (forall x, In x detour_aut -> ~ unfit (fspec_of detour) detour_aut unused x) /\ (forall x, In x detour_aut -> atrans x <> []) /\ detour_aut <> [] /\
  ~ no_out_file detour_world (e_opts "unused.txt") /\
  patch_program robdd_oracle alloc_max ex_key "now" (fun _ => NULL) 40 detour_world (e_args "unused.txt") = Ok (Exits 0 detour_file None).
Proof.
  split; [apply (e_given "unused.txt" unused_text); [reflexivity|apply cut_given|reflexivity|reflexivity]|].
  split; [|split; [|split; [discriminate|split; [|vm_compute; reflexivity]]]].
  - intros x Hx (c & [<-|[]] & Es & _). cbn in Hx. destruct Hx as [<-|[<-|[<-|[]]]]; discriminate Es.
  - intros x Hx. cbn in Hx. destruct Hx as [<-|[<-|[<-|[]]]]; discriminate.
  - intros (f & E & _). discriminate E.
Qed.
