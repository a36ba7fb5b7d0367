(** Runs of patch_localfixpoint: one that works, and some on which it goes wrong. *)
From Coq Require Import List ZArith Lia Bool Arith String.
From Verif Require Import Base Game Bdd Support SupportProofs EnumProofs Strs Ptree Form Solve FSpec Automaton AutProofs Synth SynthSpec SynthFindings
  Reach AutIO AutIOSpec AutIOProofs Nonbool Examples Hotswap HotSpec HotLoad HotSynth HotExamples Interactive InteractSpec ReadSpec
  Patch PatchSpec PatchLoad PatchSynth.
Import ListNotations.
Open Scope string_scope.
Open Scope list_scope.
Open Scope nat_scope.

(** ** Checking the hypotheses *)
Definition inb (s : vec) (l : list vec) : bool := if in_dec (list_eq_dec Z.eq_dec) s l then true else false.
Lemma inb_ok : forall s l, inb s l = true -> In s l.
Proof. intros s l H. unfold inb in H. destruct (in_dec (list_eq_dec Z.eq_dec) s l); [auto|discriminate]. Qed.
Definition validb (F : fspec) (c : command) : bool :=
  match c with
  | RestrictEnv s e => inb s (fs_states F) && inb e (fs_envs F)
  | RestrictSys s t => inb s (fs_states F) && inb t (fs_states F)
  | _ => false
  end.
Lemma validb_ok : forall F c, validb F c = true -> valid F c /\ is_change c = true /\ forall s e, c <> RelaxEnv s e.
Proof.
  intros F c H. destruct c; try discriminate; apply andb_true_iff in H; destruct H as (H1 & H2);
    (split; [split; apply inb_ok; auto|]); (split; [reflexivity|discriminate]).
Qed.
Definition changes_text (N : list vec) (l : list command) : list string :=
  map (fun s => (join s ++ eol)%string) N ++ map command_text l.
Definition checks (F : fspec) (N : list vec) (l : list command) : bool :=
  forallb (fun s => inb s (fs_states F)) N && forallb (validb F) l &&
  forallb (fun s => existsb (fun e => may_env (changed F l) s e) (fs_envs F)) (fs_states F) &&
  forallb (fun t => String.length t <? 1024) (changes_text N l).
Lemma checks_ok : forall F n N l A t, checks F N l = true -> well_scoped F -> all_boolean F ->
  n = Z.of_nat (List.length (fs_evars F) + List.length (fs_svars F)) ->
  fs_svars F <> [] -> fs_sgoals F <> [] ->
  strategy_file F n 200 = Ok (A, t) -> can_write n A = true ->
  patch_case F robdd_oracle alloc_max N l 200 A t (String.concat "" (changes_text N l)).
Proof.
  intros F n N l A t H Hws Hb -> Hsv Hg E Hw. destruct (strategy_file_ok _ _ _ _ _ E Hw) as (H1 & H2 & H3 & H4).
  unfold checks in H. rewrite !andb_true_iff, !forallb_forall in H. destruct H as (((Ha & Hv) & He) & Hl).
  split; [exact Hws|]. split; [exact Hb|]. split; [exact Hsv|]. split; [exact Hg|]. split; [apply tools_exist|].
  split; [intros s Hs; apply inb_ok; auto|].
  split; [apply Forall_forall; intros c Hc; apply validb_ok; auto|].
  split; [apply forallb_forall; intros c Hc; apply (validb_ok F); auto|].
  split.
  { intros s Hs. specialize (He s Hs). apply existsb_exists in He. destruct He as (e & He1 & He2). exists e. split; auto. }
  split; [intros _ s e Hi; destruct (validb_ok F _ (Hv _ Hi)) as (_ & _ & K); apply (K s e eq_refl)|].
  split; [exact H1|]. split; [exact H2|]. split; [exact H3|]. split; [exact H4|].
  exists (changes_text N l). split; [|split; auto].
  - fold (changes_text N l). clear. induction (changes_text N l); constructor; auto.
  - intros x Hx. specialize (Hl x Hx). apply Nat.ltb_lt in Hl. auto.
Qed.

(** ** Specifications *)
Definition bit (x : string) (b : bool) : form := if b then FVar x else FNot (FVar x).
Definition nbit (x : string) (b : bool) : form := if b then FNext x else FNot (FNext x).
Definition at2 (a b : bool) : form := FAnd (bit "a" a) (bit "b" b).
Definition edge2 (a b a' b' : bool) : form := FAnd (at2 a b) (FAnd (nbit "a" a') (nbit "b" b')).
Fixpoint disj (l : list form) : form := match l with [] => FFalse | [f] => f | f :: r => FOr f (disj r) end.
(** from 00 to 01, from there to 10 or by way of 11 to 10, and back to 00 *)
Definition ex_detour (i : form) : fspec := {|
  fs_evars := []; fs_svars := [("a", -1); ("b", -1)];
  fs_einit := None; fs_sinit := Some i;
  fs_etrans := FTrue;
  fs_strans := disj [edge2 false false false true; edge2 false true true false; edge2 true false false false;
                     edge2 false true true true; edge2 true true true false];
  fs_egoals := [];
  fs_sgoals := [at2 false false]
|}%Z.
Definition ex_cycle : fspec := {|
  fs_evars := []; fs_svars := [("a", -1); ("b", -1)];
  fs_einit := None; fs_sinit := Some (at2 false false);
  fs_etrans := FTrue;
  fs_strans := disj [edge2 false false false true; edge2 false true true false; edge2 true false true true;
                     edge2 true true false false];
  fs_egoals := [];
  fs_sgoals := [at2 false false]
|}%Z.
(** a cycle with the possibility to wait in 01; two goals *)
Definition ex_wait : fspec := {|
  fs_evars := [("e", -1)]; fs_svars := [("a", -1); ("b", -1)];
  fs_einit := None; fs_sinit := Some (at2 false false);
  fs_etrans := FOr (FVar "e") (FNext "e");
  fs_strans := disj [edge2 false false false true; edge2 false true false true; edge2 false true true false; edge2 true false true true;
                     edge2 true true false false];
  fs_egoals := [];
  fs_sgoals := [at2 false false; at2 true true]
|}%Z.
Lemma detour_ok : forall a b, well_scoped (ex_detour (at2 a b)) /\ all_boolean (ex_detour (at2 a b)).
Proof. intros [|] [|]; split; scoped. Qed.
Lemma cycle_ok : well_scoped ex_cycle /\ all_boolean ex_cycle.
Proof. split; scoped. Qed.
Lemma wait_ok : well_scoped ex_wait /\ all_boolean ex_wait.
Proof. split; scoped. Qed.

(** ** Runs *)
Notation txt N l := (String.concat "" (changes_text N l)).
Notation patched F t N l := (patched_of F robdd_oracle alloc_max 200 t (txt N l)).
Definition n3 : list vec := [[0; 1]; [1; 0]; [1; 1]]%Z.
Definition n4 : list vec := [[0; 0]; [0; 1]; [1; 0]; [1; 1]]%Z.
Definition cut : list command := [RestrictSys [0; 1] [1; 0]]%Z.
Ltac run F n := let E := fresh "E" in
  assert (E : exists A t, strategy_file F n 200 = Ok (A, t)) by (eexists; eexists; vm_compute; reflexivity);
  destruct E as (A & t & E);
  assert (Hw : can_write n A = true) by (clear - E; vm_compute in E; injection E as <- <-; vm_compute; reflexivity).

Definition leads (x y : anode) : bool := existsb (Nat.eqb (aid y)) (atrans x).
Lemma leads_ok : forall x y, leads x y = true <-> In (aid y) (atrans x).
Proof.
  intros x y. unfold leads. rewrite existsb_exists. split; [intros (i & Hi & E); apply Nat.eqb_eq in E; subst; auto|].
  intros H. exists (aid y). split; [auto|apply Nat.eqb_refl].
Qed.
Definition is (s t : vec) : bool := if list_eq_dec Z.eq_dec s t then true else false.
Lemma is_ok : forall s t, is s t = true <-> s = t.
Proof. intros s t. unfold is. destruct (list_eq_dec Z.eq_dec s t); split; intros; congruence. Qed.
Definition goes (A : aut) (s t : vec) : bool :=
  existsb (fun x => is (astate x) s && existsb (fun y => is (astate y) t && leads x y) A) A.
Lemma goes_ok : forall A s t, goes A s t = true -> exists x y, In x A /\ In y A /\ In (aid y) (atrans x) /\ astate x = s /\ astate y = t.
Proof.
  intros A s t H. apply existsb_exists in H. destruct H as (x & Hx & H). apply andb_true_iff in H. destruct H as (E & H).
  apply existsb_exists in H. destruct H as (y & Hy & H). apply andb_true_iff in H. destruct H as (E' & H).
  apply is_ok in E, E'. apply leads_ok in H. exists x, y. auto.
Qed.
Definition ignores (F : fspec) (A : aut) (s e : vec) : bool :=
  existsb (fun x => is (astate x) s && forallb (fun y => negb (leads x y && is (g_env (game_of F) (astate y)) e)) A) A.
Lemma ignores_ok : forall F A s e, ignores F A s e = true ->
  exists x, In x A /\ astate x = s /\ forall y, In y A -> In (aid y) (atrans x) -> g_env (game_of F) (astate y) <> e.
Proof.
  intros F A s e H. apply existsb_exists in H. destruct H as (x & Hx & H). apply andb_true_iff in H. destruct H as (E & H).
  apply is_ok in E. exists x. split; [auto|]. split; [auto|]. intros y Hy Ht Ee. rewrite forallb_forall in H. specialize (H y Hy).
  apply leads_ok in Ht. apply is_ok in Ee. rewrite Ht, Ee in H. discriminate.
Qed.

(** the transition from 01 to 10 is forbidden *)
Lemma detour_runs : exists F orc alloc N l fuel A text changes B,
  patch_case F orc alloc N l fuel A text changes /\
  (forall s g, In s N -> In g (fs_sgoals F) -> holds F g s = false) /\
  (exists x, In x A /\ unfit F A l x) /\
  patched_of F orc alloc fuel text changes = Ok B /\ List.length A = 3 /\ List.length B = 4.
Proof.
  run (ex_detour (at2 false false)) 2%Z.
  assert (HB : exists B, patched (ex_detour (at2 false false)) t n3 cut = Ok B /\ List.length A = 3 /\ List.length B = 4 /\
    goes A [0; 1]%Z [1; 0]%Z = true).
  { clear Hw. vm_compute in E. injection E as <- <-. eexists. split; [vm_compute; reflexivity|]. split; [reflexivity|]. split; reflexivity. }
  destruct HB as (B & HB1 & HB2 & HB3 & HB4). apply goes_ok in HB4. destruct HB4 as (x & y & Hx & Hy & Ht & E1 & E2).
  exists (ex_detour (at2 false false)), robdd_oracle, alloc_max, n3, cut, 200, A, t. exists (txt n3 cut). exists B.
  split; [apply (checks_ok _ 2%Z); [vm_compute; reflexivity|apply detour_ok|apply detour_ok|reflexivity|discriminate|discriminate|exact E|exact Hw]|].
  split.
  { intros s g Hs [<-|[]]. destruct Hs as [<-|[<-|[<-|[]]]]; reflexivity. }
  split; [exists x; split; [exact Hx|]; exists (RestrictSys [0; 1] [1; 0])%Z; split; [left; reflexivity|]; split; [auto|exists y; auto]|].
  auto.
Qed.

(** a state of N satisfies a goal: the forbidden transition is still there *)
Lemma goal_in_N_refuted : exists F orc alloc N l fuel A text changes B,
  patch_case F orc alloc N l fuel A text changes /\ patched_of F orc alloc fuel text changes = Ok B /\
  (exists s g, In s N /\ In g (fs_sgoals F) /\ holds F g s = true) /\
  exists x y, In x B /\ In y B /\ In (aid y) (atrans x) /\ may_sys (changed F l) (astate x) (astate y) = false.
Proof.
  run ex_cycle 2%Z. pose (N := [[1; 1]; [0; 0]; [0; 1]]%Z : list vec).
  assert (HB : exists B, patched ex_cycle t N cut = Ok B /\
    goes B [0; 1]%Z [1; 0]%Z = true).
  { clear Hw. vm_compute in E. injection E as <- <-. eexists. split; [vm_compute; reflexivity|]. vm_compute. reflexivity. }
  destruct HB as (B & HB1 & HB2). apply goes_ok in HB2. destruct HB2 as (x & y & Hx & Hy & Ht & E1 & E2).
  exists ex_cycle, robdd_oracle, alloc_max, N, cut, 200, A, t. exists (txt N cut). exists B.
  split; [apply (checks_ok _ 2%Z); [vm_compute; reflexivity|apply cycle_ok|apply cycle_ok|reflexivity|discriminate|discriminate|exact E|exact Hw]|].
  split; [exact HB1|]. split.
  { exists [0; 0]%Z, (at2 false false). split; [right; left; reflexivity|]. split; [left; reflexivity|reflexivity]. }
  exists x, y. rewrite E1, E2. split; [exact Hx|]. split; [exact Hy|]. split; [exact Ht|]. vm_compute. reflexivity.
Qed.
(** a node of N is entered only by passing a goal: it is deleted, and moves leading to it
    are no longer answered *)
Lemma entered_refuted : exists F orc alloc N l fuel A text changes B,
  patch_case F orc alloc N l fuel A text changes /\ patched_of F orc alloc fuel text changes = Ok B /\
  exists x e, In x B /\ legal_env (game_with F (changed F l)) (astate x) e /\
    ~ exists y, In y B /\ In (aid y) (atrans x) /\ g_env (game_of F) (astate y) = e.
Proof.
  run ex_wait 3%Z. pose (N := [[0; 0; 0]; [0; 0; 1]; [1; 0; 1]; [0; 1; 0]; [1; 1; 0]]%Z : list vec).
  pose (l := [RestrictSys [0; 0; 1] [1; 1; 0]]%Z).
  assert (HB : exists B, patched ex_wait t N l = Ok B /\
    ignores ex_wait B [1; 1; 1]%Z [0]%Z = true).
  { clear Hw. vm_compute in E. injection E as <- <-. eexists. split; [vm_compute; reflexivity|]. vm_compute. reflexivity. }
  destruct HB as (B & HB1 & HB2). apply ignores_ok in HB2. destruct HB2 as (x & Hx & Ex & Hno).
  exists ex_wait, robdd_oracle, alloc_max, N, l, 200, A, t. exists (txt N l). exists B.
  split; [apply (checks_ok _ 3%Z); [vm_compute; reflexivity|apply wait_ok|apply wait_ok|reflexivity|discriminate|discriminate|exact E|exact Hw]|].
  split; [exact HB1|]. exists x, [0]%Z. split; [exact Hx|]. split.
  { rewrite Ex. split; [left; reflexivity|vm_compute; reflexivity]. }
  intros (y & Hy & Ht & Ey). apply (Hno y Hy Ht Ey).
Qed.
(** an initial node of N gets lost: the result has no initial node *)
Lemma init_lost_refuted : exists F orc alloc N l fuel A text changes B,
  patch_case F orc alloc N l fuel A text changes /\
  (forall s g, In s N -> In g (fs_sgoals F) -> holds F g s = false) /\
  patched_of F orc alloc fuel text changes = Ok B /\
  (exists x, In x A /\ ainit x = true) /\ B <> [] /\ forall y, In y B -> ainit y = false.
Proof.
  run (ex_detour (at2 false true)) 2%Z.
  assert (HB : exists B, patched (ex_detour (at2 false true)) t n3 cut = Ok B /\
    existsb ainit A = true /\ B <> [] /\ forallb (fun y => negb (ainit y)) B = true).
  { clear Hw. vm_compute in E. injection E as <- <-. eexists. split; [vm_compute; reflexivity|]. split; [reflexivity|].
    split; [discriminate|reflexivity]. }
  destruct HB as (B & HB1 & HB2 & HB3 & HB4).
  exists (ex_detour (at2 false true)), robdd_oracle, alloc_max, n3, cut, 200, A, t. exists (txt n3 cut). exists B.
  split; [apply (checks_ok _ 2%Z); [vm_compute; reflexivity|apply detour_ok|apply detour_ok|reflexivity|discriminate|discriminate|exact E|exact Hw]|].
  split.
  { intros s g Hs [<-|[]]. destruct Hs as [<-|[<-|[<-|[]]]]; reflexivity. }
  split; [exact HB1|]. split.
  { apply existsb_exists in HB2. destruct HB2 as (x & Hx & Ex). exists x. auto. }
  split; [exact HB3|]. intros y Hy. rewrite forallb_forall in HB4. specialize (HB4 y Hy). apply negb_true_iff in HB4. auto.
Qed.
(** with a larger neighbourhood nothing is returned *)
Lemma no_entry_refuted : exists F orc alloc N N' l fuel A text changes changes' B,
  patch_case F orc alloc N l fuel A text changes /\ patch_case F orc alloc N' l fuel A text changes' /\ incl N N' /\
  patched_of F orc alloc fuel text changes = Ok B /\ B <> [] /\ serves F (changed F l) B /\
  patched_of F orc alloc fuel text changes' = Ok [].
Proof.
  run (ex_detour (at2 false false)) 2%Z.
  assert (HB : exists B, patched (ex_detour (at2 false false)) t n3 cut = Ok B /\ B <> [] /\
    patched (ex_detour (at2 false false)) t n4 cut = Ok []).
  { clear Hw. vm_compute in E. injection E as <- <-. eexists. split; [vm_compute; reflexivity|]. split; [discriminate|vm_compute; reflexivity]. }
  destruct HB as (B & HB1 & HB2 & HB3).
  exists (ex_detour (at2 false false)), robdd_oracle, alloc_max, n3, n4, cut, 200, A, t. exists (txt n3 cut), (txt n4 cut), B.
  assert (C : patch_case (ex_detour (at2 false false)) robdd_oracle alloc_max n3 cut 200 A t (txt n3 cut)).
  { apply (checks_ok _ 2%Z); [vm_compute; reflexivity|apply detour_ok|apply detour_ok|reflexivity|discriminate|discriminate|exact E|exact Hw]. }
  split; [exact C|].
  split; [apply (checks_ok _ 2%Z); [vm_compute; reflexivity|apply detour_ok|apply detour_ok|reflexivity|discriminate|discriminate|exact E|exact Hw]|].
  split; [intros s Hs; right; exact Hs|]. split; [exact HB1|]. split; [exact HB2|]. split; [|exact HB3].
  destruct C as (C1 & C2 & C3 & C4 & C5 & C6 & C7 & C8 & C9 & C10 & C11 & C12 & C13 & C14 & C15).
  refine (proj1 (patch_made _ C1 C2 C3 C4 _ _ C5 _ _ (parts_one _) (parts_one _) _ _ C6 C7 C8 _ C9 C10 _ _ _ _ _ _ _ C11 C12 C13 C14 C15 HB1 HB2)).
  intros s g Hs [<-|[]]. destruct Hs as [<-|[<-|[<-|[]]]]; reflexivity.
Qed.
(** blocksys with the wrong number of arguments after another command: the state of that
    command is freed a second time *)
Lemma wrong_arguments_refuted : exists F orc alloc N l fuel A text changes B more,
  patch_case F orc alloc N l fuel A text changes /\ patched_of F orc alloc fuel text changes = Ok B /\ B <> [] /\
  more = command_text (BlockSys [1]%Z) /\ ~ In [1]%Z (fs_outs F) /\
  patched_of F orc alloc fuel text (changes ++ more) = Crash.
Proof.
  run (ex_detour (at2 false false)) 2%Z.
  assert (HB : exists B, patched (ex_detour (at2 false false)) t n3 cut = Ok B /\ B <> [] /\
    patched_of (ex_detour (at2 false false)) robdd_oracle alloc_max 200 t (txt n3 cut ++ command_text (BlockSys [1]%Z)) = Crash).
  { clear Hw. vm_compute in E. injection E as <- <-. eexists. split; [vm_compute; reflexivity|]. split; [discriminate|vm_compute; reflexivity]. }
  destruct HB as (B & HB1 & HB2 & HB3).
  exists (ex_detour (at2 false false)), robdd_oracle, alloc_max, n3, cut, 200, A, t. exists (txt n3 cut), B, (command_text (BlockSys [1]%Z)).
  split; [apply (checks_ok _ 2%Z); [vm_compute; reflexivity|apply detour_ok|apply detour_ok|reflexivity|discriminate|discriminate|exact E|exact Hw]|].
  split; [exact HB1|]. split; [exact HB2|]. split; [reflexivity|]. split; [|exact HB3].
  intros H. vm_compute in H. intuition discriminate.
Qed.
(** an unfit node outside of the neighbourhood *)
Lemma outside_runs : exists F orc alloc N l fuel A text changes,
  patch_case F orc alloc N l fuel A text changes /\ exists x, In x A /\ unfit F A l x /\ ~ In (astate x) N.
Proof.
  run (ex_detour (at2 false false)) 2%Z. pose (N := [[1; 0]; [1; 1]]%Z : list vec).
  assert (HB : goes A [0; 1]%Z [1; 0]%Z = true).
  { clear Hw. vm_compute in E. injection E as <- <-. reflexivity. }
  apply goes_ok in HB. destruct HB as (x & y & Hx & Hy & Ht & E1 & E2).
  exists (ex_detour (at2 false false)), robdd_oracle, alloc_max, N, cut, 200, A, t. exists (txt N cut).
  split; [apply (checks_ok _ 2%Z); [vm_compute; reflexivity|apply detour_ok|apply detour_ok|reflexivity|discriminate|discriminate|exact E|exact Hw]|].
  exists x. split; [exact Hx|]. split.
  - exists (RestrictSys [0; 1] [1; 0])%Z. split; [left; reflexivity|]. split; [auto|exists y; auto].
  - rewrite E1. intros H. vm_compute in H. intuition discriminate.
Qed.
(** a change that affects no node *)
Lemma unaffected_runs : exists F orc alloc N l fuel A text changes,
  patch_case F orc alloc N l fuel A text changes /\ changed F l <> loaded F /\
  (forall x, In x A -> ~ unfit F A l x) /\ (forall x, In x A -> atrans x <> []).
Proof.
  run (ex_detour (at2 false false)) 2%Z. pose (l := [RestrictSys [1; 1] [1; 0]]%Z).
  assert (HB : forallb (fun x => negb (is (astate x) [1; 1]%Z) && negb (match atrans x with [] => true | _ => false end)) A = true).
  { clear Hw. vm_compute in E. injection E as <- <-. reflexivity. }
  rewrite forallb_forall in HB.
  exists (ex_detour (at2 false false)), robdd_oracle, alloc_max, n3, l, 200, A, t. exists (txt n3 l).
  split; [apply (checks_ok _ 2%Z); [vm_compute; reflexivity|apply detour_ok|apply detour_ok|reflexivity|discriminate|discriminate|exact E|exact Hw]|].
  split.
  { intros H. apply (f_equal (fun r => may_sys r [1; 1]%Z [1; 0]%Z)) in H. vm_compute in H. discriminate H. }
  split; intros x Hx; specialize (HB x Hx); apply andb_true_iff in HB; destruct HB as (H1 & H2).
  - intros (c & [<-|[]] & Es & _). apply is_ok in Es. rewrite Es in H1. discriminate.
  - intros K. rewrite K in H2. discriminate.
Qed.
