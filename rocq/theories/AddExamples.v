(** What else follows about add_metric_sysgoal, and runs of it: one that works, and some on
    which it goes wrong. *)
From Coq Require Import List ZArith Lia Bool Arith String.
From Verif Require Import Base Game Bdd Support SupportProofs EnumProofs Strs Ptree Form Solve FSpec Automaton AutProofs Synth SynthSpec SynthFindings
  Reach AutIO AutIOSpec AutIOProofs Nonbool Examples Metric MetricSpec Hotswap HotSpec HotLoad HotSynth HotExamples AddGoal AddSpec AddLoad.
Import ListNotations.
Open Scope string_scope.
Open Scope list_scope.
Open Scope nat_scope.

Lemma goal_dist_fun : forall fs F f g x y, goal_dist fs F f g x -> goal_dist fs F f g y -> x = y.
Proof.
  intros fs F f g x y (A1 & A2) (B1 & B2).
  destruct (existsb (fun p => holds F f (fst p) && holds F g (snd p)) (list_prod (fs_states F) (fs_states F))) eqn:E.
  - apply existsb_exists in E. destruct E as ((s & t) & Hi & Hh). apply in_prod_iff in Hi. apply andb_true_iff in Hh.
    assert (K : exists p : vec * vec, In (fst p) (fs_states F) /\ In (snd p) (fs_states F) /\
      holds F f (fst p) = true /\ holds F g (snd p) = true) by (exists (s, t); cbn in *; tauto).
    destruct (A1 K) as ((p & Hp & Ep) & LA). destruct (B1 K) as ((q & Hq & Eq) & LB).
    specialize (LA q Hq). specialize (LB p Hp). lia.
  - assert (K : forall p : vec * vec, ~ (In (fst p) (fs_states F) /\ In (snd p) (fs_states F) /\
      holds F f (fst p) = true /\ holds F g (snd p) = true)).
    { intros (s & t) (H1 & H2 & H3 & H4). cbn in *. rewrite <- not_true_iff_false in E. apply E. apply existsb_exists.
      exists (s, t). split; [apply in_prod; auto|]. cbn. rewrite H3, H4. reflexivity. }
    rewrite (A2 K), (B2 K). reflexivity.
Qed.
Lemma place_fun : forall fs F g i j, place fs F g i -> place fs F g j -> i = j.
Proof.
  intros fs F g i j (Hi & Ni & Pi) (Hj & Nj & Pj). destruct fs as [|f fs].
  - specialize (Ni eq_refl). specialize (Nj eq_refl). lia.
  - destruct (Pi ltac:(discriminate)) as (d & D1 & D2 & D3). destruct (Pj ltac:(discriminate)) as (e & E1 & E2 & E3).
    assert (Ed : forall a, a < List.length (fs_sgoals F) -> d a = e a).
    { intros a Ha. apply (goal_dist_fun _ _ _ _ _ _ (D1 a Ha) (E1 a Ha)). }
    pose proof (D2 j Hj). pose proof (E2 i Hi). rewrite !Ed in * by auto.
    destruct (lt_eq_lt_dec i j) as [[K|K]|K]; auto.
    + specialize (E3 i K). lia.
    + specialize (D3 j K). rewrite !Ed in D3 by auto. lia.
Qed.

Section General.
  Variables (F : fspec) (g : form) (orc : oracle) (alloc : nat -> aut -> nat) (fs : list (Z * Z)) (n : Z) (A : aut) (text : string)
    (fuel : nat) (B : aut).
  Hypothesis Hws : well_scoped F.
  Hypothesis Hb : all_boolean F.
  Hypothesis Hgb : boolean g = true.
  Hypothesis Hgs : state_form F g.
  Hypothesis HT : tools_ok F orc alloc.
  Hypothesis Hfs : fields_in (List.length (fs_evars F) + List.length (fs_svars F)) fs.
  Hypothesis Hco : correct F A.
  Hypothesis Hw : writable n A.
  Hypothesis Hd : aut_aut_dump A n = Ok text.
  Hypothesis Hs : short_lines text.
  Hypothesis Hfu : 2 ^ (List.length (fs_evars F) + List.length (fs_svars F)) <= fuel.
  Hypothesis HB : add_metric_sysgoal (spec_of F) NULL orc alloc fuel n text fs (tree_of g) = Ok B.
  Lemma add_entry : 2 <= List.length (fs_sgoals F) -> B <> [] ->
    exists i, place fs F g i /\ forall y, In y A -> comes_after F i A y -> holds F g (astate y) = false.
  Proof.
    intros Hk Hne.
    destruct (add_ok F Hws Hb g Hgb Hgs orc alloc HT fs Hfs n A text fuel B Hco Hw Hd Hs Hfu HB Hne Hk) as (i & Hpl & _ & H).
    exists i. auto.
  Qed.
  Lemma add_untaken : (forall x, In x A -> (0 <= amode x < Z.of_nat (List.length (fs_sgoals F)))%Z) ->
    (forall i y, place fs F g i -> In y A -> ~ comes_after F i A y) -> B = [].
  Proof.
    intros Hm Hno. destruct B as [|b B'] eqn:EB; auto. exfalso. rewrite <- EB in HB.
    assert (Hne : B <> []) by (rewrite EB; discriminate).
    assert (Hk : 0 < List.length (fs_sgoals F)).
    { destruct Hw as (HneA & _). destruct A as [|a A']; [congruence|]. specialize (Hm a (or_introl eq_refl)). lia. }
    destruct (add_taken F Hws Hb g Hgb Hgs orc alloc HT fs Hfs n A text fuel B Hco Hw Hd Hs Hfu HB Hne Hk Hm) as (i & y & Hpl & Hy & Hc).
    apply (Hno i y Hpl Hy Hc).
  Qed.
End General.
(** with one goal only no transition passes it *)
Lemma single_goal : forall F i A y, List.length (fs_sgoals F) = 1 -> ~ comes_after F i A y.
Proof. intros F i A y Hk (x & _ & _ & m & c & j & Hm & Hc & Hj & _). rewrite Hk in *. lia. Qed.
Lemma add_single : forall F, well_scoped F -> all_boolean F -> List.length (fs_sgoals F) = 1 ->
  forall g, boolean g = true -> state_form F g ->
  forall orc alloc, tools_ok F orc alloc ->
  forall fs, fields_in (List.length (fs_evars F) + List.length (fs_svars F)) fs ->
  forall fuel' flags n A text fuel B, synthesize (spec_of F) orc alloc fuel' flags = Ok A ->
  writable n A -> aut_aut_dump A n = Ok text -> short_lines text ->
  2 ^ (List.length (fs_evars F) + List.length (fs_svars F)) <= fuel ->
  add_metric_sysgoal (spec_of F) NULL orc alloc fuel n text fs (tree_of g) = Ok B -> B = [].
Proof.
  intros F Hws Hb Hk g Hgb Hgs orc alloc HT fs Hfs fuel' flags n A text fuel B HA Hw Hd Hs Hfu HB.
  assert (Hgo : fs_sgoals F <> []) by (destruct (fs_sgoals F); [cbn in Hk; lia|discriminate]).
  pose proof (made_correct F Hws Hb Hgo orc alloc HT fuel' flags A HA) as Hco.
  pose proof (made_seeks F Hws Hb Hgo orc alloc HT fuel' flags A HA) as (Hm & _).
  apply (add_untaken F g orc alloc fs n A text fuel B Hws Hb Hgb Hgs HT Hfs Hco Hw Hd Hs Hfu HB Hm).
  intros i y _ _. apply single_goal. auto.
Qed.

(** ** Runs *)
Definition at_ (a b : bool) : form := FAnd (if a then FVar "a" else no "a") (if b then FVar "b" else no "b").
Definition ex_det : fspec := {|
  fs_evars := []; fs_svars := [("a", -1); ("b", -1)];
  fs_einit := None; fs_sinit := Some (at_ false false);
  fs_etrans := FTrue;
  fs_strans := FNot (FAnd (at_ false false) (FAnd (FNext "a") (FNext "b")));
  fs_egoals := [];
  fs_sgoals := [at_ false false; at_ true true]
|}%Z.
Lemma ex_det_scoped : well_scoped ex_det. Proof. scoped. Qed.
Lemma ex_det_bool : all_boolean ex_det. Proof. scoped. Qed.
Definition new_apartb (F : fspec) (g : form) (j : nat) : bool :=
  forallb (fun s => negb (holds F g s && sgoal F j s)) (fs_states F).
Lemma new_apartb_ok : forall F g j, new_apartb F g j = true -> new_apart F g j.
Proof.
  intros F g j H s Hs H1 H2. unfold new_apartb in H. rewrite forallb_forall in H. specialize (H s Hs). rewrite H1, H2 in H. discriminate.
Qed.
Lemma at_scoped : forall a b, boolean (at_ a b) = true /\ state_form ex_det (at_ a b).
Proof. intros [|] [|]; (split; [reflexivity|]); (split; [|reflexivity]); intros v Hv; cbn in *; tauto. Qed.
(** measuring along both bits, the first goal of least distance is number 0 *)
Lemma det_runs : exists F orc alloc fs g fuel A text B,
  well_scoped F /\ all_boolean F /\ 2 <= List.length (fs_sgoals F) /\ boolean g = true /\ state_form F g /\
  env_moves F /\ tools_ok F orc alloc /\ fields_in (List.length (fs_evars F) + List.length (fs_svars F)) fs /\
  synthesize (spec_of F) orc alloc fuel ALL_INIT = Ok A /\ writable 2 A /\ aut_aut_dump A 2 = Ok text /\ short_lines text /\
  2 ^ (List.length (fs_evars F) + List.length (fs_svars F)) <= fuel /\
  add_metric_sysgoal (spec_of F) NULL orc alloc fuel 2 text fs (tree_of g) = Ok B /\
  (forall i, i < List.length (fs_sgoals F) -> apart F i (after F i) /\ new_apart F g (after F i)) /\
  List.length A = 3 /\ List.length B = 3 /\ exists y, In y B /\ holds F g (astate y) = true.
Proof.
  assert (E0 : exists A t, strategy_file ex_det 2 60 = Ok (A, t)) by (eexists; eexists; vm_compute; reflexivity).
  destruct E0 as (A & t & E).
  assert (Hw : can_write 2 A = true).
  { clear - E. vm_compute in E. injection E as <- <-. reflexivity. }
  destruct (strategy_file_ok _ _ _ _ _ E Hw) as (H1 & H2 & H3 & H4).
  assert (HB : exists B, add_metric_sysgoal (spec_of ex_det) NULL robdd_oracle alloc_max 60 2 t [(0, 2)%Z] (tree_of (at_ true false)) = Ok B /\
    List.length A = 3 /\ List.length B = 3 /\ existsb (fun y => holds ex_det (at_ true false) (astate y)) B = true).
  { revert E. clear. intros E. vm_compute in E. injection E as <- <-. eexists. split; [vm_compute; reflexivity|]. repeat split; vm_compute; reflexivity. }
  destruct HB as (B & HB1 & HB2 & HB3 & HB4).
  exists ex_det, robdd_oracle, alloc_max, [(0, 2)%Z], (at_ true false), 60, A, t, B.
  split; [exact ex_det_scoped|]. split; [exact ex_det_bool|]. split; [cbn; lia|].
  split; [apply at_scoped|]. split; [apply at_scoped|]. split; [intros s Hs; exists []; split; [left; reflexivity|reflexivity]|]. split; [apply tools_exist|].
  split. { intros o w [K|[]]. injection K as <- <-. cbn. lia. }
  split; [exact H1|]. split; [exact H2|]. split; [exact H3|]. split; [exact H4|]. split; [cbn; lia|]. split; [exact HB1|]. split.
  { intros i Hi. cbn in Hi. destruct i as [|[|i]]; [| |lia]; (split; [apply apartb_ok|apply new_apartb_ok]); vm_compute; reflexivity. }
  split; [exact HB2|]. split; [exact HB3|]. apply existsb_exists in HB4. exact HB4.
Qed.
(** a node that passes the goal before is followed at once by one that passes the goal
    after: the latter is freed, and then read *)
Lemma dangling_refuted : exists F orc alloc fs g fuel A text,
  well_scoped F /\ all_boolean F /\ 2 <= List.length (fs_sgoals F) /\ boolean g = true /\ state_form F g /\
  tools_ok F orc alloc /\ fields_in (List.length (fs_evars F) + List.length (fs_svars F)) fs /\
  synthesize (spec_of F) orc alloc fuel ALL_INIT = Ok A /\ writable 2 A /\ aut_aut_dump A 2 = Ok text /\ short_lines text /\
  2 ^ (List.length (fs_evars F) + List.length (fs_svars F)) <= fuel /\
  (forall i, i < List.length (fs_sgoals F) -> apart F i (after F i) /\ new_apart F g i) /\
  add_metric_sysgoal (spec_of F) NULL orc alloc fuel 2 text fs (tree_of g) = Crash.
Proof.
  assert (E0 : exists A t, strategy_file ex_det 2 60 = Ok (A, t)) by (eexists; eexists; vm_compute; reflexivity).
  destruct E0 as (A & t & E).
  assert (Hw : can_write 2 A = true).
  { clear - E. vm_compute in E. injection E as <- <-. reflexivity. }
  destruct (strategy_file_ok _ _ _ _ _ E Hw) as (H1 & H2 & H3 & H4).
  assert (HB : add_metric_sysgoal (spec_of ex_det) NULL robdd_oracle alloc_max 60 2 t [] (tree_of (at_ true false)) = Crash).
  { revert E. clear. intros E. vm_compute in E. injection E as <- <-. vm_compute. reflexivity. }
  exists ex_det, robdd_oracle, alloc_max, [], (at_ true false), 60, A, t.
  split; [exact ex_det_scoped|]. split; [exact ex_det_bool|]. split; [cbn; lia|].
  split; [apply at_scoped|]. split; [apply at_scoped|]. split; [apply tools_exist|].
  split. { intros o w []. }
  split; [exact H1|]. split; [exact H2|]. split; [exact H3|]. split; [exact H4|]. split; [cbn; lia|]. split.
  { intros i Hi. cbn in Hi. destruct i as [|[|i]]; [| |lia]; (split; [apply apartb_ok|apply new_apartb_ok]); vm_compute; reflexivity. }
  exact HB.
Qed.
(** the new goal can hold together with the goal after it: a node cannot move *)
Lemma stuck_refuted : exists F orc alloc fs g i fuel A text B,
  well_scoped F /\ all_boolean F /\ 2 <= List.length (fs_sgoals F) /\ boolean g = true /\ state_form F g /\
  tools_ok F orc alloc /\ fields_in (List.length (fs_evars F) + List.length (fs_svars F)) fs /\
  synthesize (spec_of F) orc alloc fuel ALL_INIT = Ok A /\ writable 2 A /\ aut_aut_dump A 2 = Ok text /\ short_lines text /\
  2 ^ (List.length (fs_evars F) + List.length (fs_svars F)) <= fuel /\
  place fs F g i /\ apart F i (after F i) /\
  add_metric_sysgoal (spec_of F) NULL orc alloc fuel 2 text fs (tree_of g) = Ok B /\
  exists x e, In x B /\ legal_env (game_of (with_goal (S i) g F)) (astate x) e /\
    ~ exists y, In y B /\ In (aid y) (atrans x) /\ g_env (game_of (with_goal (S i) g F)) (astate y) = e.
Proof.
  assert (E0 : exists A t, strategy_file ex_det 2 60 = Ok (A, t)) by (eexists; eexists; vm_compute; reflexivity).
  destruct E0 as (A & t & E).
  assert (Hw : can_write 2 A = true).
  { clear - E. vm_compute in E. injection E as <- <-. reflexivity. }
  destruct (strategy_file_ok _ _ _ _ _ E Hw) as (H1 & H2 & H3 & H4).
  assert (HB : exists B x, add_metric_sysgoal (spec_of ex_det) NULL robdd_oracle alloc_max 60 2 t [] (tree_of (at_ false false)) = Ok B /\
    In x B /\ atrans x = [] /\ astate x = [0; 0]%Z).
  { revert E. clear. intros E. vm_compute in E. injection E as <- <-. eexists. eexists. split; [vm_compute; reflexivity|].
    split; [right; right; right; left; reflexivity|]. split; reflexivity. }
  destruct HB as (B & x & HB1 & HB2 & HB3 & HB4).
  exists ex_det, robdd_oracle, alloc_max, [], (at_ false false), 1, 60, A, t, B.
  split; [exact ex_det_scoped|]. split; [exact ex_det_bool|]. split; [cbn; lia|].
  split; [apply at_scoped|]. split; [apply at_scoped|]. split; [apply tools_exist|].
  split. { intros o w []. }
  split; [exact H1|]. split; [exact H2|]. split; [exact H3|]. split; [exact H4|]. split; [cbn; lia|].
  split. { split; [cbn; lia|]. split; [intros _; reflexivity|intros K; congruence]. }
  split; [apply apartb_ok; vm_compute; reflexivity|]. split; [exact HB1|].
  exists x, []. split; auto. rewrite HB4. split; [split; [left; reflexivity|reflexivity]|].
  intros (y & _ & Ht & _). rewrite HB3 in Ht. exact Ht.
Qed.
(** the new goal holds where the goal before it is passed: freed memory is read *)
Lemma reached_refuted : exists F orc alloc fs g i fuel A text,
  well_scoped F /\ all_boolean F /\ 2 <= List.length (fs_sgoals F) /\ boolean g = true /\ state_form F g /\
  tools_ok F orc alloc /\ fields_in (List.length (fs_evars F) + List.length (fs_svars F)) fs /\
  synthesize (spec_of F) orc alloc fuel ALL_INIT = Ok A /\ writable 2 A /\ aut_aut_dump A 2 = Ok text /\ short_lines text /\
  2 ^ (List.length (fs_evars F) + List.length (fs_svars F)) <= fuel /\
  place fs F g i /\ apart F i (after F i) /\ new_apart F g (after F i) /\
  (exists y, In y A /\ comes_after F i A y /\ holds F g (astate y) = true) /\
  add_metric_sysgoal (spec_of F) NULL orc alloc fuel 2 text fs (tree_of g) = Crash.
Proof.
  assert (E0 : exists A t, strategy_file ex_det 2 60 = Ok (A, t)) by (eexists; eexists; vm_compute; reflexivity).
  destruct E0 as (A & t & E).
  assert (Hw : can_write 2 A = true).
  { clear - E. vm_compute in E. injection E as <- <-. reflexivity. }
  destruct (strategy_file_ok _ _ _ _ _ E Hw) as (H1 & H2 & H3 & H4).
  assert (HB : add_metric_sysgoal (spec_of ex_det) NULL robdd_oracle alloc_max 60 2 t [] (tree_of (at_ true true)) = Crash /\
    exists y, In y A /\ comes_after ex_det 1 A y /\ holds ex_det (at_ true true) (astate y) = true).
  { revert E. clear. intros E. vm_compute in E. injection E as <- <-. split; [vm_compute; reflexivity|].
    eexists. split; [left; reflexivity|]. split; [|reflexivity]. eexists. split; [right; left; reflexivity|]. split; [left; reflexivity|].
    exists 1, 1, 0. cbn. repeat split; lia. }
  destruct HB as (HB1 & HB2).
  exists ex_det, robdd_oracle, alloc_max, [], (at_ true true), 1, 60, A, t.
  split; [exact ex_det_scoped|]. split; [exact ex_det_bool|]. split; [cbn; lia|].
  split; [apply at_scoped|]. split; [apply at_scoped|]. split; [apply tools_exist|].
  split. { intros o w []. }
  split; [exact H1|]. split; [exact H2|]. split; [exact H3|]. split; [exact H4|]. split; [cbn; lia|].
  split. { split; [cbn; lia|]. split; [intros _; reflexivity|intros K; congruence]. }
  split; [apply apartb_ok; vm_compute; reflexivity|]. split; [apply new_apartb_ok; vm_compute; reflexivity|]. split; [exact HB2|exact HB1].
Qed.
(** as [ex_det], but starting where goal 1 holds *)
Definition ex_lost : fspec := {|
  fs_evars := []; fs_svars := [("a", -1); ("b", -1)];
  fs_einit := None; fs_sinit := Some (at_ true true);
  fs_etrans := FTrue;
  fs_strans := FNot (FAnd (at_ false false) (FAnd (FNext "a") (FNext "b")));
  fs_egoals := [];
  fs_sgoals := [at_ false false; at_ true true]
|}%Z.
Lemma ex_lost_scoped : well_scoped ex_lost. Proof. scoped. Qed.
Lemma ex_lost_bool : all_boolean ex_lost. Proof. scoped. Qed.
(** the only initial node is one where the goal after the new one is passed: the result
    has no initial node *)
Lemma initial_refuted : exists F orc alloc fs g fuel A text B,
  well_scoped F /\ all_boolean F /\ 2 <= List.length (fs_sgoals F) /\ boolean g = true /\ state_form F g /\
  tools_ok F orc alloc /\ fields_in (List.length (fs_evars F) + List.length (fs_svars F)) fs /\
  synthesize (spec_of F) orc alloc fuel ALL_INIT = Ok A /\ writable 2 A /\ aut_aut_dump A 2 = Ok text /\ short_lines text /\
  2 ^ (List.length (fs_evars F) + List.length (fs_svars F)) <= fuel /\
  add_metric_sysgoal (spec_of F) NULL orc alloc fuel 2 text fs (tree_of g) = Ok B /\
  (forall i, i < List.length (fs_sgoals F) -> apart F i (after F i) /\ new_apart F g (after F i)) /\
  (exists x, In x A /\ ainit x = true) /\ B <> [] /\ forall y, In y B -> ainit y = false.
Proof.
  assert (E0 : exists A t, strategy_file ex_lost 2 60 = Ok (A, t)) by (eexists; eexists; vm_compute; reflexivity).
  destruct E0 as (A & t & E).
  assert (Hw : can_write 2 A = true).
  { clear - E. vm_compute in E. injection E as <- <-. reflexivity. }
  destruct (strategy_file_ok _ _ _ _ _ E Hw) as (H1 & H2 & H3 & H4).
  assert (HB : exists B, add_metric_sysgoal (spec_of ex_lost) NULL robdd_oracle alloc_max 60 2 t [(0, 2)%Z] (tree_of (at_ true false)) = Ok B /\
    (exists x, In x A /\ ainit x = true) /\ B <> [] /\ forallb (fun y => negb (ainit y)) B = true).
  { revert E. clear. intros E. vm_compute in E. injection E as <- <-. eexists. split; [vm_compute; reflexivity|].
    split; [eexists; split; [right; right; left; reflexivity|reflexivity]|]. split; [discriminate|reflexivity]. }
  destruct HB as (B & HB1 & HB2 & HB3 & HB4).
  exists ex_lost, robdd_oracle, alloc_max, [(0, 2)%Z], (at_ true false), 60, A, t, B.
  split; [exact ex_lost_scoped|]. split; [exact ex_lost_bool|]. split; [cbn; lia|].
  split; [apply at_scoped|]. split; [apply at_scoped|]. split; [apply tools_exist|].
  split. { intros o w [K|[]]. injection K as <- <-. cbn. lia. }
  split; [exact H1|]. split; [exact H2|]. split; [exact H3|]. split; [exact H4|]. split; [cbn; lia|]. split; [exact HB1|]. split.
  { intros i Hi. cbn in Hi. destruct i as [|[|i]]; [| |lia]; (split; [apply apartb_ok|apply new_apartb_ok]); vm_compute; reflexivity. }
  split; [exact HB2|]. split; [exact HB3|]. intros y Hy. rewrite forallb_forall in HB4. apply negb_true_iff. auto.
Qed.
