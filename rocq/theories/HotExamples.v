(** Runs of rm_sysgoal: one that works, and specifications on which it goes wrong. *)
From Coq Require Import List ZArith Lia Bool Arith String.
From Verif Require Import Base Game Bdd Support SupportProofs EnumProofs Strs Ptree Form Solve FSpec Automaton AutProofs Synth SynthSpec SynthFindings
  Reach AutIO AutIOSpec AutIOProofs Nonbool Examples Hotswap HotSpec HotLoad HotSynth.
Import ListNotations.
Open Scope string_scope.
Open Scope list_scope.
Open Scope nat_scope.

(** ** Deciding [writable] *)
Definition int_okb (z : Z) : bool := ((- 2 ^ 31 <=? z) && (z <? 2 ^ 31))%Z.
Fixpoint nodupb (l : list nat) : bool :=
  match l with [] => true | a :: r => negb (existsb (Nat.eqb a) r) && nodupb r end.
Definition can_write (n : Z) (A : aut) : bool :=
  negb (match A with [] => true | _ => false end) && ((1 <=? n)%Z && (nodupb (map aid A) &&
  ((Z.of_nat (List.length A) <? 2 ^ 31)%Z &&
  forallb (fun x => (Z.of_nat (List.length (astate x)) =? n)%Z && (forallb int_okb (astate x) && (int_okb (amode x) &&
     (int_okb (argrad x) && (forallb (fun t => existsb (Nat.eqb t) (map aid A)) (atrans x) &&
     (12 * (n + Z.of_nat (List.length (atrans x)) + 4) <? 4095)%Z))))) A))).
Lemma int_okb_ok : forall z, int_okb z = true -> int_ok z.
Proof. intros z H. unfold int_okb in H. unfold int_ok. lia. Qed.
Lemma nodupb_ok : forall l, nodupb l = true -> NoDup l.
Proof.
  induction l as [|a r IH]; intros H; [constructor|]. cbn in H. apply andb_true_iff in H. destruct H as (H1 & H2).
  constructor; auto. intros Hi. apply negb_true_iff in H1. rewrite <- not_true_iff_false in H1. apply H1.
  apply existsb_exists. exists a. split; auto. apply Nat.eqb_refl.
Qed.
Lemma can_write_ok : forall n A, can_write n A = true -> writable n A /\
  exists text, aut_aut_dump A n = Ok text /\ short_lines text.
Proof.
  intros n A H. unfold can_write in H. repeat (apply andb_true_iff in H as [? H]). rename H into Hx.
  rewrite forallb_forall in Hx.
  assert (W : writable n A).
  { split; [destruct A; [discriminate|discriminate]|]. split; [lia|]. split; [apply nodupb_ok; auto|]. split; [lia|].
    intros x Hi. specialize (Hx x Hi). repeat (apply andb_true_iff in Hx as [? Hx]).
    split; [lia|]. split.
    { intros z Hz. apply int_okb_ok. match goal with K : forallb int_okb _ = true |- _ => rewrite forallb_forall in K; auto end. }
    split; [apply int_okb_ok; auto|]. split; [apply int_okb_ok; auto|].
    intros t Ht. match goal with K : forallb _ (atrans x) = true |- _ => rewrite forallb_forall in K; specialize (K t Ht);
      apply existsb_exists in K; destruct K as (u & K1 & K2); apply Nat.eqb_eq in K2; subst u; auto end. }
  split; auto. destruct (dump_load true n A W) as (text & Et & _). exists text.
  unfold aut_aut_dump. rewrite Et. split; [reflexivity|].
  apply (dump_short true n A W) with (r := 0%Z); auto.
  intros x Hi. specialize (Hx x Hi). repeat (apply andb_true_iff in Hx as [? Hx]). lia.
Qed.

Definition no (v : string) : form := FNot (FVar v).
Definition no' (v : string) : form := FNot (FNext v).
(** the three goals are visited in turn; [x] is the environment's *)
Definition ex_round : fspec := {|
  fs_evars := [("x", -1)]; fs_svars := [("a", -1); ("b", -1)];
  fs_einit := Some (no "x"); fs_sinit := Some (FAnd (FVar "a") (FVar "b"));
  fs_etrans := FTrue;
  fs_strans := FNot (FAnd (FAnd (no "a") (no "b")) (FAnd (FNext "a") (FNext "b")));
  fs_egoals := [FVar "x"];
  fs_sgoals := [FAnd (no "a") (no "b"); FAnd (FVar "a") (no "b"); FAnd (FVar "a") (FVar "b")]
|}%Z.
(** goals 0 and 1 can be reached at the same time *)
Definition ex_skip : fspec := {|
  fs_evars := [("x", -1)]; fs_svars := [("a", -1)];
  fs_einit := Some (no "x"); fs_sinit := Some (no "a");
  fs_etrans := FTrue; fs_strans := FTrue;
  fs_egoals := [FVar "x"];
  fs_sgoals := [FVar "a"; FVar "x"; no "a"]
|}%Z.
(** few nodes seek goals 1 and 2, many follow them *)
Definition ex_many : fspec := {|
  fs_evars := [("x", -1); ("y", -1)]; fs_svars := [("a", -1)];
  fs_einit := Some (FAnd (FVar "x") (FVar "y")); fs_sinit := Some (no "a");
  fs_etrans := FImp (no "a") (FAnd (no' "x") (no' "y"));
  fs_strans := FImp (FOr (FVar "a") (FAnd (no "x") (no "y"))) (FImp (FAnd (no' "x") (no' "y")) (FNext "a"));
  fs_egoals := [FOr (FVar "x") (FVar "y")];
  fs_sgoals := [FAnd (no "a") (FAnd (no "x") (no "y")); FVar "a"; FAnd (no "a") (FOr (FVar "x") (FVar "y"))]
|}%Z.
(** in one initial state the environment cannot move *)
Definition ex_halt : fspec := {|
  fs_evars := [("x", -1)]; fs_svars := [("a", -1); ("b", -1)];
  fs_einit := None; fs_sinit := Some (FOr (FAnd (FVar "a") (FVar "b")) (FAnd (no "a") (no "b")));
  fs_etrans := FNot (FAnd (FVar "x") (FAnd (no "a") (no "b")));
  fs_strans := FAnd (FNot (FAnd (FNext "x") (FAnd (no' "a") (no' "b"))))
                 (FNot (FAnd (FAnd (no "a") (no "b")) (FAnd (FNext "a") (FNext "b"))));
  fs_egoals := [no "x"];
  fs_sgoals := [FAnd (no "a") (no "b"); FAnd (FVar "a") (no "b"); FAnd (FVar "a") (FVar "b")]
|}%Z.
Lemma ex_round_scoped : well_scoped ex_round. Proof. scoped. Qed.
Lemma ex_round_bool : all_boolean ex_round. Proof. scoped. Qed.
Lemma ex_skip_scoped : well_scoped ex_skip. Proof. scoped. Qed.
Lemma ex_skip_bool : all_boolean ex_skip. Proof. scoped. Qed.
Lemma ex_many_scoped : well_scoped ex_many. Proof. scoped. Qed.
Lemma ex_many_bool : all_boolean ex_many. Proof. scoped. Qed.
Lemma ex_halt_scoped : well_scoped ex_halt. Proof. scoped. Qed.
Lemma ex_halt_bool : all_boolean ex_halt. Proof. scoped. Qed.
Definition apartb (F : fspec) (i j : nat) : bool :=
  forallb (fun s => negb (sgoal F i s && sgoal F j s)) (fs_states F).
Lemma apartb_ok : forall F i j, apartb F i j = true -> apart F i j.
Proof.
  intros F i j H s Hs H1 H2. unfold apartb in H. rewrite forallb_forall in H. specialize (H s Hs). rewrite H1, H2 in H. discriminate.
Qed.

(** the strategy of [synthesize], written to a file *)
Definition strategy_file (F : fspec) (n : Z) (fuel : nat) : out (aut * string) :=
  A <- synthesize (spec_of F) robdd_oracle alloc_max fuel ALL_INIT ;;
  t <- aut_aut_dump A n ;;
  Ok (A, t).
Lemma strategy_file_ok : forall F n fuel A t, strategy_file F n fuel = Ok (A, t) -> can_write n A = true ->
  synthesize (spec_of F) robdd_oracle alloc_max fuel ALL_INIT = Ok A /\ writable n A /\ aut_aut_dump A n = Ok t /\ short_lines t.
Proof.
  intros F n fuel A t H Hw. unfold strategy_file in H.
  destruct (synthesize _ _ _ _ _) as [A'| |] eqn:E; cbn [bind] in H; try discriminate.
  destruct (aut_aut_dump A' n) as [t'| |] eqn:Et; cbn [bind] in H; try discriminate. injection H as -> ->.
  destruct (can_write_ok n A Hw) as (W & t0 & E0 & Hs). rewrite E0 in Et. injection Et as <-. auto.
Qed.
Lemma round_runs : exists F orc alloc fuel A text B,
  well_scoped F /\ all_boolean F /\ tools_ok F orc alloc /\ 3 <= List.length (fs_sgoals F) /\
  (forall j, j < List.length (fs_sgoals F) -> after F j = 1 -> apart F j 1) /\
  synthesize (spec_of F) orc alloc fuel ALL_INIT = Ok A /\ writable 3 A /\ aut_aut_dump A 3 = Ok text /\ short_lines text /\
  rm_sysgoal (spec_of F) NULL orc alloc fuel 3 text 1 = Ok B /\ List.length A = 6 /\ List.length B = 5.
Proof.
  assert (E0 : exists A t, strategy_file ex_round 3 60 = Ok (A, t)) by (eexists; eexists; vm_compute; reflexivity).
  destruct E0 as (A & t & E).
  assert (Hw : can_write 3 A = true).
  { clear - E. vm_compute in E. injection E as <- <-. reflexivity. }
  destruct (strategy_file_ok _ _ _ _ _ E Hw) as (H1 & H2 & H3 & H4).
  assert (HB : exists B, rm_sysgoal (spec_of ex_round) NULL robdd_oracle alloc_max 60 3 t 1 = Ok B /\
    List.length A = 6 /\ List.length B = 5).
  { revert E. clear. intros E. vm_compute in E. injection E as <- <-. eexists. split; [vm_compute; reflexivity|]. split; reflexivity. }
  destruct HB as (B & HB1 & HB2 & HB3).
  exists ex_round, robdd_oracle, alloc_max, 60, A, t, B.
  split; [exact ex_round_scoped|]. split; [exact ex_round_bool|]. split; [apply tools_exist|]. split; [cbn; lia|].
  split.
  { intros j Hj Ha. cbn in Hj. destruct j as [|[|[|j]]]; [|vm_compute in Ha; discriminate Ha|vm_compute in Ha; discriminate Ha|lia].
    apply apartb_ok. vm_compute. reflexivity. }
  auto 10.
Qed.
(** the strategy that comes out does not answer a move in its initial state *)
Lemma skip_refuted : exists F orc alloc fuel A text B d,
  well_scoped F /\ all_boolean F /\ tools_ok F orc alloc /\ 3 <= List.length (fs_sgoals F) /\ d < List.length (fs_sgoals F) /\
  synthesize (spec_of F) orc alloc fuel ALL_INIT = Ok A /\ writable 2 A /\ aut_aut_dump A 2 = Ok text /\ short_lines text /\
  rm_sysgoal (spec_of F) NULL orc alloc fuel 2 text (Z.of_nat d) = Ok B /\
  exists x e, In x B /\ ainit x = true /\ legal_env (game_of (without d F)) (astate x) e /\
    ~ exists y, In y B /\ In (aid y) (atrans x) /\ g_env (game_of (without d F)) (astate y) = e.
Proof.
  assert (E0 : exists A t, strategy_file ex_skip 2 60 = Ok (A, t)) by (eexists; eexists; vm_compute; reflexivity).
  destruct E0 as (A & t & E).
  assert (Hw : can_write 2 A = true).
  { clear - E. vm_compute in E. injection E as <- <-. reflexivity. }
  destruct (strategy_file_ok _ _ _ _ _ E Hw) as (H1 & H2 & H3 & H4).
  assert (HB : rm_sysgoal (spec_of ex_skip) NULL robdd_oracle alloc_max 60 2 t 1 =
    Ok [Automaton.Node 7 false [1; 0]%Z 0 1 [5]; Automaton.Node 6 true [0; 0]%Z 0 1 [5]; Automaton.Node 5 false [0; 1]%Z 2 1 [6; 7]]).
  { revert E. clear. intros E. vm_compute in E. injection E as <- <-. vm_compute. reflexivity. }
  exists ex_skip, robdd_oracle, alloc_max, 60, A, t. eexists. exists 1.
  split; [exact ex_skip_scoped|]. split; [exact ex_skip_bool|]. split; [apply tools_exist|]. split; [cbn; lia|].
  split; [cbn; lia|]. split; [exact H1|]. split; [exact H2|]. split; [exact H3|]. split; [exact H4|]. split; [exact HB|].
  exists (Automaton.Node 6 true [0; 0]%Z 0 1 [5]), [1%Z].
  split; [right; left; reflexivity|]. split; [reflexivity|]. split; [split; [right; left; reflexivity|reflexivity]|].
  intros (y & [<-|[<-|[<-|[]]]] & Ht & He); cbn in Ht, He; (intuition lia) || (vm_compute in He; discriminate He).
Qed.
(** more nodes follow than are deleted: the array Exit overflows, whatever happens next *)
Lemma many_refuted : exists F orc alloc fuel A text d,
  well_scoped F /\ all_boolean F /\ tools_ok F orc alloc /\ 3 <= List.length (fs_sgoals F) /\ d < List.length (fs_sgoals F) /\
  (forall i, i < List.length (fs_sgoals F) -> apart F i (after F i)) /\
  synthesize (spec_of F) orc alloc fuel ALL_INIT = Ok A /\ writable 3 A /\ aut_aut_dump A 3 = Ok text /\ short_lines text /\
  forall f, rm_sysgoal (spec_of F) NULL orc alloc f 3 text (Z.of_nat d) = Crash.
Proof.
  assert (E0 : exists A t, strategy_file ex_many 3 60 = Ok (A, t)) by (eexists; eexists; vm_compute; reflexivity).
  destruct E0 as (A & t & E).
  assert (Hw : can_write 3 A = true).
  { clear - E. vm_compute in E. injection E as <- <-. reflexivity. }
  destruct (strategy_file_ok _ _ _ _ _ E Hw) as (H1 & H2 & H3 & H4).
  assert (HB : forall f, rm_sysgoal (spec_of ex_many) NULL robdd_oracle alloc_max f 3 t 1 = Crash).
  { revert E. clear. intros E. vm_compute in E. injection E as <- <-. intros f. vm_compute. reflexivity. }
  exists ex_many, robdd_oracle, alloc_max, 60, A, t, 1.
  split; [exact ex_many_scoped|]. split; [exact ex_many_bool|]. split; [apply tools_exist|]. split; [cbn; lia|].
  split; [cbn; lia|]. split.
  { intros i Hi. cbn in Hi. destruct i as [|[|[|i]]]; [| | |lia]; apply apartb_ok; vm_compute; reflexivity. }
  auto 10.
Qed.
(** the array Exit is large enough, yet freeing the nodes of the removed modes passes an
    uninitialised pointer to free *)
Lemma halt_refuted : exists F orc alloc fuel A text d,
  well_scoped F /\ all_boolean F /\ tools_ok F orc alloc /\ 3 <= List.length (fs_sgoals F) /\ d < List.length (fs_sgoals F) /\
  (forall i, i < List.length (fs_sgoals F) -> apart F i (after F i)) /\
  synthesize (spec_of F) orc alloc fuel ALL_INIT = Ok A /\ writable 3 A /\ aut_aut_dump A 3 = Ok text /\ short_lines text /\
  rm_sysgoal (spec_of F) NULL orc alloc fuel 3 text (Z.of_nat d) = Crash /\
  List.length A = 7 /\ List.length (filter (fun x => negb (amode x =? 0)%Z) A) = 4.
Proof.
  assert (E0 : exists A t, strategy_file ex_halt 3 60 = Ok (A, t)) by (eexists; eexists; vm_compute; reflexivity).
  destruct E0 as (A & t & E).
  assert (Hw : can_write 3 A = true).
  { clear - E. vm_compute in E. injection E as <- <-. reflexivity. }
  destruct (strategy_file_ok _ _ _ _ _ E Hw) as (H1 & H2 & H3 & H4).
  assert (HB : rm_sysgoal (spec_of ex_halt) NULL robdd_oracle alloc_max 60 3 t 1 = Crash /\
    List.length A = 7 /\ List.length (filter (fun x => negb (amode x =? 0)%Z) A) = 4).
  { revert E. clear. intros E. vm_compute in E. injection E as <- <-. split; [vm_compute; reflexivity|]. split; reflexivity. }
  destruct HB as (HB1 & HB2 & HB3).
  exists ex_halt, robdd_oracle, alloc_max, 60, A, t, 1.
  split; [exact ex_halt_scoped|]. split; [exact ex_halt_bool|]. split; [apply tools_exist|]. split; [cbn; lia|].
  split; [cbn; lia|]. split.
  { intros i Hi. cbn in Hi. destruct i as [|[|[|i]]]; [| | |lia]; apply apartb_ok; vm_compute; reflexivity. }
  auto 10.
Qed.
(** ** Deciding the hypotheses on the strategy *)
Definition elseb (F : fspec) (i : nat) (x : anode) : bool :=
  negb (amode x =? Z.of_nat i)%Z && negb (amode x =? Z.of_nat (after F i))%Z.
Lemma elseb_ok : forall F i x, elseb F i x = true <-> elsewhere F i x.
Proof. intros F i x. unfold elseb, elsewhere. rewrite andb_true_iff, !negb_true_iff, !Z.eqb_neq. reflexivity. Qed.
Definition fitb (F : fspec) (i : nat) (A : aut) : bool :=
  List.length (filter (fun y => elseb F i y &&
    existsb (fun x => negb (elseb F i x) && existsb (Nat.eqb (aid y)) (atrans x)) A) A) <=?
  List.length (filter (fun x => negb (elseb F i x)) A).
Lemma fitb_ok : forall F i A, NoDup A -> fitb F i A = true -> exits_fit F i A.
Proof.
  intros F i A Hnd H. unfold fitb in H. apply Nat.leb_le in H. eexists. eexists. split; [|split; [|split; [|exact H]]].
  - intros y (Hy & He & x & Hx & Hn & Ht). apply filter_In. split; auto. apply andb_true_iff. split; [apply elseb_ok; auto|].
    apply existsb_exists. exists x. split; auto. apply andb_true_iff. split.
    + apply negb_true_iff. destruct (elseb F i x) eqn:E; auto. apply elseb_ok in E. tauto.
    + apply existsb_exists. exists (aid y). split; auto. apply Nat.eqb_refl.
  - apply NoDup_filter. auto.
  - intros x Hx. apply filter_In in Hx. destruct Hx as (Hx & Hn). split; auto. intros K. apply elseb_ok in K. rewrite K in Hn. discriminate.
Qed.
Lemma round_patched : exists F orc alloc fuel A text,
  well_scoped F /\ all_boolean F /\ tools_ok F orc alloc /\ 3 <= List.length (fs_sgoals F) /\
  (forall j, j < List.length (fs_sgoals F) -> after F j = 1 -> apart F j 1) /\
  apart F (after F 1) (after F (after F 1)) /\ env_moves F /\
  synthesize (spec_of F) orc alloc fuel ALL_INIT = Ok A /\ writable 3 A /\ aut_aut_dump A 3 = Ok text /\ short_lines text /\
  exits_fit F 1 A /\ taken_up F 1 A.
Proof.
  assert (E0 : exists A t, strategy_file ex_round 3 60 = Ok (A, t)) by (eexists; eexists; vm_compute; reflexivity).
  destruct E0 as (A & t & E).
  assert (Hw : can_write 3 A = true).
  { clear - E. vm_compute in E. injection E as <- <-. reflexivity. }
  destruct (strategy_file_ok _ _ _ _ _ E Hw) as (H1 & H2 & H3 & H4).
  assert (HB : fitb ex_round 1 A = true /\
    existsb (fun x => existsb (fun y => existsb (Nat.eqb (aid y)) (atrans x) && (negb (amode x =? 1)%Z && (amode y =? 1)%Z)) A) A = true).
  { revert E. clear. intros E. vm_compute in E. injection E as <- <-. split; vm_compute; reflexivity. }
  destruct HB as (HB1 & HB2).
  exists ex_round, robdd_oracle, alloc_max, 60, A, t.
  split; [exact ex_round_scoped|]. split; [exact ex_round_bool|]. split; [apply tools_exist|]. split; [cbn; lia|].
  split.
  { intros j Hj Ha. cbn in Hj. destruct j as [|[|[|j]]]; [|vm_compute in Ha; discriminate Ha|vm_compute in Ha; discriminate Ha|lia].
    apply apartb_ok. vm_compute. reflexivity. }
  split; [apply apartb_ok; vm_compute; reflexivity|]. split.
  { intros s Hs. exists [0%Z]. split; [left; reflexivity|reflexivity]. }
  split; [exact H1|]. split; [exact H2|]. split; [exact H3|]. split; [exact H4|]. split.
  - apply fitb_ok; auto. apply (NoDup_map_inv aid). apply H2.
  - apply existsb_exists in HB2. destruct HB2 as (x & Hx & K). apply existsb_exists in K. destruct K as (y & Hy & K).
    apply andb_true_iff in K. destruct K as (K1 & K2). apply andb_true_iff in K2. destruct K2 as (K2 & K3).
    apply existsb_exists in K1. destruct K1 as (z & K1 & K4). apply Nat.eqb_eq in K4. subst z.
    exists x, y. split; auto. split; auto. split; auto. cbn [Z.of_nat Pos.of_succ_nat] in *. lia.
Qed.
