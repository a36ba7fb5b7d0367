(** Specifications with integer variables, for the instances beside the theorems. *)
From Coq Require Import List ZArith Bool String Lia.
From Verif Require Import Base Game Strs Ptree Form Solve FSpec Automaton Nonbool RSpec ExpProofs NonboolProofs.
Import ListNotations.
Open Scope string_scope.
Open Scope list_scope.
Open Scope Z_scope.

(** ENV: x [0,2]; SYS: b;
    ENVINIT: x = 0; SYSINIT: !b;
    ENVTRANS: [](x = 1 -> x' = 2); SYSTRANS: [](x' < 1 -> !b') & [](b -> x' != 2 | !b');
    ENVGOAL: []<>(x = 2); SYSGOAL: []<>b & []<>!b; *)
Definition ex_int : rspec := {|
  rs_evars := [("x", 2)]; rs_svars := [("b", -1)];
  rs_einit := Some (FCmp false "x" CEq 0); rs_sinit := Some (FNot (FVar "b"));
  rs_etrans := [FImp (FCmp false "x" CEq 1) (FCmp true "x" CEq 2)];
  rs_strans := [FImp (FCmp true "x" CLt 1) (FNot (FNext "b"));
                FImp (FVar "b") (FOr (FCmp true "x" CNe 2) (FNot (FNext "b")))];
  rs_egoals := [FCmp false "x" CEq 2];
  rs_sgoals := [FVar "b"; FNot (FVar "b")]
|}.
(** the environment can keep x at 0, and then b never holds *)
Definition ex_int_lost : rspec := {|
  rs_evars := [("x", 2)]; rs_svars := [("b", -1)];
  rs_einit := None; rs_sinit := Some (FNot (FVar "b"));
  rs_etrans := []; rs_strans := [FImp (FNext "b") (FCmp true "x" CGt 1)];
  rs_egoals := []; rs_sgoals := [FVar "b"]
|}.
Lemma ex_bits : bits_distinct [("x", 2); ("b", -1)] /\ NoDup (names [("x", 2); ("b", -1)]) /\
  prefix_free [("x", 2); ("b", -1)] /\ int_domains [("x", 2); ("b", -1)].
Proof.
  split; [split|split; [|split]].
  - vm_compute. repeat constructor; simpl; intuition discriminate.
  - intros x d [E|[E|[]]] Hd i Hi; injection E as <- <-; [|lia]; change (width 2) with 2 in Hi;
      assert (Hc : i = 0 \/ i = 1) by lia; destruct Hc as [-> | ->]; vm_compute; discriminate.
  - vm_compute. repeat constructor; simpl; intuition discriminate.
  - intros x d y e [E|[E|[]]] Hd [E'|[E'|[]]] Hne b Hb; injection E as <- <-; injection E' as <- <-;
      try congruence; try lia; vm_compute in Hb; destruct Hb as [<-|[]]; reflexivity.
  - intros x d [E|[E|[]]]; injection E as <- <-; reflexivity.
Qed.
Ltac typed := unfold well_typed, state_typed, uses, no_ne0, opt_all; cbn;
  repeat split; intros; repeat match goal with
    | H : _ \/ _ |- _ => destruct H
    | H : False |- _ => destruct H
    | H : (_, _) = (_, _) |- _ => injection H; clear H; intros; subst
    | H : _ = _ |- _ => subst
    | H : In _ _ |- _ => cbn in H
    end; try discriminate; try lia; auto; try (exists 2; split; [lia|auto]).
Lemma ex_int_typed : well_typed ex_int.
Proof. typed. all: cbn in *; repeat match goal with H : _ \/ _ |- _ => destruct H | H : False |- _ => destruct H end; subst; try (exists 2; split; [lia|auto]). Qed.
Lemma ex_int_lost_typed : well_typed ex_int_lost.
Proof. typed. all: cbn in *; repeat match goal with H : _ \/ _ |- _ => destruct H | H : False |- _ => destruct H end; subst; try (exists 2; split; [lia|auto]). Qed.
Definition answer (R : rspec) : option bool :=
  match prepare 20 ALL_INIT (raw_of R) with
  | Ok (Some (sp, _)) => match check_realizable sp 20 ALL_INIT with
                         | Ok r => Some (match r with Some _ => true | None => false end)
                         | _ => None
                         end
  | _ => None
  end.
Lemma answer_ok : forall R b, answer R = Some b -> exists sp nb r,
  prepare 20 ALL_INIT (raw_of R) = Ok (Some (sp, nb)) /\ check_realizable sp 20 ALL_INIT = Ok r /\
  (r <> None <-> b = true).
Proof.
  intros R b H. unfold answer in H. destruct (prepare 20 ALL_INIT (raw_of R)) as [[[sp nb]|]| |]; try discriminate.
  destruct (check_realizable sp 20 ALL_INIT) as [r| |] eqn:E; try discriminate. injection H as <-.
  exists sp, nb, r. split; auto. split; auto. destruct r; split; congruence.
Qed.
Lemma ex_int_run : answer ex_int = Some true.
Proof. vm_compute. reflexivity. Qed.
Lemma ex_int_lost_run : answer ex_int_lost = Some false.
Proof. vm_compute. reflexivity. Qed.
Lemma prefix_refuted : exists es ss ev sv nb A, NoDup (names (es ++ ss)) /\ bits_distinct (es ++ ss) /\
  int_domains (es ++ ss) /\ A <> [] /\ (forall x, In x A -> In (astate x) (dvecs (doms (es ++ ss)))) /\
  expand_nonbool_variables (vlist es) (vlist ss) = Ok (ev, sv, nb) /\
  exists B e s, compact_all (map (fun x => set_state (enc (es ++ ss) (astate x)) x) A) ev sv nb = Ok (B, e, s) /\
    (forall x, In x B -> astate x = [3]) /\ s = vlist [("x", 1)].
Proof.
  exists [], [("x", 1); ("xy", -1)]. do 3 eexists. exists [Automaton.Node 7 true [1; 1] 0 (-1) [7%nat]].
  split; [|split; [|split; [|split; [|split; [|split]]]]].
  - vm_compute. repeat constructor; simpl; intuition discriminate.
  - split; [vm_compute; repeat constructor; simpl; intuition discriminate|].
    intros x d [E|[E|[]]] Hd i Hi; injection E as <- <-; [|lia]. change (width 1) with 1 in Hi.
    assert (i = 0) by lia. subst i. vm_compute. discriminate.
  - intros x d [E|[E|[]]]; injection E as <- <-; reflexivity.
  - discriminate.
  - intros x [<-|[]]. vm_compute. tauto.
  - reflexivity.
  - do 3 eexists. split; [vm_compute; reflexivity|]. split; [|reflexivity]. intros x [<-|[]]. reflexivity.
Qed.
