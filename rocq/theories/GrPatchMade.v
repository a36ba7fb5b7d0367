(** The strategies that gr1c writes, for specifications with integer variables, are of the
    form that gr1c-patch expects. *)
From Coq Require Import List ZArith Bool Arith String Lia.
From Verif Require Import Base Game Strs Ptree Form Support EnumProofs Solve SolveProofs FSpec Automaton AutProofs Synth SynthSpec Nonbool NonboolProofs RSpec
  PipeProofs EncProofs NbStateProofs MainSpec Main PipeVerdict MainProofs HotSpec AddSpec HotInt HotSynth IntPatch.
Import ListNotations.
Open Scope list_scope.
Open Scope nat_scope.

Section Made.
  Variables (flags : init_flags_t) (R : rspec).
  Hypothesis HU : usable R.
  Variables (orc : oracle) (alloc : nat -> aut -> nat).
  Hypothesis Htools : tools R orc alloc.
  Hypothesis Hsep : sep_if flags R.
  Hypothesis Hgoals : rs_sgoals R <> [].
  Let HT := proj1 HU.
  Let HN := proj1 (proj2 HU).
  Let HB := proj1 (proj2 (proj2 HU)).
  Let HP := proj1 (proj2 (proj2 (proj2 HU))).
  Let HD := proj2 (proj2 (proj2 (proj2 HU))).
  Let F := fspec_of R.
  Let F' := solver_spec (-1) flags R.
  Let vs := rs_vars R.
  Lemma made_int : forall fuel A', synthesize (spec_of F') orc alloc fuel flags = Ok A' -> A' <> [] ->
    let A := with_states (dec vs) A' in correct F A /\ in_order F A /\ seeks F A.
  Proof.
    intros fuel A' E Hne A. destruct Htools as [Horc Halloc].
    assert (W1 := F'_scoped flags R HT HN). assert (W2 := F'_boolean flags R HT HN).
    assert (W3 : fs_sgoals F' <> []) by exact (F'_has_goal flags R).
    assert (W4 := tools' flags R HB orc alloc Horc Halloc).
    assert (ND : forall y, In y A' -> exists s, astate y = enc vs s /\ In s (fs_states F)).
    { intros y Hy. destruct (node_dom flags R HT HN HB orc alloc Horc Halloc Hsep fuel A' E y Hy) as (s & Q & Hs & _). eauto. }
    destruct (back_ok R A' ND) as (HA & HB').
    assert (C := made_correct F' W1 W2 W3 orc alloc W4 fuel flags A' E).
    assert (S := made_seeks F' W1 W2 W3 orc alloc W4 fuel flags A' E).
    assert (EF' : F' = regoal (map (expandS vs) (rs_sgoals R)) F') by exact (sgoals_eq flags R Hgoals).
    assert (Ty : forall f, In f (rs_sgoals R) -> typed R [] f) by (intros f; apply (sgoal_typed R HT)).
    change (HotInt.back R A') with A in *.
    assert (C1 : correct F A).
    { rewrite EF', HB' in C. exact (proj2 (correct_h flags R HT HN HB A HA (rs_sgoals R) Ty) C). }
    assert (S1 : seeks F A).
    { rewrite EF', HB' in S. destruct S as (H1 & H2). split.
      - intros x Hx. specialize (H1 _ (in_h R A x Hx)). cbn [regoal fs_sgoals] in H1. rewrite map_length in H1. destruct x; exact H1.
      - intros x u Hx Hu Ht. destruct (h_id R x) as (_ & X2 & X3 & _). destruct (h_id R u) as (U1 & _ & U3 & _).
        rewrite <- X2, <- U1 in Ht. destruct (H2 _ _ (in_h R A x Hx) (in_h R A u Hu) Ht) as (i & c & K1 & K2 & K3 & K4 & K5).
        cbn [regoal fs_sgoals] in *. rewrite map_length in *. rewrite X3 in *. rewrite U3 in *.
        exists i, c. split; [exact K1|]. split; [exact K2|]. split; [exact K3|].
        assert (KS : forall j, sgoal (regoal (map (expandS vs) (rs_sgoals R)) F') j (astate (set_state (enc (rs_vars R) (astate u)) u)) = sgoal F j (astate u)).
        { intros j. exact (sgoal_node flags R HN HB A HA (rs_sgoals R) Ty j u Hu). }
        split.
        + intros j Hj. rewrite <- KS. apply K4. exact Hj.
        + destruct K5 as [K5 K6]. split; [intros Q; rewrite <- KS; apply K5; exact Q|intros Q; apply K6; rewrite KS; exact Q]. }
    split; [exact C1|]. split; [|exact S1].
    destruct S1 as (H1 & H2). split; [exact H1|]. intros x y Hx Hy Ht. destruct (H2 x y Hx Hy Ht) as (i & c & K1 & K2 & K3 & K4 & _). exists i, c. auto.
  Qed.
  Lemma main_made : exists N, forall fuel, N <= fuel -> forall A ev sv,
    gr1c_main orc alloc fuel MODE_SYNTHESIS flags (raw_of R) = Ok (Strategy A ev sv) ->
    correct F A /\ in_order F A /\ seeks F A.
  Proof.
    destruct Htools as [Horc Halloc].
    destruct (run_eq flags R HT HN HB orc alloc Horc Halloc Hsep HP HD) as (N & H). exists N. intros fuel Hf A ev sv E.
    rewrite (H fuel Hf) in E. apply bind_ok in E. destruct E as (T & _ & E). destruct T; [|discriminate E].
    apply bind_ok in E. destruct E as (A' & EA & E). destruct A' as [|x A1] eqn:EB; [discriminate E|]. rewrite <- EB in *.
    injection E as <- _ _. apply (made_int fuel A' EA). rewrite EB. discriminate.
  Qed.
End Made.
