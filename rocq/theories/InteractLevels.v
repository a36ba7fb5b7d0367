(** The sublevel sets of a game and a goal are unique, and so is the index of a state. *)
From Coq Require Import List ZArith Bool Arith Lia.
From Verif Require Import Base Game Levels.
Import ListNotations.
Open Scope nat_scope.

Section Unique.
  Context {S E : Type}.
  Variable G : game S E.
  Variables (goal : S -> bool) (eg : nat -> S -> bool) (ne : nat).

  Lemma lad_mono : forall W K Y X, is_ladder G goal W eg ne K Y X ->
    forall s, In s (g_states G) -> forall a b, a <= b <= K -> Y a s = true -> Y b s = true.
  Proof.
    intros W K Y X HL s Hs a b Hab Ha. induction b as [|b IH].
    - replace a with 0 in Ha by lia. auto.
    - destruct (Nat.eq_dec a (Datatypes.S b)) as [->|]; auto.
      apply (lad_incr _ _ _ _ _ _ _ _ HL b s); auto; [lia|]. apply IH. lia.
  Qed.

  Lemma step_mono : forall W W' (Y Y' : S -> bool) e P s, In s (g_states G) ->
    (forall u, In u (g_states G) -> W u = true -> W' u = true) ->
    (forall u, In u (g_states G) -> Y u = true -> Y' u = true) ->
    level_step G goal W Y e P s -> level_step G goal W' Y' e P s.
  Proof.
    intros W W' Y Y' e P s Hs HW HY [[H1 H2]|[H|H]]; [left; auto| |right; right; auto].
    right; left. intros x Hx. destruct (H x Hx) as (s' & Hl & Hy). exists s'. split; auto.
    apply HY; auto. apply Hl.
  Qed.

  Lemma lad_below : forall W W' K K' Y Y' X X',
    is_ladder G goal W eg ne K Y X -> is_ladder G goal W' eg ne K' Y' X' ->
    (forall u, In u (g_states G) -> W u = true -> W' u = true) ->
    forall j, j <= K -> j <= K' -> forall s, In s (g_states G) -> Y j s = true -> Y' j s = true.
  Proof.
    intros W W' K K' Y Y' X X' HL HL' HW. induction j as [|j IH]; intros H1 H2 s Hs Hy.
    - rewrite (lad_bottom _ _ _ _ _ _ _ _ HL) in Hy by auto. discriminate.
    - apply (lad_union _ _ _ _ _ _ _ _ HL) in Hy; [|lia|auto]. destruct Hy as (r & Hr & Hx).
      apply (lad_union _ _ _ _ _ _ _ _ HL'); [lia|auto|]. exists r. split; auto.
      apply (lad_largest _ _ _ _ _ _ _ _ HL' j r (X (Datatypes.S j) r)); auto; try lia.
      intros u Hu HX. apply (lad_step _ _ _ _ _ _ _ _ HL) in HX; auto; try lia.
      eapply step_mono; [auto| | |exact HX]; auto. intros v Hv. apply IH; auto; lia.
  Qed.

  Lemma lad_height : forall W K K' Y Y' X X',
    is_ladder G goal W eg ne K Y X -> is_ladder G goal W eg ne K' Y' X' -> K <= K' -> K = K'.
  Proof.
    intros W K K' Y Y' X X' HL HL' Hle. destruct (Nat.eq_dec K K') as [|Hne]; auto. exfalso.
    destruct (lad_strict _ _ _ _ _ _ _ _ HL' K) as (s & Hs & H1 & H2); [lia|].
    assert (H3 : Y' K' s = true) by (apply (lad_mono _ _ _ _ HL' s Hs (Datatypes.S K)); auto; lia).
    rewrite (lad_top _ _ _ _ _ _ _ _ HL') in H3 by auto.
    rewrite <- (lad_top _ _ _ _ _ _ _ _ HL) in H3 by auto.
    rewrite (lad_below _ _ _ _ _ _ _ _ HL HL' (fun u _ H => H) K) in H1; auto. discriminate.
  Qed.

  Lemma lad_unique : forall W W' K K' Y Y' X X',
    is_ladder G goal W eg ne K Y X -> is_ladder G goal W' eg ne K' Y' X' ->
    (forall u, In u (g_states G) -> W' u = W u) ->
    K' = K /\ forall j s, j <= K -> In s (g_states G) -> Y' j s = Y j s.
  Proof.
    intros W W' K K' Y Y' X X' HL HL' HW.
    assert (HL2 : is_ladder G goal W eg ne K' Y' X').
    { destruct HL' as [B T I St U P L]. constructor; auto.
      - intros s Hs. rewrite <- HW by auto. auto.
      - intros j r s Hj Hr Hs. rewrite P by auto.
        split; intros H; (eapply step_mono; [exact Hs| | |exact H]; auto);
          intros u Hu; rewrite HW; auto.
      - intros j r Q Hj Hr HQ. apply L; auto. intros s Hs Hq.
        eapply step_mono; [exact Hs| | |apply HQ; auto]; auto. intros u Hu. rewrite HW; auto. }
    assert (K' = K).
    { destruct (Nat.le_ge_cases K K') as [H|H]; [symmetry|];
        [apply (lad_height W K K' Y Y' X X')|apply (lad_height W K' K Y' Y X' X)]; auto. }
    subst K'. split; auto. intros j s Hj Hs.
    destruct (Y j s) eqn:E1.
    - apply (lad_below _ _ _ _ _ _ _ _ HL HL2 (fun u _ H => H) j); auto.
    - destruct (Y' j s) eqn:E2; auto.
      rewrite (lad_below _ _ _ _ _ _ _ _ HL2 HL (fun u _ H => H) j) in E1; auto.
  Qed.
End Unique.
