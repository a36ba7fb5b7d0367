(** Reachability games that agree on a part closed under moves have the same winner
    there. *)
From Coq Require Import List Bool Arith Lia.
From Verif Require Import Game ReachSpec GameIso.
Import ListNotations.

(** a sequence that meets every goal that can be met again and again *)
Lemma round_robin : forall S (St : list S) (l : list (S -> bool)) s0, In s0 St ->
  (forall g, In g l -> exists s, In s St /\ g s = true) ->
  exists W : nat -> S, (forall k, In (W k) St) /\ forall g, In g l -> infinitely_often g W.
Proof.
  intros S St l s0 H0 H.
  assert (X : exists ws, Forall2 (fun g s => In s St /\ g s = true) l ws).
  { clear - H. induction l as [|g l IH]; [exists []; constructor|].
    destruct (H g) as (s & Hs); [left; auto|]. destruct IH as (ws & Hw); [intros; apply H; right; auto|].
    exists (s :: ws). constructor; auto. }
  destruct X as (ws & Hw). set (n := length ws).
  exists (fun k => nth (k mod n) ws s0). split.
  - intros k. destruct (nth_in_or_default (k mod n) ws s0) as [X|X]; [|rewrite X; auto].
    revert X. generalize (nth (k mod n) ws s0) as s1. clear - Hw. induction Hw as [|a b l ws Hab _ IH]; intros s1 X; [destruct X|].
    destruct X as [<-|X]; [apply Hab|apply IH; exact X].
  - intros g Hg t. apply In_nth_error in Hg. destruct Hg as (i & Hi).
    assert (Y : exists s, nth_error ws i = Some s /\ g s = true).
    { clear - Hw Hi. revert i Hi. induction Hw as [|a b l ws H _ IH]; intros [|i] Hi; try discriminate Hi.
      - injection Hi as ->. exists b. split; [reflexivity|apply H].
      - apply IH. exact Hi. }
    destruct Y as (s & Hs & Hg). assert (Hn : i < n) by (apply nth_error_Some; congruence).
    exists (i + t * n). split; [nia|]. rewrite Nat.mod_add by lia. rewrite Nat.mod_small by lia.
    rewrite (nth_error_nth _ _ _ Hs). exact Hg.
Qed.

Section RIso.
  Context {S1 E1 S2 E2 : Type}.
  Variable G1 : game S1 E1.
  Variable G2 : game S2 E2.
  Variables (h : S1 -> S2) (h' : S2 -> S1) (k : E1 -> E2) (k' : E2 -> E1).
  Hypothesis Hh : forall s, In s (g_states G1) -> h' (h s) = s.
  Hypothesis Hk : forall e, In e (g_envs G1) -> k' (k e) = e.
  Hypothesis Hin2 : forall s, In s (g_states G1) -> In (h s) (g_states G2).
  Hypothesis Henv : forall s, In s (g_states G1) -> forall e2,
    legal_env G2 (h s) e2 <-> exists e, e2 = k e /\ legal_env G1 s e.
  Hypothesis Hsys : forall s, In s (g_states G1) -> forall e, legal_env G1 s e -> forall s2,
    legal_sys G2 (h s) (k e) s2 <-> exists s', s2 = h s' /\ legal_sys G1 s e s'.
  Hypothesis Hgo : Forall2 (fun g1 g2 => forall s, In s (g_states G1) -> g2 (h s) = g1 s) (g_egoals G1) (g_egoals G2).
  Variables (tg1 : S1 -> bool) (tg2 : S2 -> bool).
  Hypothesis Htg : forall s, In s (g_states G1) -> tg2 (h s) = tg1 s.

  Lemma goal1 : forall g1, In g1 (g_egoals G1) -> exists g2, In g2 (g_egoals G2) /\
    forall s, In s (g_states G1) -> g2 (h s) = g1 s.
  Proof using Hgo.
    pose proof Hgo as HH. clear - HH. induction HH as [|a b l m H _ IH]; intros g [].
    - subst. exists b. split; [left; auto|auto].
    - destruct (IH g) as (g2 & X & Y); auto. exists g2. split; [right; auto|auto].
  Qed.
  Lemma goal2 : forall g2, In g2 (g_egoals G2) -> exists g1, In g1 (g_egoals G1) /\
    forall s, In s (g_states G1) -> g2 (h s) = g1 s.
  Proof using Hgo.
    pose proof Hgo as HH. clear - HH. induction HH as [|a b l m H _ IH]; intros g [].
    - subst. exists a. split; [left; auto|auto].
    - destruct (IH g) as (g2 & X & Y); auto. exists g2. split; [right; auto|auto].
  Qed.
  Let map_hh := map_hh G1 h h' Hh.

  Section Forth.
    Variable sg1 : @strategy S1 E1.
    Variable s0 : S1.
    Hypothesis Hs0 : In s0 (g_states G1).
    Hypothesis Hw : reach_winning G1 tg1 sg1 s0.
    Definition rsg2 : @strategy S2 E2 := fun l e => h (sg1 (map h' l) (k' e)).
    Lemma rsg2_eq : forall l e, (forall s, In s l -> In s (g_states G1)) -> In e (g_envs G1) ->
      rsg2 (map h l) (k e) = h (sg1 l e).
    Proof using Hh Hk. intros l e Hl He. unfold rsg2. rewrite map_hh by auto. rewrite Hk by auto. reflexivity. Qed.
    Lemma rhist_forth : forall l, rhist G2 tg2 rsg2 (h s0) l ->
      exists l1, l = map h l1 /\ rhist G1 tg1 sg1 s0 l1 /\ forall s, In s l1 -> In s (g_states G1).
    Proof.
      induction 1 as [|s h0 e Hh0 IH Ht He].
      - exists [s0]. split; auto. split; [constructor|]. intros s [<-|[]]. auto.
      - destruct IH as (l1 & El & Hl & Hin). destruct l1 as [|s1 l1]; [discriminate|].
        simpl in El. injection El as -> ->.
        assert (Hs1 : In s1 (g_states G1)) by (apply Hin; left; auto).
        rewrite Htg in Ht by auto.
        apply (Henv s1 Hs1) in He. destruct He as (e1 & -> & He1).
        pose proof (proj1 Hw s1 l1 e1 Hl Ht He1) as Hleg.
        exists (sg1 (s1 :: l1) e1 :: s1 :: l1). split.
        { cbn [map]. change (h s1 :: map h l1) with (map h (s1 :: l1)). rewrite rsg2_eq; auto. apply He1. }
        split; [constructor; auto|]. intros s [<-|Hs]; auto. apply Hleg.
    Qed.

    Section Play.
      Variable p : nat -> S2.
      Hypothesis Hp : rplay G2 tg2 rsg2 (h s0) p.
      (** the first time the target is met, up to [t] *)
      Fixpoint hit (t : nat) : option nat :=
        match t with
        | O => if tg2 (p O) then Some O else None
        | S t' => match hit t' with Some u => Some u | None => if tg2 (p t) then Some t else None end
        end.
      Lemma hit_none : forall t, hit t = None <-> forall u, u <= t -> tg2 (p u) = false.
      Proof.
        induction t as [|t IH]; cbn [hit].
        - destruct (tg2 (p 0)) eqn:E; split; intros H; try discriminate.
          + rewrite H in E by lia. discriminate.
          + intros u Hu. replace u with 0 by lia. auto.
          + reflexivity.
        - destruct (hit t) as [v|] eqn:E.
          + split; [discriminate|]. intros H. apply IH. intros u Hu. apply H. lia.
          + destruct (tg2 (p (S t))) eqn:Ex; split; intros H; try discriminate; auto.
            * rewrite H in Ex by lia. discriminate.
            * intros u Hu. destruct (Nat.eq_dec u (S t)) as [->|]; auto. apply IH; [auto|lia].
      Qed.
      Lemma hit_some : forall t u, hit t = Some u -> u <= t /\ tg2 (p u) = true /\ forall v, v < u -> tg2 (p v) = false.
      Proof.
        induction t as [|t IH]; cbn [hit]; intros u H.
        - destruct (tg2 (p 0)) eqn:E; [|discriminate H]. injection H as <-. split; auto. split; auto. intros; lia.
        - destruct (hit t) as [v|] eqn:E.
          + injection H as <-. destruct (IH v eq_refl) as (X & Y & Z). split; auto.
          + destruct (tg2 (p (S t))) eqn:Ex; [|discriminate H]. injection H as <-. split; auto. split; auto.
            intros v Hv. apply (proj1 (hit_none t)); auto. lia.
      Qed.
      Definition live (t : nat) : Prop := forall u, u < t -> tg2 (p u) = false.
      Lemma live_hist : forall t, live t -> rhist G2 tg2 rsg2 (h s0) (prefix p t).
      Proof.
        destruct Hp as (Hp0 & _ & Hps).
        induction t as [|t IH]; intros Hl; cbn [prefix]; [rewrite Hp0; constructor|].
        assert (Hl' : live t) by (intros u Hu; apply Hl; lia). specialize (IH Hl').
        destruct (Hps t) as (e & He & E); [intros u Hu; apply Hl; lia|]. rewrite E.
        destruct (prefix_head _ p t) as [r Er]. rewrite Er in *. constructor; auto; apply Hl; lia.
      Qed.
      Lemma live_in : forall t, live t -> In (h' (p t)) (g_states G1) /\ h (h' (p t)) = p t.
      Proof.
        intros t Hl. destruct (rhist_forth _ (live_hist t Hl)) as (l1 & El & _ & Hin).
        destruct (prefix_head _ p t) as [r Er]. rewrite Er in El.
        destruct l1 as [|s1 l1]; [discriminate|]. simpl in El. injection El as -> _.
        assert (Hs1 : In s1 (g_states G1)) by (apply Hin; left; auto). rewrite Hh by auto. auto.
      Qed.
      Variable W : nat -> S1.
      Hypothesis HW : forall j, In (W j) (g_states G1).
      Definition q (t : nat) : S1 :=
        match hit t with
        | None => h' (p t)
        | Some u => if t =? u then h' (p t) else W (t - S u)
        end.
      Lemma q_live : forall t, live t -> q t = h' (p t).
      Proof.
        intros t Hl. unfold q. destruct (hit t) as [u|] eqn:E; auto. destruct (hit_some t u E) as (X & Y & _).
        destruct (Nat.eqb_spec t u); auto. rewrite Hl in Y by lia. discriminate.
      Qed.
      Lemma q_in : forall t, In (q t) (g_states G1).
      Proof.
        intros t. destruct (hit t) as [u|] eqn:E.
        - destruct (hit_some t u E) as (X & Y & Z). unfold q. rewrite E. destruct (Nat.eqb_spec t u) as [->|]; auto.
          apply live_in. exact Z.
        - rewrite q_live; [apply live_in|]; intros u Hu; apply (proj1 (hit_none t) E); lia.
      Qed.
      Lemma q_none : forall t, (forall u, u <= t -> tg1 (q u) = false) -> hit t = None.
      Proof.
        intros t H. destruct (hit t) as [u|] eqn:E; auto. exfalso. destruct (hit_some t u E) as (X & Y & Z).
        specialize (H u X). rewrite (q_live u Z) in H. destruct (live_in u Z) as [I1 I2].
        rewrite <- Htg, I2 in H by auto. congruence.
      Qed.
      Lemma q_prefix : forall t, live t -> prefix q t = map h' (prefix p t).
      Proof.
        induction t as [|t IH]; intros Hl; cbn [prefix map].
        - rewrite q_live; auto.
        - rewrite q_live by auto. f_equal. apply IH. intros u Hu. apply Hl. lia.
      Qed.
      Lemma q_play : rplay G1 tg1 sg1 s0 q.
      Proof.
        split; [|split].
        - rewrite q_live by (intros u Hu; lia). rewrite (proj1 Hp). auto.
        - exact q_in.
        - intros t Ht. apply q_none in Ht. pose proof (proj1 (hit_none t) Ht) as Hn.
          destruct Hp as (_ & _ & Hps). destruct (Hps t Hn) as (e & He & E).
          assert (Lt : live t) by (intros u Hu; apply Hn; lia).
          assert (LSt : live (S t)) by (intros u Hu; apply Hn; lia).
          destruct (live_in t Lt) as [I1 I2]. rewrite <- I2 in He. apply (Henv _ I1) in He.
          destruct He as (e1 & -> & He1). exists e1. rewrite (q_live t Lt). split; auto.
          rewrite (q_live _ LSt), E, (q_prefix t Lt).
          destruct (rhist_forth _ (live_hist t Lt)) as (l1 & El & Hl1 & Hin1). rewrite El, map_hh by auto.
          rewrite rsg2_eq by (auto; apply He1).
          destruct (prefix_head _ p t) as [r Er]. rewrite Er in El. destruct l1 as [|s1 l1]; [discriminate|].
          simpl in El. injection El as Ep _. assert (Hs1 : In s1 (g_states G1)) by (apply Hin1; left; auto).
          rewrite Ep, Hh in He1 by auto.
          apply Hh. apply (proj1 Hw s1 l1 e1 Hl1); auto. rewrite <- Htg, <- Ep by auto. apply Hn. lia.
      Qed.
      Hypothesis HWg : forall g, In g (g_egoals G1) -> infinitely_often g W.
      Hypothesis Hg : forall g, In g (g_egoals G2) -> infinitely_often g p.
      Lemma q_goals : forall g, In g (g_egoals G1) -> infinitely_often g q.
      Proof.
        intros g1 H1 t. destruct (goal1 g1 H1) as (g2 & H2 & E). destruct (Hg g2 H2 t) as (t' & Ht' & Hv).
        destruct (hit t') as [u|] eqn:Eh.
        - destruct (HWg g1 H1 t) as (j & Hj & Hv1). exists (j + S u). split; [lia|].
          assert (Eq : hit (j + S u) = Some u).
          { destruct (hit_some t' u Eh) as (_ & Y & Z). destruct (hit (j + S u)) as [v|] eqn:Ev.
            - destruct (hit_some _ v Ev) as (_ & Y' & Z'). f_equal.
              destruct (Nat.lt_trichotomy u v) as [L|[L|L]]; auto.
              + rewrite Z' in Y by auto. discriminate.
              + rewrite Z in Y' by auto. discriminate.
            - rewrite (proj1 (hit_none _) Ev u) in Y by lia. discriminate. }
          unfold q. rewrite Eq. destruct (Nat.eqb_spec (j + S u) u); [lia|].
          replace (j + S u - S u) with j by lia. exact Hv1.
        - exists t'. split; auto. assert (L : live t') by (intros u Hu; apply (proj1 (hit_none t') Eh); lia).
          rewrite q_live by auto. destruct (live_in t' L) as [I1 I2]. rewrite <- E by auto. rewrite I2. exact Hv.
      Qed.
      Lemma hits : exists t, tg2 (p t) = true.
      Proof.
        destruct (proj2 Hw q q_play q_goals) as (t & Ht).
        destruct (hit t) as [u|] eqn:E; [exists u; apply (hit_some t u E)|].
        assert (L : live t) by (intros u Hu; apply (proj1 (hit_none t) E); lia).
        exists t. rewrite q_live in Ht by auto. destruct (live_in t L) as [I1 I2]. rewrite <- I2, Htg; auto.
      Qed.
    End Play.
    Lemma rforth : reach_winning G2 tg2 rsg2 (h s0).
    Proof.
      split.
      - intros s hs e Hhist Ht He. destruct (rhist_forth _ Hhist) as (l1 & El & Hl & Hin).
        destruct l1 as [|s1 l1]; [discriminate|]. simpl in El. injection El as -> ->.
        assert (Hs1 : In s1 (g_states G1)) by (apply Hin; left; auto). rewrite Htg in Ht by auto.
        apply (Henv s1 Hs1) in He. destruct He as (e1 & -> & He1).
        change (h s1 :: map h l1) with (map h (s1 :: l1)). rewrite rsg2_eq by (auto; apply He1).
        apply (Hsys s1 Hs1 e1 He1). exists (sg1 (s1 :: l1) e1). split; [reflexivity|]. apply Hw; auto.
      - intros p Hp Hg.
        destruct (Forall_dec (fun g : S1 -> bool => existsb g (g_states G1) = true)
          (fun g => bool_dec (existsb g (g_states G1)) true) (g_egoals G1)) as [F|F].
        + rewrite Forall_forall in F.
          destruct (round_robin S1 (g_states G1) (g_egoals G1) s0 Hs0) as (W & HW1 & HW2).
          { intros g Hgi. specialize (F g Hgi). apply existsb_exists in F. exact F. }
          exact (hits p Hp W HW1 HW2 Hg).
        + apply Exists_Forall_neg in F; [|intros g; destruct (bool_dec (existsb g (g_states G1)) true); auto].
          apply Exists_exists in F. destruct F as (g1 & H1 & N). destruct (goal1 g1 H1) as (g2 & H2 & E).
          destruct (Hg g2 H2 0) as (t & _ & Hv). destruct (hit p t) as [u|] eqn:Eh; [exists u; apply (hit_some p t u Eh)|].
          exfalso. assert (L : live p t) by (intros u Hu; apply (proj1 (hit_none p t) Eh); lia).
          destruct (live_in p Hp t L) as [I1 I2]. apply N. apply existsb_exists. exists (h' (p t)). split; auto.
          rewrite <- E by auto. rewrite I2. exact Hv.
    Qed.
  End Forth.

  Section Back.
    Variable sg2 : @strategy S2 E2.
    Variable s0 : S1.
    Hypothesis Hs0 : In s0 (g_states G1).
    Hypothesis Hw : reach_winning G2 tg2 sg2 (h s0).
    Definition rsg1 : @strategy S1 E1 := fun l e => h' (sg2 (map h l) (k e)).
    Lemma rstep : forall s l e, rhist G2 tg2 sg2 (h s0) (h s :: map h l) -> In s (g_states G1) -> tg1 s = false -> legal_env G1 s e ->
      legal_sys G1 s e (rsg1 (s :: l) e) /\ h (rsg1 (s :: l) e) = sg2 (h s :: map h l) (k e).
    Proof.
      intros s l e Hl Hs Ht He.
      assert (He2 : legal_env G2 (h s) (k e)) by (apply (Henv s Hs); eauto).
      assert (Hleg : legal_sys G2 (h s) (k e) (sg2 (h s :: map h l) (k e))).
      { apply Hw; auto. rewrite Htg; auto. }
      apply (Hsys s Hs e He) in Hleg. destruct Hleg as (s' & Es & Hleg).
      assert (Ex1 : rsg1 (s :: l) e = s').
      { unfold rsg1. cbn [map]. rewrite Es. apply Hh. apply Hleg. }
      rewrite Ex1. auto.
    Qed.
    Lemma rhist_back : forall l, rhist G1 tg1 rsg1 s0 l ->
      rhist G2 tg2 sg2 (h s0) (map h l) /\ forall s, In s l -> In s (g_states G1).
    Proof.
      induction 1 as [|s l e Hl IH Ht He].
      - split; [constructor|]. intros s [<-|[]]. auto.
      - destruct IH as [IH Hin]. cbn [map] in IH. assert (Hs : In s (g_states G1)) by (apply Hin; left; auto).
        destruct (rstep s l e IH Hs Ht He) as [K1 K2]. split.
        + cbn [map]. rewrite K2. constructor; auto; [rewrite Htg; auto|apply (Henv s Hs); eauto].
        + intros u [<-|Hu]; auto. apply K1.
    Qed.
    Lemma rback : reach_winning G1 tg1 rsg1 s0.
    Proof.
      split.
      - intros s l e Hl Ht He. destruct (rhist_back _ Hl) as [Hl2 Hin]. apply rstep; auto. apply Hin. left; auto.
      - intros p (Hp0 & Hin & Hps) Hg.
        assert (HX : (forall g, In g (g_egoals G2) -> infinitely_often g (fun t => h (p t)))).
        { intros g2 H2 t. destruct (goal2 g2 H2) as (g1 & H1 & E). destruct (Hg g1 H1 t) as (t' & Ht & Hv).
          exists t'. split; auto. rewrite E; auto. }
        destruct (proj2 Hw (fun t => h (p t))) as (t & Ht); auto.
        + split; [rewrite Hp0; auto|]. split; [auto|]. intros t Hn.
          assert (Hn1 : forall u, u <= t -> tg1 (p u) = false) by (intros u Hu; rewrite <- Htg by auto; auto).
          destruct (Hps t Hn1) as (e & He & E). exists (k e). split; [apply (Henv _ (Hin t)); eauto|].
          assert (HH : forall v, v <= t -> rhist G1 tg1 rsg1 s0 (prefix p v)).
          { induction v as [|v IHv]; intros Hv; cbn [prefix]; [rewrite Hp0; constructor|].
            destruct (Hps v) as (e' & He' & E'); [intros; apply Hn1; lia|]. rewrite E'.
            specialize (IHv ltac:(lia)). destruct (prefix_head _ p v) as [r Er]. rewrite Er in *.
            constructor; auto. apply Hn1. lia. }
          specialize (HH t (le_n t)). rewrite (prefix_map h p t).
          destruct (rhist_back _ HH) as [H2 _]. destruct (prefix_head _ p t) as [r Er]. rewrite Er in *. cbn [map] in *.
          rewrite E. apply rstep; auto.
        + exists t. rewrite <- Htg; auto.
    Qed.
  End Back.
  Lemma iso_reach : forall s, In s (g_states G1) -> (reach_wins G1 tg1 s <-> reach_wins G2 tg2 (h s)).
  Proof.
    intros s Hs. split; intros [sg Hsg].
    - eexists. apply (rforth sg s Hs Hsg).
    - eexists. apply (rback sg s Hs Hsg).
  Qed.
End RIso.
