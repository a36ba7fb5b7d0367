(** Deleting nodes that are not needed and changing labels keeps a strategy correct. *)
From Coq Require Import List ZArith Lia ZifyBool Bool Arith.
From Verif Require Import Base Game Bdd Support SupportProofs Ops Strs Ptree Form Solve FSpec Automaton AutProofs Synth SynthSpec
  Reach ReachSpec ReachProofs Nonbool AutIO Lasso Hotswap HotSpec HotProofs HotForm HotSem Metric AddGoal AddSpec AddMerge AddView AddSem.
Import ListNotations.
Open Scope nat_scope.

(** ** forward_prune, whatever it is given *)
Record shrunk (H B : aut) : Prop := {
  sh_ids : NoDup (ids B);
  sh_closed : closed B;
  sh_in : forall x, In x B -> In x H;
  sh_init : forall x, In x H -> ainit x = true -> In x B
}.
Lemma fprune_shrunk : forall fuel H U B, fprune_loop fuel H U = Ok B -> NoDup (ids H) -> closed H -> shrunk H B.
Proof.
  induction fuel as [|fuel IH]; intros H U B E Hnd Hcl; cbn [fprune_loop] in E; [discriminate|].
  destruct (prune_scan H U) as [[x|]| |] eqn:Es; cbn [bind] in E; try discriminate.
  2:{ injection E as <-. constructor; auto. }
  apply prune_scan_some in Es. destruct Es as (Hx & _ & Hi & Hp).
  rewrite delete_ok in E by (auto; apply in_ids; auto).
  set (k1 := fun a => negb (a =? aid x)) in *.
  change (filter (fun x0 => negb (aid x0 =? aid x)) H) with (sub k1 H) in E.
  assert (Hin : forall y, In y (sub k1 H) <-> In y H /\ aid y <> aid x).
  { intros y. unfold sub, k1. rewrite filter_In, negb_true_iff, Nat.eqb_neq. tauto. }
  assert (Hc1 : closed (sub k1 H)).
  { intros y t Hy Ht. apply Hin in Hy. destruct Hy as (Hy & _). rewrite sub_ids. apply filter_In. split; [apply (Hcl y); auto|].
    unfold k1. apply negb_true_iff, Nat.eqb_neq. intros ->.
    assert (has_pred H (aid x) = true); [|congruence]. apply has_pred_spec. exists (aid y), y. auto. }
  assert (Hn1 : NoDup (ids (sub k1 H))) by (rewrite sub_ids; apply NoDup_filter; auto).
  assert (Hini : forall y, In y H -> ainit y = true -> In y (sub k1 H)).
  { intros y Hy Ey. apply Hin. split; auto. intros K. assert (y = x) by (apply (node_unique H); auto). congruence. }
  assert (Hs : shrunk (sub k1 H) B).
  { destruct (sub k1 H) as [|y l] eqn:Ek.
    - injection E as <-. constructor; auto.
    - apply (IH _ _ _ E); auto. }
  constructor; try apply Hs.
  - intros y Hy. apply (sh_in _ _ Hs) in Hy. apply Hin in Hy. tauto.
  - intros y Hy Ey. apply (sh_init _ _ Hs); auto.
Qed.
Lemma prune_shrunk : forall fuel H U B, forward_prune fuel H U = Ok B -> NoDup (ids H) -> closed H -> shrunk H B.
Proof.
  intros fuel H U B E Hnd Hcl. unfold forward_prune in E. destruct H as [|h H']; [injection E as <-; constructor; auto|].
  destruct U as [|u U]; [injection E as <-; constructor; auto|]. eapply fprune_shrunk; eauto.
Qed.

(** ** Labels *)
Definition unmoded (f : anode -> anode) : Prop := forall x, aid (f x) = aid x /\ ainit (f x) = ainit x /\ astate (f x) = astate x /\ atrans (f x) = atrans x.
Lemma map_correct : forall F f A, unmoded f -> correct F A -> correct F (map f A).
Proof.
  intros F f A Hf Hco.
  assert (Hin : forall y, In y (map f A) -> exists x, In x A /\ y = f x) by (intros y Hy; apply in_map_iff in Hy; destruct Hy as (x & <- & Hx); eauto).
  constructor.
  - unfold ids. rewrite map_map, (map_ext _ aid) by apply Hf. apply Hco.
  - intros y t Hy Ht. destruct (Hin y Hy) as (x & Hx & ->). destruct (Hf x) as (_ & _ & _ & Et). rewrite Et in Ht.
    destruct (co_closed _ _ Hco x t Hx Ht) as (z & Hz & <-). exists (f z). split; [apply in_map; auto|apply Hf].
  - intros y Hy. destruct (Hin y Hy) as (x & Hx & ->). destruct (Hf x) as (_ & _ & -> & _). apply (co_states _ _ Hco). auto.
  - intros y z Hy Hz Ht. destruct (Hin y Hy) as (x & Hx & ->). destruct (Hin z Hz) as (u & Hu & ->).
    destruct (Hf x) as (_ & _ & -> & Et). destruct (Hf u) as (Eu & _ & -> & _). rewrite Et, Eu in Ht. apply (co_safe _ _ Hco); auto.
  - intros y e Hy He. destruct (Hin y Hy) as (x & Hx & ->). destruct (Hf x) as (_ & _ & Es & ->). rewrite Es in He.
    destruct (co_answer _ _ Hco x e Hx He) as (z & Hz & Ht & E). exists (f z). destruct (Hf z) as (-> & _ & -> & _).
    split; [apply in_map; auto|auto].
  - intros p Hp Hne Heg g Hg.
    destruct (Hin _ (proj1 (Hp 0))) as (x0 & Hx0 & _).
    set (q := fun t => match find (fun x => aid x =? aid (p t)) A with Some x => x | None => x0 end).
    assert (Hq : forall t, In (q t) A /\ p t = f (q t)).
    { intros t. destruct (Hin _ (proj1 (Hp t))) as (x & Hx & E). unfold q. rewrite E. destruct (Hf x) as (-> & _).
      destruct (find _ A) as [y|] eqn:Ef.
      - apply find_some in Ef. destruct Ef as (Hy & Ey). apply Nat.eqb_eq in Ey.
        assert (y = x) by (apply (node_unique A); auto; apply Hco). subst y. auto.
      - exfalso. pose proof (find_none _ _ Ef x Hx) as K. cbn in K. rewrite Nat.eqb_refl in K. discriminate. }
    assert (Hs : forall t, astate (p t) = astate (q t)) by (intros t; destruct (Hq t) as (_ & ->); apply Hf).
    assert (Hio : forall h, infinitely_often h (fun t => astate (p t)) <-> infinitely_often h (fun t => astate (q t))).
    { intros h. split; intros K t; destruct (K t) as (u & Hu & E); exists u; (split; [auto|]); rewrite Hs in *; auto. }
    apply Hio. apply (co_live _ _ Hco q); auto.
    + intros t. split; [apply Hq|]. destruct (Hp t) as (_ & Ht). destruct (Hq t) as (_ & E). destruct (Hq (S t)) as (_ & E').
      rewrite E, E' in Ht. destruct (Hf (q t)) as (_ & _ & _ & Et). destruct (Hf (q (S t))) as (Ei & _). rewrite Et, Ei in Ht. auto.
    + intros He t. rewrite <- Hs. auto.
    + intros h Hh. apply Hio. auto.
Qed.

Section End.
  Variable F : fspec.
  Variables (g : form) (i : nat) (H : aut).
  Let k := length (fs_sgoals F).
  Hypothesis Hstates : forall z, In z H -> In (astate z) (fs_states F).
  Hypothesis Hsafe : forall z w, In z H -> In w H -> In (aid w) (atrans z) ->
    g_str (game_of F) (astate z) (astate w) = true /\
    (fs_evars F <> [] -> g_etr (game_of F) (astate z) (g_env (game_of F) (astate w)) = true).
  Hypothesis Hanswer : forall z e, In z H -> legal_env (game_of F) (astate z) e ->
    exists w, In w H /\ In (aid w) (atrans z) /\ g_env (game_of F) (astate w) = e.
  Hypothesis Hlive : forall p : nat -> anode, (forall t, In (p t) H /\ In (aid (p (S t))) (atrans (p t))) ->
    (fs_evars F = [] -> forall t, g_etr (game_of F) (astate (p t)) [] = true) ->
    (forall f, In f (fs_egoals F) -> infinitely_often (holds F f) (fun t => astate (p t))) ->
    forall f, f = g \/ In f (fs_sgoals F) -> (forall t, holds F f (astate (p t)) = false) -> False.
  Hypothesis HndH : NoDup (ids H).
  Variable B : aut.
  Hypothesis HB : shrunk H B.
  Lemma with_goals : forall f, In f (fs_sgoals (with_goal i g F)) -> f = g \/ In f (fs_sgoals F).
  Proof.
    intros f Hf. cbn in Hf. apply in_app_or in Hf. rewrite <- (firstn_skipn i (fs_sgoals F)). destruct Hf as [Hf|[<-|Hf]]; auto;
      right; apply in_or_app; auto.
  Qed.
  Theorem end_correct : correct (with_goal i g F) B.
  Proof.
    constructor.
    - apply HB.
    - intros x t Hx Ht. apply ids_in. apply (sh_closed _ _ HB x); auto.
    - intros x Hx. apply (Hstates x). apply (sh_in _ _ HB). auto.
    - intros x y Hx Hy. apply (Hsafe x y); apply (sh_in _ _ HB); auto.
    - intros x e Hx He. destruct (Hanswer x e (sh_in _ _ HB x Hx) He) as (w & Hw & Ht & E). exists w. split; auto.
      pose proof (sh_closed _ _ HB x (aid w) Hx Ht) as K. apply ids_in in K. destruct K as (w' & Hw' & E').
      assert (w' = w) by (apply (node_unique H); auto; apply (sh_in _ _ HB); auto). subst w'. auto.
    - intros p Hp Hne Heg f Hf t0. apply with_goals in Hf.
      destruct (lasso B (fun y z => In (aid z) (atrans y))
        (map (holds F) (fs_egoals F))
        (fun y => holds F f (astate y) = false /\ (fs_evars F = [] -> g_etr (game_of F) (astate y) [] = true)))
        with (q := fun u => p (t0 + u)) (hit := fun u => holds F f (astate (p (t0 + u)))) as (u & Hu).
      + intros q Hq Hqe. apply (Hlive q) with (f := f); auto.
        * intros t. destruct (Hq t) as (H1 & H2 & _). split; auto. apply (sh_in _ _ HB). auto.
        * intros He t. apply (Hq t). auto.
        * intros h Hh. apply Hqe. apply in_map. auto.
        * intros t. apply (Hq t).
      + intros u Hu. replace (t0 + S u) with (S (t0 + u)) by lia. destruct (Hp (t0 + u)) as (H1 & H2).
        split; auto. split; auto. split; [apply (Hu u); auto|]. intros He. apply (Hne He).
      + intros h Hh. apply in_map_iff in Hh. destruct Hh as (h' & <- & Hh).
        intros v. destruct (Heg h' Hh (t0 + v)) as (v' & Hv & Ev). exists (v' - t0). split; [lia|].
        replace (t0 + (v' - t0)) with v' by lia. auto.
      + exists (t0 + u). split; auto. lia.
  Qed.
End End.

(** ** The labels that are set in the end *)
Lemma unmoded_if : forall (b : anode -> bool) (m : anode -> Z), unmoded (fun x => if b x then set_mode (m x) x else x).
Proof. intros b m x. destruct (b x); cbn; auto. Qed.
Lemma unmoded_comp : forall f h, unmoded f -> unmoded h -> unmoded (fun x => h (f x)).
Proof.
  intros f h H1 H2 x. destruct (H1 x) as (E1 & E2 & E3 & E4). destruct (H2 (f x)) as (K1 & K2 & K3 & K4).
  repeat split; congruence.
Qed.
(** [update_labels] sets the mode of every node to a function of the mode *)
Definition final_mode (k i0 i1 : Z) (m : Z) : Z :=
  if (i0 =? k - 1)%Z then
    if (m =? k + 1)%Z then k else if (m =? -1)%Z then 0%Z else m
  else
    let m := if ((i1 <=? m) && (m <=? k - 1))%Z then (m + 1)%Z else m in
    if (m =? k + 1)%Z then i1 else if (m =? -1)%Z then (i1 + 1)%Z else m.
Lemma shift_ok : forall c i A, shift_modes c i A =
  map (fun x => if ((i - Z.of_nat c <? amode x) && (amode x <=? i))%Z then set_mode (amode x + 1) x else x) A.
Proof.
  induction c as [|c IH]; intros i A; cbn [shift_modes].
  - rewrite <- map_id at 1. apply map_ext. intros x. replace ((_ <? _) && _)%Z with false by lia. reflexivity.
  - rewrite IH, map_map. apply map_ext. intros x. destruct (Z.eqb_spec (amode x) i) as [E|E].
    + cbn [amode set_mode]. replace ((_ <? amode x + 1) && _)%Z with false by lia.
      replace ((_ <? amode x) && _)%Z with true by lia. reflexivity.
    + destruct ((i - 1 - Z.of_nat c <? amode x) && (amode x <=? i - 1))%Z eqn:E1.
      * replace ((_ <? amode x) && _)%Z with true by lia. reflexivity.
      * replace ((_ <? amode x) && _)%Z with false by lia. reflexivity.
Qed.
Lemma set_mode_same : forall x, set_mode (amode x) x = x.
Proof. intros [a b c d e f]. reflexivity. Qed.
Lemma labels_ok : forall k i0 A, (0 <= i0 < k)%Z ->
  update_labels k i0 A = map (fun x => set_mode (final_mode k i0 (istar1 k i0) (amode x)) x) A.
Proof.
  intros k i0 A Hi. unfold update_labels, final_mode, istar1. destruct (Z.eqb_spec i0 (k - 1)) as [E|E].
  - apply map_ext. intros x. unfold relabel_last. destruct (amode x =? k + 1)%Z; auto.
    destruct (amode x =? -1)%Z; auto. symmetry. apply set_mode_same.
  - rewrite shift_ok, map_map. apply map_ext. intros x. unfold relabel_new, istar1.
    replace (i0 =? k - 1)%Z with false by lia.
    replace (k - 1 - Z.of_nat (Z.to_nat (k - (i0 + 1))))%Z with i0 by lia.
    replace (i0 <? amode x)%Z with (i0 + 1 <=? amode x)%Z by lia.
    destruct ((i0 + 1 <=? amode x) && (amode x <=? k - 1))%Z; cbn [amode set_mode].
    + destruct (amode x + 1 =? k + 1)%Z; auto. destruct (amode x + 1 =? -1)%Z; auto.
    + destruct (amode x =? k + 1)%Z; auto. destruct (amode x =? -1)%Z; auto. symmetry. apply set_mode_same.
Qed.
