(** rm_sysgoal in closed form: what the list operations amount to. *)
From Coq Require Import List ZArith Lia Bool Arith.
From Verif Require Import Base Bdd Support SupportProofs Ops Strs Ptree Solve Automaton AutProofs Synth Reach Nonbool AutIO
  Hotswap.
Import ListNotations.
Open Scope nat_scope.

(** ** Substitution of transitions *)
Definition smap := list (nat * option nat).
Fixpoint assoc (t : nat) (m : smap) : option (option nat) :=
  match m with [] => None | (a, v) :: r => if t =? a then Some v else assoc t r end.
Definition sub_tr (m : smap) (l : list nat) : list nat :=
  flat_map (fun t => match assoc t m with None => [t] | Some None => [] | Some (Some b) => [b] end) l.
Definition ren (m : smap) (x : anode) : anode := set_trans (sub_tr m (atrans x)) x.
Lemma assoc_app : forall t m m', assoc t (m ++ m') =
  match assoc t m with None => assoc t m' | Some v => Some v end.
Proof. induction m as [|(a, v) m IH]; intros m'; cbn; auto. destruct (t =? a); auto. Qed.
Lemma assoc_None : forall t m, ~ In t (map fst m) -> assoc t m = None.
Proof.
  induction m as [|(a, v) m IH]; intros H; cbn; auto. cbn in H.
  destruct (Nat.eqb_spec t a); [subst; tauto|]. apply IH. tauto.
Qed.
Lemma assoc_Some : forall t m v, assoc t m = Some v -> In (t, v) m.
Proof.
  induction m as [|(a, w) m IH]; cbn; intros v H; [discriminate|].
  destruct (Nat.eqb_spec t a); [subst; injection H as <-; auto|auto].
Qed.
Lemma assoc_In : forall t m, In t (map fst m) -> exists v, assoc t m = Some v.
Proof.
  induction m as [|(a, w) m IH]; cbn; intros H; [tauto|].
  destruct (Nat.eqb_spec t a); [eauto|]. apply IH. destruct H; congruence.
Qed.
Lemma replace_app : forall l l' a v, replace_in (l ++ l') a v = replace_in l a v ++ replace_in l' a v.
Proof.
  induction l as [|t l IH]; intros l' a v; cbn; auto. destruct (t =? a); [destruct v|]; cbn; rewrite IH; auto.
Qed.
(** a further replacement extends the substitution *)
Lemma replace_sub : forall m l a v, (forall t b, In (t, Some b) m -> b <> a) ->
  replace_in (sub_tr m l) a v = sub_tr (m ++ [(a, v)]) l.
Proof.
  intros m l a v Hm. induction l as [|t l IH]; [reflexivity|].
  unfold sub_tr in *. cbn [flat_map]. rewrite replace_app, IH. f_equal.
  rewrite assoc_app. destruct (assoc t m) as [[b|]|] eqn:E; cbn.
  - apply assoc_Some in E. destruct (Nat.eqb_spec b a) as [->|_]; auto. exfalso. eapply Hm; eauto.
  - reflexivity.
  - destruct (t =? a); destruct v; reflexivity.
Qed.
Lemma replace_absent : forall l a v, ~ In a l -> replace_in l a v = l.
Proof.
  induction l as [|t l IH]; intros a v H; cbn; auto. cbn in H.
  destruct (Nat.eqb_spec t a); [subst; tauto|]. f_equal. apply IH. tauto.
Qed.
Lemma sub_absent : forall m l, (forall t, In t l -> ~ In t (map fst m)) -> sub_tr m l = l.
Proof.
  intros m l H. induction l as [|t l IH]; auto. unfold sub_tr in *. cbn [flat_map].
  rewrite assoc_None by (apply H; left; auto). cbn. f_equal. apply IH. intros u Hu. apply H. right; auto.
Qed.
Lemma sub_In : forall m l b, In b (sub_tr m l) <->
  exists t, In t l /\ match assoc t m with None => b = t | Some None => False | Some (Some c) => b = c end.
Proof.
  intros m l b. unfold sub_tr. rewrite in_flat_map. split; intros (t & Ht & H); exists t; split; auto.
  - destruct (assoc t m) as [[c|]|]; cbn in H; intuition.
  - destruct (assoc t m) as [[c|]|]; cbn; intuition.
Qed.
Lemma ren_aid : forall m x, aid (ren m x) = aid x. Proof. reflexivity. Qed.
Lemma ren_nil : forall A, map (ren []) A = A.
Proof.
  induction A as [|x A IH]; auto. cbn [map]. rewrite IH. f_equal. unfold ren.
  rewrite sub_absent by (intros t _ []). destruct x; reflexivity.
Qed.
Lemma memb_In : forall a l, memb a l = true <-> In a l.
Proof.
  intros a l. unfold memb. rewrite existsb_exists. split.
  - intros (x & Hx & E). apply Nat.eqb_eq in E. subst. auto.
  - intros H. exists a. split; auto. apply Nat.eqb_refl.
Qed.
Lemma memb_false : forall a l, memb a l = false <-> ~ In a l.
Proof. intros a l. rewrite <- memb_In. destruct (memb a l); split; congruence. Qed.

Lemma deref_map : forall f A a, (forall x, aid (f x) = aid x) ->
  deref (map f A) a = option_map f (deref A a).
Proof.
  intros f A a Hf. unfold deref. induction A as [|x A IH]; auto. cbn. rewrite Hf.
  destruct (aid x =? a); auto.
Qed.
Lemma deref_filter : forall keep A a, NoDup (ids A) ->
  deref (filter keep A) a = match deref A a with Some x => if keep x then Some x else None | None => None end.
Proof.
  intros keep A a. unfold deref, ids. induction A as [|x A IH]; intros H; auto. cbn [map] in H.
  inversion H as [|? ? Hni Hnd]; subst. cbn [filter find]. destruct (Nat.eqb_spec (aid x) a) as [E|E].
  - destruct (keep x) eqn:Ek; cbn [find].
    + rewrite (proj2 (Nat.eqb_eq _ _) E). reflexivity.
    + rewrite IH by auto. destruct (find (fun x0 => aid x0 =? a) A) as [y|] eqn:Ey; auto.
      exfalso. apply find_some in Ey. destruct Ey as (Hy & Ey). apply Nat.eqb_eq in Ey. apply Hni.
      rewrite E, <- Ey. apply in_map. auto.
  - destruct (keep x); cbn [find]; auto. rewrite (proj2 (Nat.eqb_neq _ _) E). auto.
Qed.
Lemma store_map : forall f g A b, (forall x, aid (f x) = aid x) ->
  store (map f A) b g = map (fun x => if aid x =? b then g (f x) else f x) A.
Proof.
  intros f g A b Hf. unfold store. rewrite map_map. apply map_ext. intros x. rewrite Hf. reflexivity.
Qed.
Lemma replace_ren : forall m A a v, (forall t b, In (t, Some b) m -> b <> a) ->
  replace_anode_trans (map (ren m) A) a v = map (ren (m ++ [(a, v)])) A.
Proof.
  intros m A a v H. unfold replace_anode_trans. rewrite map_map. apply map_ext. intros x.
  unfold ren. cbn. unfold set_trans. cbn. rewrite replace_sub by auto. reflexivity.
Qed.
Lemma nodup_filter_ids : forall keep A, NoDup (ids A) -> NoDup (ids (filter keep A)).
Proof.
  intros keep A. unfold ids. induction A as [|x A IH]; intros H; cbn; [constructor|].
  inversion H as [|? ? Hni Hnd]; subst. destruct (keep x); cbn; auto. constructor; auto.
  intros Hi. apply Hni. apply in_map_iff in Hi. destruct Hi as (y & E & Hy). apply filter_In in Hy.
  rewrite <- E. apply in_map. tauto.
Qed.
Lemma filter_map : forall X Y (f : X -> Y) p l, filter p (map f l) = map f (filter (fun x => p (f x)) l).
Proof. induction l as [|x l IH]; cbn; auto. destruct (p (f x)); cbn; rewrite IH; auto. Qed.
Lemma filter_ext_In : forall X (p q : X -> bool) l, (forall x, In x l -> p x = q x) -> filter p l = filter q l.
Proof.
  induction l as [|x l IH]; intros H; cbn; auto. rewrite (H x) by (left; auto).
  rewrite IH by (intros; apply H; right; auto). auto.
Qed.

(** ** The arrays Entry and Exit *)
Section Scan.
  Variable A : aut.
  Hypothesis Hclosed : closed A.
  Hypothesis Hnd : NoDup (ids A).
  Lemma push_ok : forall cap l a l', push cap l a = Ok l' -> NoDup l ->
    NoDup l' /\ (forall b, In b l' <-> In b l \/ b = a).
  Proof.
    intros cap l a l' H Hl. unfold push in H. destruct (memb a l) eqn:E.
    - injection H as <-. apply memb_In in E. split; auto. intros b. split; auto. intros [| ->]; auto.
    - destruct (length l <? cap); [|discriminate]. injection H as <-. apply memb_false in E. split.
      + apply NoDup_app; auto; [repeat constructor; auto|]. intros b Hb [<-|[]]. auto.
      + intros b. rewrite in_app_iff. cbn. split; [intros [|[|[]]]; auto|intros [|]; auto].
  Qed.
  Lemma push_all_ok : forall cap want trans l l', push_all cap A want trans l = Ok l' -> NoDup l ->
    NoDup l' /\ forall b, In b l' <-> In b l \/ exists y, In y A /\ aid y = b /\ In b trans /\ want (amode y) = true.
  Proof.
    induction trans as [|t r IH]; intros l l' H Hl; cbn [push_all] in H.
    - injection H as <-. split; auto. intros b. split; auto. intros [|(y & _ & _ & [] & _)]; auto.
    - destruct (deref A t) as [y|] eqn:Ey; [|discriminate].
      pose proof (deref_In _ _ _ Ey) as (Hy & Et).
      destruct (want (amode y)) eqn:Ew.
      + destruct (push cap l t) as [l1| |] eqn:Ep; cbn [bind] in H; try discriminate.
        destruct (push_ok _ _ _ _ Ep Hl) as (H1 & H2). destruct (IH _ _ H H1) as (H3 & H4). split; auto.
        intros b. rewrite H4, H2. split.
        * intros [[| ->]|(z & Hz & E & Hr & Hw)]; auto.
          -- right. exists y. repeat split; auto. left; auto.
          -- right. exists z. repeat split; auto. right; auto.
        * intros [|(z & Hz & E & [Hr|Hr] & Hw)]; auto. right. exists z. auto.
      + cbn [bind] in H. destruct (IH _ _ H Hl) as (H3 & H4). split; auto. intros b. rewrite H4. split.
        * intros [|(z & Hz & E & Hr & Hw)]; auto. right. exists z. repeat split; auto. right; auto.
        * intros [|(z & Hz & E & [Hr|Hr] & Hw)]; auto.
          -- exfalso. assert (z = y) by (apply (node_unique A); congruence). congruence.
          -- right. exists z. auto.
  Qed.
  Variables (d k : Z).
  Notation dm := (del_mode d k).
  Definition is_entry (a : nat) (nodes : aut) : Prop :=
    exists x y, In x nodes /\ In y A /\ aid y = a /\ In a (atrans x) /\ amode x <> d /\ amode y = d.
  Definition is_exit (a : nat) (nodes : aut) : Prop :=
    exists x y, In x nodes /\ In y A /\ aid y = a /\ In a (atrans x) /\ dm (amode x) = true /\ dm (amode y) = false.
  Lemma want_exit : forall m, (negb (m =? next_i d k)%Z && negb (m =? d)%Z) = negb (dm m).
  Proof. intros m. unfold del_mode. rewrite negb_orb. apply andb_comm. Qed.
  Lemma scan_ok : forall cap nodes En Ex En' Ex', scan_modes d k cap A nodes En Ex = Ok (En', Ex') ->
    NoDup En -> NoDup Ex ->
    NoDup En' /\ NoDup Ex' /\ (forall a, In a En' <-> In a En \/ is_entry a nodes) /\
    (forall a, In a Ex' <-> In a Ex \/ is_exit a nodes).
  Proof.
    induction nodes as [|x r IH]; intros En Ex En' Ex' H H1 H2; cbn [scan_modes] in H.
    - injection H as <- <-. split; auto. split; auto. split; intros a; split; auto.
      + intros [|(? & ? & [] & _)]; auto.
      + intros [|(? & ? & [] & _)]; auto.
    - destruct (if dm (amode x) then _ else _) as [Ex1| |] eqn:E1 in H; cbn [bind] in H; try discriminate.
      destruct (if (amode x =? d)%Z then _ else _) as [En1| |] eqn:E2 in H; cbn [bind] in H; try discriminate.
      assert (HX : NoDup Ex1 /\ forall a, In a Ex1 <-> In a Ex \/ is_exit a [x]).
      { destruct (dm (amode x)) eqn:Ed.
        - destruct (push_all_ok _ _ _ _ _ E1 H2) as (K1 & K2). split; auto. intros a. rewrite K2.
          split; intros [|K]; auto; right.
          + destruct K as (y & Hy & Ey & Ht & Hw). rewrite want_exit in Hw. apply negb_true_iff in Hw.
            exists x, y. repeat split; auto. left; auto.
          + destruct K as (x' & y & [<-|[]] & Hy & Ey & Ht & _ & Hw). exists y. rewrite want_exit, Hw. auto.
        - injection E1 as <-. split; auto. intros a. split; auto. intros [|K]; auto.
          destruct K as (x' & y & [<-|[]] & _ & _ & _ & K & _). congruence. }
      assert (HE : NoDup En1 /\ forall a, In a En1 <-> In a En \/ is_entry a [x]).
      { destruct (Z.eqb_spec (amode x) d) as [Ed|Ed].
        - injection E2 as <-. split; auto. intros a. split; auto. intros [|K]; auto.
          destruct K as (x' & y & [<-|[]] & _ & _ & _ & K & _). congruence.
        - destruct (push_all_ok _ _ _ _ _ E2 H1) as (K1 & K2). split; auto. intros a. rewrite K2.
          split; intros [|K]; auto; right.
          + destruct K as (y & Hy & Ey & Ht & Hw). apply Z.eqb_eq in Hw.
            exists x, y. repeat split; auto. left; auto.
          + destruct K as (x' & y & [<-|[]] & Hy & Ey & Ht & _ & Hw). exists y. rewrite Hw, Z.eqb_refl. auto. }
      destruct HX as (HX1 & HX2). destruct HE as (HE1 & HE2).
      destruct (IH _ _ _ _ H HE1 HX1) as (K1 & K2 & K3 & K4). split; auto. split; auto. split; intros a.
      + rewrite K3, HE2. split.
        * intros [[|(x' & y & [<-|[]] & K)]|(x' & y & K0 & K)]; auto; right.
          -- exists x, y. split; [left; auto|]. auto.
          -- exists x', y. split; [right; auto|]. auto.
        * intros [|(x' & y & [<-|K0] & K)]; auto.
          -- left. right. exists x, y. split; [left; auto|]. auto.
          -- right. exists x', y. auto.
      + rewrite K4, HX2. split.
        * intros [[|(x' & y & [<-|[]] & K)]|(x' & y & K0 & K)]; auto; right.
          -- exists x, y. split; [left; auto|]. auto.
          -- exists x', y. split; [right; auto|]. auto.
        * intros [|(x' & y & [<-|K0] & K)]; auto.
          -- left. right. exists x, y. split; [left; auto|]. auto.
          -- right. exists x', y. auto.
  Qed.
  Lemma states_at_ok : forall l ss, states_at A l = Ok ss ->
    forall s, In s ss <-> exists x, In x A /\ In (aid x) l /\ astate x = s.
  Proof.
    induction l as [|a l IH]; intros ss H; cbn [states_at] in H.
    - injection H as <-. intros s. split; [intros []|]. intros (x & _ & [] & _).
    - destruct (deref A a) as [x|] eqn:Ex; [|discriminate]. destruct (states_at A l) as [ss'| |]; try discriminate.
      injection H as <-. pose proof (deref_In _ _ _ Ex) as (Hx & Ea). intros s. cbn [In]. rewrite (IH ss' eq_refl s).
      split.
      + intros [<-|(z & Hz & Hi & E)]; [exists x|exists z]; auto.
      + intros (z & Hz & [Hi|Hi] & E); [left|right; exists z; auto]. assert (z = x) by (apply (node_unique A); congruence).
        congruence.
  Qed.
End Scan.
