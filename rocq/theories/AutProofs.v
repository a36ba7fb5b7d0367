(** Proofs about the automaton primitives (C26-C28, C40). *)
From Coq Require Import List ZArith Lia Bool Arith.
From Verif Require Import Base Support SupportProofs Automaton.
Import ListNotations.
Open Scope nat_scope.

Definition ids (A : aut) : list nat := map aid A.
(** every transition points to a node of the list *)
Definition closed (A : aut) : Prop := forall x t, In x A -> In t (atrans x) -> In t (ids A).
Definition edge (A : aut) (a b : nat) : Prop := exists x, In x A /\ aid x = a /\ In b (atrans x).
(** sequences of nodes following transitions *)
Definition inf_path (A : aut) (a : nat) (p : nat -> nat) : Prop :=
  p 0 = a /\ forall t, edge A (p t) (p (S t)).
Inductive reach (A : aut) : nat -> nat -> Prop :=
| reach_refl : forall a, reach A a a
| reach_step : forall a b c, reach A a b -> edge A b c -> reach A a c.
(** the nodes satisfying [keep], with transitions to other nodes dropped *)
Definition restrict (keep : nat -> bool) (A : aut) : aut :=
  map (fun x => set_trans (filter keep (atrans x)) x) (filter (fun x => keep (aid x)) A).

(** ** Lookup *)
Lemma deref_In : forall A a x, deref A a = Some x -> In x A /\ aid x = a.
Proof. intros A a x H. apply find_some in H. rewrite Nat.eqb_eq in H. exact H. Qed.
Lemma deref_None : forall A a, deref A a = None <-> ~ In a (ids A).
Proof.
  intros A a. unfold deref, ids. split.
  - intros H Hin. apply in_map_iff in Hin. destruct Hin as (x & <- & Hx).
    pose proof (find_none _ _ H x Hx) as Hn. simpl in Hn. rewrite Nat.eqb_refl in Hn. discriminate.
  - intros H. destruct (find (fun x => aid x =? a) A) eqn:E; auto. exfalso. apply H.
    apply find_some in E. destruct E as [E1 E2]. apply Nat.eqb_eq in E2. rewrite <- E2.
    apply in_map; auto.
Qed.
Lemma deref_Some : forall A a, In a (ids A) -> exists x, deref A a = Some x.
Proof.
  intros A a H. destruct (deref A a) eqn:E; eauto. apply deref_None in E. contradiction.
Qed.
Lemma deref_unique : forall A x, NoDup (ids A) -> In x A -> deref A (aid x) = Some x.
Proof.
  intros A x Hnd Hx. induction A as [|y A IH]; [destruct Hx|].
  simpl in *. unfold deref. simpl. inversion Hnd as [|? ? Hni Hnd']; subst.
  destruct Hx as [->|Hx]; [rewrite Nat.eqb_refl; auto|].
  destruct (Nat.eqb_spec (aid y) (aid x)) as [E|E]; [|apply IH; auto].
  exfalso. apply Hni. rewrite E. apply in_map; auto.
Qed.
Lemma node_unique : forall A x y, NoDup (ids A) -> In x A -> In y A -> aid x = aid y -> x = y.
Proof.
  intros A x y Hnd Hx Hy E. pose proof (deref_unique A x Hnd Hx) as H1.
  rewrite E, (deref_unique A y Hnd Hy) in H1. congruence.
Qed.

(** ** delete *)
Lemma unlink_next_ok : forall r prev t, ~ aid prev = t -> NoDup (ids (prev :: r)) ->
  unlink_next prev r t =
  if existsb (fun x => aid x =? t) r
  then Some (filter (fun x => negb (aid x =? t)) (prev :: r)) else None.
Proof.
  induction r as [|x r IH]; intros prev t Hne Hnd; simpl; auto.
  assert (Hp : (aid prev =? t) = false) by (apply Nat.eqb_neq; auto).
  rewrite Hp. simpl. destruct (Nat.eqb_spec (aid x) t) as [E|E]; simpl.
  - f_equal. f_equal. inversion Hnd as [|? ? _ Hnd']; subst.
    inversion Hnd' as [|? ? Hni Hnd'']; subst.
    symmetry. clear - Hni. induction r as [|y r IH]; simpl; auto.
    simpl in Hni. destruct (Nat.eqb_spec (aid y) (aid x)) as [E|E]; [tauto|].
    simpl. f_equal. apply IH. tauto.
  - rewrite IH; auto; [|inversion Hnd; auto].
    destruct (existsb (fun x0 => aid x0 =? t) r); auto.
    simpl. destruct (Nat.eqb_spec (aid x) t); [contradiction|]. reflexivity.
Qed.
Lemma delete_ok : forall A t, NoDup (ids A) -> In t (ids A) ->
  delete_anode A (Some t) = filter (fun x => negb (aid x =? t)) A.
Proof.
  intros [|x r] t Hnd Hin; [destruct Hin|]. simpl.
  destruct (Nat.eqb_spec (aid x) t) as [E|E].
  - simpl. inversion Hnd as [|? ? Hni Hnd']; subst. clear - Hni.
    induction r as [|y r IH]; simpl; auto. simpl in Hni.
    destruct (Nat.eqb_spec (aid y) (aid x)) as [E|E]; [tauto|]. simpl. f_equal. apply IH. tauto.
  - rewrite unlink_next_ok by auto. destruct Hin as [E'|Hin]; [congruence|].
    assert (H : existsb (fun x0 => aid x0 =? t) r = true).
    { apply in_map_iff in Hin. destruct Hin as (y & <- & Hy). apply existsb_exists.
      exists y. split; auto. apply Nat.eqb_refl. }
    rewrite H. simpl. destruct (Nat.eqb_spec (aid x) t); [contradiction|]. reflexivity.
Qed.
Lemma delete_absent : forall A t, NoDup (ids A) -> ~ In t (ids A) -> delete_anode A (Some t) = [].
Proof.
  intros [|x r] t Hnd Hin; auto. simpl. destruct (Nat.eqb_spec (aid x) t) as [E|E].
  - exfalso. apply Hin. left; auto.
  - rewrite unlink_next_ok by auto.
    assert (H : existsb (fun x0 => aid x0 =? t) r = false).
    { destruct (existsb (fun x0 => aid x0 =? t) r) eqn:Ex; auto. apply existsb_exists in Ex.
      destruct Ex as (y & Hy & Ey). apply Nat.eqb_eq in Ey. exfalso. apply Hin. right.
      rewrite <- Ey. apply in_map; auto. }
    rewrite H. reflexivity.
Qed.

Lemma replace_none : forall l old, replace_in l old None = filter (fun t => negb (t =? old)) l.
Proof.
  induction l as [|t l IH]; intros old; simpl; auto. rewrite IH.
  destruct (t =? old); reflexivity.
Qed.
Lemma replace_some : forall l old new,
  replace_in l old (Some new) = map (fun t => if t =? old then new else t) l.
Proof.
  induction l as [|t l IH]; intros old new; simpl; auto. rewrite IH.
  destruct (t =? old); reflexivity.
Qed.
Lemma ids_map : forall f A, (forall x, aid (f x) = aid x) -> ids (map f A) = ids A.
Proof. intros f A H. unfold ids. rewrite map_map. apply map_ext. auto. Qed.

(** removing a node together with the transitions into it *)
Lemma remove_node : forall A d, NoDup (ids A) -> In d (ids A) ->
  delete_anode (replace_anode_trans A d None) (Some d) = restrict (fun a => negb (a =? d)) A.
Proof.
  intros A d Hnd Hin. unfold replace_anode_trans.
  rewrite delete_ok by (rewrite ids_map; auto).
  unfold restrict. clear. induction A as [|x A IH]; simpl; auto.
  destruct (negb (aid x =? d)); simpl; rewrite IH; auto. rewrite replace_none. reflexivity.
Qed.

(** ** restrict *)
Lemma filter_length_le : forall A (f : A -> bool) l, length (filter f l) <= length l.
Proof. induction l as [|x l IH]; simpl; auto. destruct (f x); simpl; lia. Qed.
Lemma filter_filter : forall A (f g : A -> bool) l,
  filter f (filter g l) = filter (fun x => g x && f x) l.
Proof.
  induction l as [|x l IH]; simpl; auto. destruct (g x); simpl; rewrite IH; auto.
Qed.
Lemma restrict_comp : forall k1 k2 A,
  restrict k2 (restrict k1 A) = restrict (fun a => k1 a && k2 a) A.
Proof.
  intros k1 k2 A. unfold restrict.
  induction A as [|x A IH]; simpl; auto.
  destruct (k1 (aid x)); simpl; auto.
  destruct (k2 (aid x)); simpl; rewrite IH; auto.
  unfold set_trans at 1. simpl. rewrite filter_filter. reflexivity.
Qed.
Lemma restrict_all : forall k A, closed A -> (forall a, In a (ids A) -> k a = true) -> restrict k A = A.
Proof.
  intros k A Hc H. unfold restrict.
  assert (Hf : forall l, (forall x, In x l -> k (aid x) = true) -> filter (fun x => k (aid x)) l = l).
  { induction l as [|x l IH]; intros Hl; simpl; auto. rewrite (Hl x) by (left; auto).
    rewrite IH; auto. intros; apply Hl; right; auto. }
  rewrite Hf by (intros; apply H, in_map; auto).
  rewrite <- (map_id A) at 2. apply map_ext_in. intros x Hx.
  assert (Ht : filter k (atrans x) = atrans x).
  { assert (forall t, In t (atrans x) -> k t = true) by (intros t Ht; apply H; apply (Hc x); auto).
    clear - H0. induction (atrans x) as [|t l IH]; simpl; auto.
    rewrite (H0 t) by (left; auto). rewrite IH; auto. intros; apply H0; right; auto. }
  rewrite Ht. destruct x; reflexivity.
Qed.
Lemma restrict_ids : forall k A, ids (restrict k A) = filter k (ids A).
Proof.
  intros k A. unfold restrict, ids. rewrite map_map. simpl.
  induction A as [|x A IH]; simpl; auto. destruct (k (aid x)); simpl; rewrite IH; auto.
Qed.
Lemma restrict_In : forall k A y, In y (restrict k A) <->
  exists x, In x A /\ k (aid x) = true /\ y = set_trans (filter k (atrans x)) x.
Proof.
  intros k A y. unfold restrict. rewrite in_map_iff. split.
  - intros (x & <- & Hx). apply filter_In in Hx. exists x. tauto.
  - intros (x & Hx & Hk & ->). exists x. split; auto. apply filter_In. auto.
Qed.
Lemma restrict_nodup : forall k A, NoDup (ids A) -> NoDup (ids (restrict k A)).
Proof. intros. rewrite restrict_ids. apply NoDup_filter; auto. Qed.
Lemma restrict_closed : forall k A, closed A -> closed (restrict k A).
Proof.
  intros k A Hc y t Hy Ht. apply restrict_In in Hy. destruct Hy as (x & Hx & Hk & ->).
  simpl in Ht. apply filter_In in Ht. destruct Ht as [Ht1 Ht2].
  rewrite restrict_ids. apply filter_In. split; auto. eapply Hc; eauto.
Qed.
Lemma restrict_edge : forall k A a b, edge (restrict k A) a b <-> edge A a b /\ k a = true /\ k b = true.
Proof.
  intros k A a b. unfold edge. split.
  - intros (y & Hy & Ha & Hb). apply restrict_In in Hy. destruct Hy as (x & Hx & Hk & ->).
    simpl in *. apply filter_In in Hb. subst a. split; [exists x; tauto|]. tauto.
  - intros ((x & Hx & Ha & Hb) & Hka & Hkb). exists (set_trans (filter k (atrans x)) x).
    split; [apply restrict_In; exists x; subst; auto|]. simpl. split; auto.
    apply filter_In; auto.
Qed.
Lemma restrict_length : forall k A d, In d (ids A) -> k d = false ->
  length (restrict k A) < length A.
Proof.
  intros k A d Hd Hk. unfold restrict. rewrite map_length.
  apply in_map_iff in Hd. destruct Hd as (x & <- & Hx).
  induction A as [|y A IH]; [destruct Hx|]. simpl. destruct Hx as [->|Hx].
  - rewrite Hk. pose proof (filter_length_le _ (fun x => k (aid x)) A). lia.
  - specialize (IH Hx). destruct (k (aid y)); simpl; lia.
Qed.

(** ** aut_prune_deadends *)
Definition pruned (A A' : aut) : Prop := exists keep, A' = restrict keep A /\
  forall a p, inf_path A a p -> keep a = true.
Lemma pruned_refl : forall A, closed A -> pruned A A.
Proof. intros A Hc. exists (fun _ => true). split; auto. symmetry. apply restrict_all; auto. Qed.
Lemma path_tail : forall A a p t, inf_path A a p -> inf_path A (p t) (fun u => p (t + u)).
Proof.
  intros A a p t [H0 H]. split; [f_equal; lia|]. intros u.
  replace (t + S u) with (S (t + u)) by lia. apply H.
Qed.
Lemma pruned_trans : forall A B C, pruned A B -> pruned B C -> pruned A C.
Proof.
  intros A B C (k1 & -> & H1) (k2 & -> & H2). exists (fun a => k1 a && k2 a).
  split; [apply restrict_comp|]. intros a p Hp. rewrite (H1 a p Hp). simpl.
  apply (H2 a p). destruct Hp as [H0 Hp]. split; auto. intros t. apply restrict_edge.
  split; auto. split.
  - apply (H1 _ (fun u => p (t + u))). eapply path_tail. split; eauto.
  - apply (H1 _ (fun u => p (S t + u))). eapply path_tail. split; eauto.
Qed.
Lemma prune_one : forall A x, NoDup (ids A) -> In x A -> atrans x = [] ->
  pruned A (delete_anode (replace_anode_trans A (aid x) None) (Some (aid x))).
Proof.
  intros A x Hnd Hx Ht. rewrite remove_node; auto; [|apply in_map; auto].
  exists (fun a => negb (a =? aid x)). split; auto. intros a p [H0 Hp].
  apply negb_true_iff, Nat.eqb_neq. intros ->. destruct (Hp 0) as (y & Hy & E & Hb).
  rewrite H0 in E. assert (y = x) by (apply (node_unique A); auto). subst y. rewrite Ht in Hb. destruct Hb.
Qed.
Lemma prune_one_len : forall A x, NoDup (ids A) -> In x A ->
  length (delete_anode (replace_anode_trans A (aid x) None) (Some (aid x))) < length A /\
  NoDup (ids (delete_anode (replace_anode_trans A (aid x) None) (Some (aid x)))).
Proof.
  intros A x Hnd Hx. rewrite remove_node; auto; [|apply in_map; auto]. split.
  - eapply restrict_length with (d := aid x); [apply in_map; auto|]. rewrite Nat.eqb_refl. reflexivity.
  - apply restrict_nodup; auto.
Qed.
Lemma prune_one_closed : forall A x, NoDup (ids A) -> In x A -> closed A ->
  closed (delete_anode (replace_anode_trans A (aid x) None) (Some (aid x))).
Proof.
  intros A x Hnd Hx Hc. rewrite remove_node; auto; [|apply in_map; auto].
  apply restrict_closed; auto.
Qed.
Lemma no_trans_nil : forall x, no_trans x = true <-> atrans x = [].
Proof. intros x. unfold no_trans. destruct (atrans x); simpl; split; congruence. Qed.

Lemma prune_front_ok : forall fuel A, length A < fuel -> NoDup (ids A) -> closed A ->
  exists A', prune_front fuel A = Ok A' /\ pruned A A' /\ NoDup (ids A') /\ closed A' /\
    length A' <= length A /\ (forall x r, A' = x :: r -> atrans x <> []).
Proof.
  induction fuel; intros A Hf Hnd Hc; [lia|]. simpl. destruct A as [|x A].
  - exists []. repeat split; auto using pruned_refl. intros; discriminate.
  - destruct (no_trans x) eqn:E.
    + apply no_trans_nil in E.
      destruct (prune_one_len (x :: A) x Hnd (or_introl eq_refl)) as [Hl Hn].
      destruct (IHfuel (delete_anode (replace_anode_trans (x :: A) (aid x) None) (Some (aid x))))
        as (A' & H1 & H2 & H3 & H4 & H5 & H6); auto.
      * simpl in Hl, Hf |- *. lia.
      * apply prune_one_closed; auto. left; auto.
      * exists A'. split; [exact H1|]. split; [|split; [auto|split; [auto|split; [|auto]]]].
        -- eapply pruned_trans; [|exact H2]. apply prune_one; auto. left; auto.
        -- simpl in *. lia.
    + exists (x :: A). repeat split; auto using pruned_refl.
      intros y r Heq. inversion Heq; subst. intros Ht. apply no_trans_nil in Ht. congruence.
Qed.
Lemma prune_loop_ok : forall fuel A, length A < fuel -> NoDup (ids A) -> closed A ->
  exists A', prune_loop fuel A = Ok A' /\ pruned A A' /\ NoDup (ids A') /\ closed A' /\
    (forall x, In x A' -> atrans x <> []).
Proof.
  induction fuel; intros A Hf Hnd Hc; [lia|]. cbn [prune_loop].
  destruct (prune_front_ok (S (length A)) A) as (B & HB & HP & Hn & Hcl & Hl & Hh); auto; try lia.
  rewrite HB. cbn [bind]. destruct B as [|x r].
  - exists []. repeat split; auto.
  - destruct (find no_trans r) as [d|] eqn:E.
    + apply find_some in E. destruct E as [Hd Ed]. apply no_trans_nil in Ed.
      destruct (prune_one_len (x :: r) d Hn (or_intror Hd)) as [Hl' Hn'].
      destruct (IHfuel (delete_anode (replace_anode_trans (x :: r) (aid d) None) (Some (aid d))))
        as (A' & H1 & H2 & H3 & H4 & H5); auto; try lia.
      * apply prune_one_closed; auto. right; auto.
      * exists A'. split; auto. split; auto. eapply pruned_trans; [exact HP|].
        eapply pruned_trans; [|exact H2]. apply prune_one; auto. right; auto.
    + exists (x :: r). repeat split; auto. intros y [<-|Hy].
      * eapply Hh; eauto.
      * intros Ht. apply no_trans_nil in Ht. pose proof (find_none _ _ E y Hy). congruence.
Qed.

Lemma alive_path : forall A, closed A -> (forall x, In x A -> atrans x <> []) ->
  forall a, In a (ids A) -> exists p, inf_path A a p.
Proof.
  intros A Hc Ht a Ha.
  set (nx := fun a => match deref A a with Some x => hd 0 (atrans x) | None => 0 end).
  assert (Hnx : forall b, In b (ids A) -> edge A b (nx b) /\ In (nx b) (ids A)).
  { intros b Hb. unfold nx. destruct (deref_Some A b Hb) as (x & Hx). rewrite Hx.
    apply deref_In in Hx. destruct Hx as [Hx E]. specialize (Ht x Hx).
    destruct (atrans x) as [|t l] eqn:El; [congruence|]. simpl.
    assert (In t (atrans x)) by (rewrite El; left; auto).
    split; [exists x; auto|]. eapply Hc; eauto. }
  exists (fun t => iter t nx a). split; [reflexivity|].
  assert (Hin : forall t, In (iter t nx a) (ids A)).
  { induction t; simpl; auto. apply Hnx; auto. }
  intros t. simpl. apply Hnx. auto.
Qed.

Lemma prune_deadends_exact : forall A, NoDup (ids A) -> closed A ->
  exists keep, aut_prune_deadends A = Ok (restrict keep A) /\
    forall a, In a (ids A) -> (keep a = true <-> exists p, inf_path A a p).
Proof.
  intros A Hnd Hc.
  assert (H : exists A', aut_prune_deadends A = Ok A' /\ pruned A A' /\ NoDup (ids A') /\ closed A' /\
    (forall x, In x A' -> atrans x <> [])).
  { unfold aut_prune_deadends. destruct A as [|x r] eqn:EA.
    - exists []. repeat split; auto using pruned_refl.
    - rewrite <- EA in *. apply prune_loop_ok; auto. }
  destruct H as (A' & H1 & (keep & -> & Hk) & H3 & H4 & H5).
  exists keep. split; auto. intros a Ha. split.
  - intros E. destruct (alive_path (restrict keep A) H4 H5 a) as (p & Hp0 & Hp).
    { rewrite restrict_ids. apply filter_In; auto. }
    exists p. split; auto. intros t. apply (restrict_edge keep). apply Hp.
  - intros (p & Hp). eapply Hk; eauto.
Qed.

(** ** forward_prune *)
Lemma has_pred_spec : forall A a, has_pred A a = true <-> exists b, edge A b a.
Proof.
  intros A a. unfold has_pred, edge. rewrite existsb_exists. split.
  - intros (x & Hx & H). apply existsb_exists in H. destruct H as (t & Ht & E).
    apply Nat.eqb_eq in E. subst. exists (aid x), x. auto.
  - intros (b & x & Hx & _ & Ht). exists x. split; auto. apply existsb_exists. exists a.
    split; auto. apply Nat.eqb_refl.
Qed.
Lemma prune_scan_some : forall U A x, prune_scan A U = Ok (Some x) ->
  In x A /\ In (Some (aid x)) U /\ ainit x = false /\ has_pred A (aid x) = false.
Proof.
  induction U as [|[a|] U IH]; intros A x H; simpl in H; try discriminate.
  - destruct (deref A a) as [y|] eqn:E; try discriminate. apply deref_In in E. destruct E as [E1 E2].
    destruct (ainit y) eqn:Ei; [apply IH in H; simpl; tauto|].
    destruct (has_pred A a) eqn:Ep; [apply IH in H; simpl; tauto|].
    inversion H; subst. simpl. auto.
  - apply IH in H. simpl. tauto.
Qed.
Lemma prune_scan_total : forall U A, (forall a, In (Some a) U -> In a (ids A)) ->
  exists r, prune_scan A U = Ok r /\
   (r = None -> forall a, In (Some a) U ->
      (exists x, In x A /\ aid x = a /\ ainit x = true) \/ has_pred A a = true).
Proof.
  induction U as [|[a|] U IH]; intros A HU; simpl.
  - exists None. split; [reflexivity|]. intros _ a Ha. destruct Ha.
  - destruct (deref_Some A a) as (x & Hx); [apply HU; left; auto|]. rewrite Hx.
    apply deref_In in Hx. destruct Hx as [Hx Ea].
    destruct (IH A) as (r & Hr & Hn); [intros; apply HU; right; auto|].
    destruct (ainit x) eqn:Ei; [|destruct (has_pred A a) eqn:Ep].
    + exists r. split; auto. intros E b [Hb|Hb]; [|auto]. inversion Hb; subst. left. eauto.
    + exists r. split; auto. intros E b [Hb|Hb]; [|auto]. inversion Hb; subst. right. auto.
    + exists (Some x). split; auto. discriminate.
  - destruct (IH A) as (r & Hr & Hn); [intros; apply HU; right; auto|]. exists r. split; auto.
    intros E b [Hb|Hb]; [discriminate|auto].
Qed.
Lemma null_out_In : forall a U b, In (Some b) (null_out a U) <-> In (Some b) U /\ b <> a.
Proof.
  intros a U b. unfold null_out. rewrite in_map_iff. split.
  - intros ([c|] & E & Hc); [|discriminate]. destruct (Nat.eqb_spec c a); [discriminate|].
    inversion E; subst. auto.
  - intros [H Hn]. exists (Some b). split; auto. destruct (Nat.eqb_spec b a); congruence.
Qed.

(** a node set is kept as is *)
Definition sub (keep : nat -> bool) (A : aut) : aut := filter (fun x => keep (aid x)) A.
Lemma sub_ids : forall k A, ids (sub k A) = filter k (ids A).
Proof.
  intros k A. unfold sub, ids. induction A as [|x A IH]; simpl; auto.
  destruct (k (aid x)); simpl; rewrite IH; auto.
Qed.
Lemma sub_comp : forall k1 k2 A, sub k2 (sub k1 A) = sub (fun a => k1 a && k2 a) A.
Proof. intros. unfold sub. rewrite filter_filter. reflexivity. Qed.
Lemma sub_all : forall A, sub (fun _ => true) A = A.
Proof. induction A as [|x A IH]; simpl; auto. unfold sub in *. simpl. rewrite IH. reflexivity. Qed.

(** what forward_prune guarantees *)
Record fpruned (A A' : aut) (U : list (option nat)) (keep : nat -> bool) : Prop := {
  fp_eq : A' = sub keep A;
  fp_closed : closed A';
  fp_init : forall x, In x A -> keep (aid x) = false -> ainit x = false;
  fp_from : forall a, In a (ids A) -> keep a = false ->
    exists u, In (Some u) U /\ In u (ids A) /\ reach A u a;
  fp_left : forall a, In a (ids A') ->
    (In (Some a) U \/ exists d, In d (ids A) /\ keep d = false /\ edge A d a) ->
    (exists x, In x A' /\ aid x = a /\ ainit x = true) \/ exists b, edge A' b a
}.
Lemma edge_sub : forall k A a b, edge (sub k A) a b <-> edge A a b /\ k a = true.
Proof.
  intros k A a b. unfold edge, sub. split.
  - intros (x & Hx & E & Hb). apply filter_In in Hx. subst. split; [exists x; tauto|tauto].
  - intros ((x & Hx & E & Hb) & Hk). exists x. rewrite filter_In. subst. auto.
Qed.
Lemma reach_sub : forall k A a b, reach (sub k A) a b -> reach A a b.
Proof.
  intros k A a b H. induction H; [constructor|]. econstructor; eauto.
  apply edge_sub in H0. tauto.
Qed.
Lemma reach_first : forall A a b c, edge A a b -> reach A b c -> reach A a c.
Proof.
  intros A a b c He H. induction H; [econstructor; [constructor|auto]|].
  econstructor; eauto.
Qed.

Lemma fprune_loop_ok : forall fuel A U, length A < fuel -> NoDup (ids A) -> closed A ->
  (forall a, In (Some a) U -> In a (ids A)) ->
  exists A' keep, fprune_loop fuel A U = Ok A' /\ fpruned A A' U keep.
Proof.
  induction fuel; intros A U Hf Hnd Hc HU; [lia|]. cbn [fprune_loop].
  destruct (prune_scan_total U A HU) as (r & Hr & Hnone). rewrite Hr. cbn [bind].
  destruct r as [x|].
  - apply prune_scan_some in Hr. destruct Hr as (Hx & HxU & Hi & Hp). clear Hnone.
    assert (Hxi : In (aid x) (ids A)) by (apply in_map; auto).
    rewrite delete_ok by auto. cbv zeta.
    set (k1 := fun a => negb (a =? aid x)).
    change (filter (fun x0 => negb (aid x0 =? aid x)) A) with (sub k1 A).
    assert (Hk1x : k1 (aid x) = false) by (unfold k1; rewrite Nat.eqb_refl; auto).
    assert (Hk1 : forall a, k1 a = true <-> a <> aid x).
    { intros a. unfold k1. rewrite negb_true_iff, Nat.eqb_neq. tauto. }
    assert (Hno : forall b, ~ edge A b (aid x)).
    { intros b Hb. assert (has_pred A (aid x) = true) by (apply has_pred_spec; eauto). congruence. }
    assert (Hc1 : closed (sub k1 A)).
    { intros y t Hy Ht. apply filter_In in Hy. destruct Hy as [Hy Hyk]. rewrite sub_ids.
      apply filter_In. split; [eapply Hc; eauto|]. apply Hk1. intros ->.
      apply (Hno (aid y)). exists y. auto. }
    assert (Hn1 : NoDup (ids (sub k1 A))) by (rewrite sub_ids; apply NoDup_filter; auto).
    set (U1 := null_out (aid x) (U ++ map Some (atrans x))).
    assert (HU1i : forall a, In (Some a) U1 <-> (In (Some a) U \/ In a (atrans x)) /\ a <> aid x).
    { intros a. unfold U1. rewrite null_out_In, in_app_iff, in_map_iff. split.
      - intros [[H|(t & E & H)] Hn]; [auto|]. inversion E; subst. auto.
      - intros [[H|H] Hn]; split; auto. right. eauto. }
    assert (HU1 : forall a, In (Some a) U1 -> In a (ids (sub k1 A))).
    { intros a Ha. apply HU1i in Ha. destruct Ha as [Ha Hn]. rewrite sub_ids. apply filter_In.
      split; [|apply Hk1; auto]. destruct Ha as [Ha|Ha]; [auto|eapply Hc; eauto]. }
    assert (Hlen : length (sub k1 A) < length A).
    { assert (length (ids (sub k1 A)) < length (ids A)); [|unfold ids in *; rewrite !map_length in *; auto].
      rewrite sub_ids. clear - Hxi Hk1x. induction (ids A) as [|y l IH]; [destruct Hxi|].
      simpl. destruct Hxi as [->|Hxi].
      - rewrite Hk1x. pose proof (filter_length_le _ k1 l). lia.
      - specialize (IH Hxi). destruct (k1 y); simpl; lia. }
    assert (Hrec : exists A' keep,
       match sub k1 A with [] => Ok [] | _ => fprune_loop fuel (sub k1 A) U1 end = Ok A' /\
       fpruned (sub k1 A) A' U1 keep).
    { destruct (sub k1 A) as [|y l] eqn:Es.
      - exists [], (fun _ => true). split; auto. constructor; auto; simpl; intros; tauto.
      - rewrite <- Es in *. apply IHfuel; auto. lia. }
    destruct Hrec as (A' & k2 & HA' & [F1 F2 F3 F4 F5]).
    exists A', (fun a => k1 a && k2 a). split; [exact HA'|]. constructor; auto.
    + rewrite F1. apply sub_comp.
    + intros y Hy Hk. destruct (k1 (aid y)) eqn:E1.
      * apply F3; [unfold sub; apply filter_In; auto|exact Hk].
      * assert (aid y = aid x).
        { destruct (Nat.eq_dec (aid y) (aid x)); auto. apply Hk1 in n. congruence. }
        assert (y = x) by (apply (node_unique A); auto). congruence.
    + intros a Ha Hk. destruct (k1 a) eqn:E1.
      * destruct (F4 a) as (u & Hu & Hui & Hur).
        { rewrite sub_ids. apply filter_In; auto. } { exact Hk. }
        apply HU1i in Hu. destruct Hu as [[Hu|Hu] Hun].
        -- exists u. split; auto. split; [auto|]. eapply reach_sub; eauto.
        -- exists (aid x). split; auto. split; auto.
           apply reach_first with (b := u); [exists x; auto|]. eapply reach_sub; eauto.
      * assert (a = aid x).
        { destruct (Nat.eq_dec a (aid x)); auto. apply Hk1 in n. congruence. }
        subst a. exists (aid x). repeat split; auto. constructor.
    + intros a Ha Hor. assert (Hak : k1 a && k2 a = true).
      { rewrite F1, sub_comp, sub_ids in Ha. apply filter_In in Ha. tauto. }
      apply andb_true_iff in Hak. destruct Hak as [Hak1 Hak2].
      apply F5; auto. destruct Hor as [Hu|(d & Hd & Hdk & Hde)].
      * left. apply HU1i. split; auto. apply Hk1; auto.
      * destruct (k1 d) eqn:E1.
        -- right. exists d. split; [rewrite sub_ids; apply filter_In; auto|].
           split; [exact Hdk|]. apply edge_sub; auto.
        -- left. apply HU1i. split; [|apply Hk1; auto]. right.
           assert (d = aid x).
           { destruct (Nat.eq_dec d (aid x)); auto. apply Hk1 in n. congruence. }
           subst d. destruct Hde as (y & Hy & Ey & Hya).
           assert (y = x) by (apply (node_unique A); auto). subst y. auto.
  - exists A, (fun _ => true). split; auto. constructor; auto.
    + symmetry. apply sub_all.
    + intros; discriminate.
    + intros; discriminate.
    + intros a Ha [Hu|(d & _ & Hd & _)]; [|discriminate].
      destruct (Hnone eq_refl a Hu) as [H|H]; [left; auto|right]. apply has_pred_spec; auto.
Qed.
Lemma forward_prune_ok : forall A U fuel, length A < fuel -> NoDup (ids A) -> closed A ->
  (forall a, In (Some a) U -> In a (ids A)) ->
  exists A' keep, forward_prune fuel A U = Ok A' /\ fpruned A A' U keep.
Proof.
  intros A U fuel Hf Hnd Hc HU. unfold forward_prune.
  destruct A as [|x A]; [|destruct U as [|u U]].
  - exists [], (fun _ => true). split; auto. constructor; auto; simpl; intros; tauto.
  - exists (x :: A), (fun _ => true). split; auto. constructor; auto.
    + symmetry. apply sub_all.
    + intros; discriminate.
    + intros; discriminate.
    + intros a Ha [[]|(d & _ & Hd & _)]; discriminate.
  - apply fprune_loop_ok; auto.
Qed.
