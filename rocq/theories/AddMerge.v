(** What the three connecting loops of add_metric_sysgoal do: nodes of two automata are
    merged in pairs. *)
From Coq Require Import List ZArith Lia Bool Arith.
From Verif Require Import Base Bdd Support SupportProofs Ops Strs Ptree Solve Automaton AutProofs AutProofs2 Synth Reach Nonbool AutIO Hotswap HotProofs
  AddGoal.
Import ListNotations.
Open Scope nat_scope.

(** pairs (a, b): the node at address [a] takes the place of the node [b] *)
Definition mpairs := list (nat * nat).
Definition fwd (M : mpairs) (t : nat) : nat := match find (fun p => snd p =? t) M with Some p => fst p | None => t end.
Definition bwd (M : mpairs) (z : nat) : nat := match find (fun p => fst p =? z) M with Some p => snd p | None => z end.

Lemma fwd_out : forall M t, ~ In t (map snd M) -> fwd M t = t.
Proof.
  intros M t H. unfold fwd. destruct (find _ M) as [p|] eqn:E; auto. apply find_some in E. destruct E as (Hp & E).
  apply Nat.eqb_eq in E. exfalso. apply H. rewrite <- E. apply in_map. auto.
Qed.
Lemma bwd_out : forall M z, ~ In z (map fst M) -> bwd M z = z.
Proof.
  intros M t H. unfold bwd. destruct (find _ M) as [p|] eqn:E; auto. apply find_some in E. destruct E as (Hp & E).
  apply Nat.eqb_eq in E. exfalso. apply H. rewrite <- E. apply in_map. auto.
Qed.
Lemma nodup_fst : forall (M : mpairs) a b b', NoDup (map fst M) -> In (a, b) M -> In (a, b') M -> b = b'.
Proof.
  induction M as [|(u, v) M IH]; intros a b b' Hnd H H'; [destruct H|]. cbn in Hnd. inversion Hnd as [|? ? Hni Hnd']; subst.
  destruct H as [E|H]; destruct H' as [E'|H']; try congruence; eauto.
  - exfalso. apply Hni. injection E as -> ->. change a with (fst (a, b')). apply in_map. auto.
  - exfalso. apply Hni. injection E' as -> ->. change a with (fst (a, b)). apply in_map. auto.
Qed.
Lemma nodup_snd : forall (M : mpairs) a a' b, NoDup (map snd M) -> In (a, b) M -> In (a', b) M -> a = a'.
Proof.
  induction M as [|(u, v) M IH]; intros a a' b Hnd H H'; [destruct H|]. cbn in Hnd. inversion Hnd as [|? ? Hni Hnd']; subst.
  destruct H as [E|H]; destruct H' as [E'|H']; try congruence; eauto.
  - exfalso. apply Hni. injection E as -> ->. change b with (snd (a', b)). apply in_map. auto.
  - exfalso. apply Hni. injection E' as -> ->. change b with (snd (a, b)). apply in_map. auto.
Qed.
Lemma fwd_in : forall M a b, NoDup (map snd M) -> In (a, b) M -> fwd M b = a.
Proof.
  intros M a b Hnd H. unfold fwd. destruct (find _ M) as [(a', b')|] eqn:E.
  - apply find_some in E. destruct E as (Hp & E). apply Nat.eqb_eq in E. cbn in *. subst b'. eapply nodup_snd; eauto.
  - exfalso. pose proof (find_none _ _ E _ H) as K. cbn in K. rewrite Nat.eqb_refl in K. discriminate.
Qed.
Lemma bwd_in : forall M a b, NoDup (map fst M) -> In (a, b) M -> bwd M a = b.
Proof.
  intros M a b Hnd H. unfold bwd. destruct (find _ M) as [(a', b')|] eqn:E.
  - apply find_some in E. destruct E as (Hp & E). apply Nat.eqb_eq in E. cbn in *. subst a'. eapply nodup_fst; eauto.
  - exfalso. pose proof (find_none _ _ E _ H) as K. cbn in K. rewrite Nat.eqb_refl in K. discriminate.
Qed.
Lemma fwd_cases : forall M t, In (fwd M t, t) M \/ ~ In t (map snd M) /\ fwd M t = t.
Proof.
  intros M t. unfold fwd. destruct (find _ M) as [(a, b)|] eqn:E.
  - left. apply find_some in E. destruct E as (Hp & E). apply Nat.eqb_eq in E. cbn in *. subst. auto.
  - right. split; auto. intros H. apply in_map_iff in H. destruct H as ((a, b) & Eb & H). cbn in Eb. subst b.
    pose proof (find_none _ _ E _ H) as K. cbn in K. rewrite Nat.eqb_refl in K. discriminate.
Qed.
Lemma bwd_cases : forall M z, In (z, bwd M z) M \/ ~ In z (map fst M) /\ bwd M z = z.
Proof.
  intros M t. unfold bwd. destruct (find _ M) as [(a, b)|] eqn:E.
  - left. apply find_some in E. destruct E as (Hp & E). apply Nat.eqb_eq in E. cbn in *. subst. auto.
  - right. split; auto. intros H. apply in_map_iff in H. destruct H as ((a, b) & Eb & H). cbn in Eb. subst a.
    pose proof (find_none _ _ E _ H) as K. cbn in K. rewrite Nat.eqb_refl in K. discriminate.
Qed.

Record merged (H0 : aut) (M : mpairs) (H : aut) : Prop := {
  me_ids : NoDup (ids H);
  me_fst : NoDup (map fst M);
  me_snd : NoDup (map snd M);
  me_apart : forall a, In a (map fst M) -> In a (ids H0) /\ ~ In a (map snd M);
  me_back : forall a, In a (map snd M) -> In a (ids H0);
  me_dom : forall a, In a (ids H) <-> In a (ids H0) /\ ~ In a (map snd M);
  me_node : forall z, In z H -> exists z0 x, In z0 H0 /\ aid z0 = aid z /\ ainit z = ainit z0 /\ astate z = astate z0 /\
    In x H0 /\ aid x = bwd M (aid z) /\ astate x = astate z /\ amode z = amode x /\ atrans z = map (fwd M) (atrans x);
  me_pair : forall a b, In (a, b) M -> exists x y, In x H0 /\ In y H0 /\ aid x = a /\ aid y = b /\ astate x = astate y
}.
Lemma merged_nil : forall H, NoDup (ids H) -> merged H [] H.
Proof.
  intros H Hnd. constructor; auto; cbn; try tauto; try (constructor; fail).
  intros z Hz. exists z, z. repeat (split; auto). rewrite <- (map_id (atrans z)) at 1. apply map_ext. auto.
Qed.
Definition subst1 (b a t : nat) : nat := if t =? b then a else t.
Lemma in_ids : forall (A : aut) x, In x A -> In (aid x) (ids A).
Proof. intros A x H. apply in_map. auto. Qed.
Lemma ids_in : forall (A : aut) a, In a (ids A) -> exists x, In x A /\ aid x = a.
Proof. intros A a H. apply in_map_iff in H. destruct H as (x & <- & Hx). eauto. Qed.

Lemma merged_step : forall H0 M H a b za zb H', merged H0 M H -> In za H -> In zb H -> aid za = a -> aid zb = b ->
  a <> b -> astate za = astate zb -> ~ In a (map fst M) -> ~ In b (map fst M) ->
  NoDup (ids H') ->
  (forall z', In z' H' -> exists z, In z H /\ aid z = aid z' /\ aid z <> b /\ ainit z' = ainit z /\ astate z' = astate z /\
     (aid z = a -> amode z' = amode zb /\ atrans z' = map (subst1 b a) (atrans zb)) /\
     (aid z <> a -> amode z' = amode z /\ atrans z' = map (subst1 b a) (atrans z))) ->
  (forall z, In z H -> aid z <> b -> In (aid z) (ids H')) ->
  merged H0 ((a, b) :: M) H'.
Proof.
  intros H0 M H a b za zb H' HM Hza Hzb Ea Eb Hab Est Hna Hnb Hnd Hof Hto.
  assert (Ha : In a (ids H0) /\ ~ In a (map snd M)) by (apply (me_dom _ _ _ HM); rewrite <- Ea; apply in_ids; auto).
  assert (Hb : In b (ids H0) /\ ~ In b (map snd M)) by (apply (me_dom _ _ _ HM); rewrite <- Eb; apply in_ids; auto).
  assert (Ef : forall t, fwd ((a, b) :: M) t = subst1 b a (fwd M t)).
  { intros t. unfold subst1. destruct (Nat.eq_dec t b) as [->|Hn].
    - rewrite (fwd_out M b) by apply Hb. rewrite Nat.eqb_refl. unfold fwd. cbn. rewrite Nat.eqb_refl. reflexivity.
    - assert (E1 : fwd ((a, b) :: M) t = fwd M t).
      { unfold fwd. cbn. destruct (Nat.eqb_spec b t); [congruence|reflexivity]. }
      rewrite E1. destruct (Nat.eqb_spec (fwd M t) b) as [E|E]; auto. exfalso.
      destruct (fwd_cases M t) as [K|(_ & K)]; [|congruence]. apply Hnb. rewrite <- E.
      change (fwd M t) with (fst (fwd M t, t)). apply in_map. auto. }
  constructor; auto.
  - cbn. constructor; auto. apply HM.
  - cbn. constructor; [apply Hb|apply HM].
  - cbn. intros c [<-|Hc].
    + split; [apply Ha|]. intros [K|K]; [congruence|]. apply Ha. auto.
    + destruct (me_apart _ _ _ HM c Hc) as (K1 & K2). split; auto. intros [<-|K]; auto.
  - cbn. intros c [<-|Hc]; [apply Hb|]. apply (me_back _ _ _ HM). auto.
  - intros c. cbn. split.
    + intros Hc. apply ids_in in Hc. destruct Hc as (z' & Hz' & <-). destruct (Hof z' Hz') as (z & Hz & Ez & Hn & _).
      rewrite <- Ez. pose proof (in_ids _ _ Hz) as K. apply (me_dom _ _ _ HM) in K. split; [tauto|]. intros [K'|K']; [congruence|tauto].
    + intros (K1 & K2). assert (K : In c (ids H)) by (apply (me_dom _ _ _ HM); tauto). apply ids_in in K.
      destruct K as (z & Hz & <-). apply Hto; auto.
  - intros z' Hz'. destruct (Hof z' Hz') as (z & Hz & Ez & Hn & Ei & Es & K1 & K2).
    destruct (me_node _ _ _ HM z Hz) as (z0 & x & Hz0 & E0 & Ei0 & Es0 & Hx & Ex & Esx & Em & Et).
    exists z0. destruct (Nat.eq_dec (aid z) a) as [Eza|Eza].
    + destruct (K1 Eza) as (Em' & Et').
      destruct (me_node _ _ _ HM zb Hzb) as (y0 & y & Hy0 & F0 & Fi0 & Fs0 & Hy & Fy & Fsy & Fm & Ft).
      exists y. assert (z = za) by (apply (node_unique H); auto; [apply HM|congruence]). subst z.
      repeat (split; [congruence || auto|]); try congruence.
      rewrite Fy, Eb, (bwd_out M b) by auto. rewrite <- Ez, Eza. unfold bwd. cbn. rewrite Nat.eqb_refl. repeat split; auto; try congruence.
      rewrite Et', Ft, map_map. apply map_ext. intros t. symmetry. apply Ef.
    + destruct (K2 Eza) as (Em' & Et'). exists x. repeat (split; [congruence || auto|]); try congruence.
      rewrite Ex. rewrite <- Ez. unfold bwd at 2. cbn. destruct (Nat.eqb_spec a (aid z)); [congruence|]. fold (bwd M (aid z)).
      repeat split; auto; try congruence. rewrite Et', Et, map_map. apply map_ext. intros t. symmetry. apply Ef.
  - intros c d [E|Hi]; [|apply (me_pair _ _ _ HM); auto]. injection E as <- <-.
    destruct (me_node _ _ _ HM za Hza) as (z0 & _ & Hz0 & E0 & _ & Es0 & _).
    destruct (me_node _ _ _ HM zb Hzb) as (y0 & _ & Hy0 & F0 & _ & Fs0 & _). exists z0, y0. repeat split; auto; congruence.
Qed.

(** ** One merge on two lists *)
Lemma nodup_app_l : forall (A B : aut), NoDup (ids (A ++ B)) -> NoDup (ids A).
Proof. intros A B H. unfold ids in *. rewrite map_app in H. induction (map aid A) as [|x l IH]; [constructor|]. cbn in H.
  inversion H as [|? ? Hni Hnd]; subst. constructor; auto. intros K. apply Hni. apply in_or_app. auto. Qed.
Lemma nodup_app_r : forall (A B : aut), NoDup (ids (A ++ B)) -> NoDup (ids B).
Proof. intros A B H. unfold ids in *. rewrite map_app in H. induction (map aid A) as [|x l IH]; auto. cbn in H.
  inversion H; auto. Qed.
Lemma nodup_app_x : forall (A B : aut) a, NoDup (ids (A ++ B)) -> In a (ids A) -> In a (ids B) -> False.
Proof.
  intros A B a H Ha Hb. unfold ids in *. rewrite map_app in H. induction (map aid A) as [|x l IH]; [destruct Ha|]. cbn in H.
  inversion H as [|? ? Hni Hnd]; subst. destruct Ha as [->|Ha]; auto. apply Hni. apply in_or_app. auto.
Qed.
Lemma nodup_app_i : forall (A B : aut), NoDup (ids A) -> NoDup (ids B) -> (forall a, In a (ids A) -> ~ In a (ids B)) -> NoDup (ids (A ++ B)).
Proof. intros A B H1 H2 H. unfold ids in *. rewrite map_app. apply NoDup_app; auto. Qed.

(** the node [a] of [P] takes over from the node [zb] of [Q] *)
Section Take.
  Variables (H0 : aut) (M : mpairs) (P Q : aut) (za zb : anode) (f : anode -> anode).
  Hypothesis HM : merged H0 M (P ++ Q).
  Hypothesis Hza : In za P.
  Hypothesis Hzb : In zb Q.
  Hypothesis Hst : astate za = astate zb.
  Hypothesis Hfa : ~ In (aid za) (map fst M).
  Hypothesis Hfb : ~ In (aid zb) (map fst M).
  Hypothesis Hf1 : forall x, aid (f x) = aid x /\ ainit (f x) = ainit x /\ astate (f x) = astate x /\ amode (f x) = amode zb.
  Hypothesis Hf2 : forall x, atrans (f x) = atrans zb.
  Let a := aid za.
  Let b := aid zb.
  Let P' := replace_anode_trans (store P a f) b (Some a).
  Let Q' := delete_anode (replace_anode_trans (store Q b (set_trans [])) b (Some a)) (Some b).
  Let HndP : NoDup (ids P). Proof. apply (nodup_app_l P Q). apply HM. Qed.
  Let HndQ : NoDup (ids Q). Proof. apply (nodup_app_r P Q). apply HM. Qed.
  Let Hx : forall c, In c (ids P) -> In c (ids Q) -> False. Proof. intros c. apply nodup_app_x. apply HM. Qed.
  Lemma take_P : ids P' = ids P.
  Proof.
    unfold P', replace_anode_trans. rewrite ids_map by auto. unfold store. apply ids_map. intros x. destruct (aid x =? a); auto.
    apply Hf1.
  Qed.
  Let idsQ0 : ids (replace_anode_trans (store Q b (set_trans [])) b (Some a)) = ids Q.
  Proof.
    unfold replace_anode_trans. rewrite ids_map by auto. unfold store. apply ids_map. intros x. destruct (aid x =? b); auto.
  Qed.
  Let Q'_eq : Q' = filter (fun x => negb (aid x =? b)) (replace_anode_trans (store Q b (set_trans [])) b (Some a)).
  Proof. unfold Q'. apply delete_ok; rewrite idsQ0; auto. apply in_ids. auto. Qed.
  Lemma take_Q : forall c, In c (ids Q') <-> In c (ids Q) /\ c <> b.
  Proof.
    intros c. rewrite Q'_eq. rewrite <- idsQ0. split.
    - intros H. apply ids_in in H. destruct H as (x & H & <-). apply filter_In in H. destruct H as (H & E). split; [apply in_ids; auto|].
      apply negb_true_iff, Nat.eqb_neq in E. auto.
    - intros (H & E). apply ids_in in H. destruct H as (x & H & <-). apply in_ids. apply filter_In. split; auto.
      apply negb_true_iff, Nat.eqb_neq. auto.
  Qed.
  Lemma take_merged : merged H0 ((a, b) :: M) (P' ++ Q').
  Proof.
    assert (Hab : a <> b) by (intros E; apply (Hx a); [apply in_ids; auto|rewrite E; apply in_ids; auto]).
    apply (merged_step H0 M (P ++ Q) a b za zb); auto; try (apply in_or_app; auto; fail).
    - apply nodup_app_i.
      + rewrite take_P. auto.
      + rewrite Q'_eq. apply nodup_filter_ids. rewrite idsQ0. auto.
      + intros c Hc Hc'. rewrite take_P in Hc. apply take_Q in Hc'. apply (Hx c); tauto.
    - intros z' Hz'. apply in_app_or in Hz'. destruct Hz' as [Hz'|Hz'].
      + unfold P', replace_anode_trans, store in Hz'. apply in_map_iff in Hz'. destruct Hz' as (z1 & <- & Hz1).
        apply in_map_iff in Hz1. destruct Hz1 as (z & <- & Hz). exists z. split; [apply in_or_app; auto|].
        destruct (Hf1 z) as (F1 & F2 & F3 & F4).
        assert (Hzb' : aid z <> b) by (intros E; apply (Hx (aid z)); [apply in_ids; auto|rewrite E; apply in_ids; auto]).
        destruct (Nat.eqb_spec (aid z) a) as [E|E]; cbn; rewrite replace_some.
        * split; [congruence|]. split; [auto|]. split; [auto|]. split; [auto|]. split; [|congruence]. intros _. rewrite Hf2. split; auto.
        * split; [congruence|]. split; [auto|]. split; [auto|]. split; [auto|]. split; [congruence|]. auto.
      + rewrite Q'_eq in Hz'. apply filter_In in Hz'. destruct Hz' as (Hz' & En). apply negb_true_iff, Nat.eqb_neq in En.
        unfold replace_anode_trans, store in Hz'. apply in_map_iff in Hz'. destruct Hz' as (z1 & <- & Hz1).
        apply in_map_iff in Hz1. destruct Hz1 as (z & <- & Hz). exists z. split; [apply in_or_app; auto|].
        assert (Hza' : aid z <> a) by (intros E; apply (Hx a); [apply in_ids; auto|rewrite <- E; apply in_ids; auto]).
        destruct (Nat.eqb_spec (aid z) b) as [E|E]; [exfalso; apply En; cbn; auto|].
        cbn. rewrite replace_some. split; [congruence|]. split; [auto|]. split; [auto|]. split; [auto|]. split; [congruence|auto].
    - intros z Hz Hn. unfold ids. rewrite map_app. apply in_or_app. apply in_app_or in Hz. destruct Hz as [Hz|Hz].
      + left. fold (ids P'). rewrite take_P. apply in_ids. auto.
      + right. apply take_Q. split; auto. apply in_ids. auto.
  Qed.
End Take.

Section Loops.
  Variable n : nat.
  Variable H0 : aut.
  Hypothesis Hnd0 : NoDup (ids H0).
  Hypothesis Hlen : forall x, In x H0 -> length (astate x) = n.
  Lemma merged_len : forall M H z, merged H0 M H -> In z H -> length (astate z) = n.
  Proof. intros M H z HM Hz. destruct (me_node _ _ _ HM z Hz) as (z0 & _ & H1 & _ & _ & -> & _). auto. Qed.
  Lemma with_state_ok : forall s C x, (forall y, In y C -> length (astate y) = length s) -> with_state s C = Some x ->
    In x C /\ s = astate x.
  Proof.
    intros s C x Hl H. unfold with_state in H. apply find_some in H. destruct H as (Hx & E). split; auto.
    apply statecmp_spec in E; auto. symmetry. auto.
  Qed.

  (** what a run of connect_new or connect_reached leaves *)
  Definition taken (l : list nat) (M : mpairs) (A C : aut) (M' : mpairs) (A' C' : aut) : Prop :=
    merged H0 M' (A' ++ C') /\ ids A' = ids A /\
    (forall c, In c (ids C') <-> In c (ids C) /\ ~ In c (map snd M')) /\
    exists N, M' = N ++ M /\ (forall a, In a (map fst N) <-> In a l) /\ (forall a, In a (map snd N) -> In a (ids C)).
  Lemma taken_nil : forall M A C, merged H0 M (A ++ C) -> taken [] M A C M A C.
  Proof.
    intros M A C HM. split; auto. split; auto. split.
    - intros c. split; [|tauto]. intros Hc. split; auto.
      apply (me_dom _ _ _ HM c). unfold ids. rewrite map_app. apply in_or_app. auto.
    - exists []. split; auto. split; [tauto|]. intros a [].
  Qed.
  Lemma taken_cons : forall a b l M A C A1 C1 M' A' C', taken l ((a, b) :: M) A1 C1 M' A' C' ->
    ids A1 = ids A -> (forall c, In c (ids C1) <-> In c (ids C) /\ c <> b) -> In b (ids C) -> taken (a :: l) M A C M' A' C'.
  Proof.
    intros a b l M A C A1 C1 M' A' C' (HM & E1 & E2 & N & -> & E4 & E5) HA HC Hb. split; auto. split; [congruence|]. split.
    - intros c. rewrite E2, HC. split; [tauto|]. intros (K1 & K2). split; auto. split; auto. intros ->. apply K2.
      rewrite map_app. apply in_or_app. right. left. auto.
    - exists (N ++ [(a, b)]). split; [rewrite <- app_assoc; auto|]. split.
      + intros c. rewrite map_app, in_app_iff, E4. cbn. tauto.
      + intros c. rewrite map_app, in_app_iff. cbn. intros [K|[<-|[]]]; auto. apply E5 in K. apply HC in K. tauto.
  Qed.
  Lemma store_store : forall (A : aut) a f g, (forall x, aid (f x) = aid x) -> store (store A a f) a g = store A a (fun x => g (f x)).
  Proof.
    intros A a f g Hf. unfold store. rewrite map_map. apply map_ext. intros x. destruct (aid x =? a) eqn:E; [rewrite Hf, E|rewrite E]; auto.
  Qed.
  Lemma step_taken : forall M A C za zb f, merged H0 M (A ++ C) -> In za A -> In zb C -> astate za = astate zb ->
    ~ In (aid za) (map fst M) -> ~ In (aid zb) (map fst M) ->
    (forall x, aid (f x) = aid x /\ ainit (f x) = ainit x /\ astate (f x) = astate x /\ amode (f x) = amode zb) ->
    (forall x, atrans (f x) = atrans zb) ->
    let A1 := replace_anode_trans (store A (aid za) f) (aid zb) (Some (aid za)) in
    let C1 := delete_anode (replace_anode_trans (store C (aid zb) (set_trans [])) (aid zb) (Some (aid za))) (Some (aid zb)) in
    merged H0 ((aid za, aid zb) :: M) (A1 ++ C1) /\ ids A1 = ids A /\ forall c, In c (ids C1) <-> In c (ids C) /\ c <> aid zb.
  Proof.
    intros M A C za zb f HM Ha Hb Hs Hna Hnb Hf1 Hf2. cbn zeta. split; [|split].
    - apply take_merged; auto.
    - apply take_P. auto.
    - eapply take_Q; eauto.
  Qed.

  (** every node of the component has this mode *)
  Definition moded (m : Z) (C : aut) : Prop := forall x, In x C -> amode x = m.
  Lemma moded_step : forall m C b a, moded m C -> NoDup (ids C) -> In b (ids C) ->
    moded m (delete_anode (replace_anode_trans (store C b (set_trans [])) b (Some a)) (Some b)).
  Proof.
    intros m C b a HC Hnd Hb x Hx.
    assert (Ei : ids (replace_anode_trans (store C b (set_trans [])) b (Some a)) = ids C).
    { unfold replace_anode_trans. rewrite ids_map by auto. unfold store. apply ids_map. intros y. destruct (aid y =? b); auto. }
    rewrite delete_ok in Hx by (rewrite Ei; auto). apply filter_In in Hx. destruct Hx as (Hx & _).
    unfold replace_anode_trans, store in Hx. apply in_map_iff in Hx. destruct Hx as (y & <- & Hy).
    apply in_map_iff in Hy. destruct Hy as (z & <- & Hz). cbn. destruct (aid z =? b); cbn; apply HC; auto.
  Qed.

  Lemma connect_new_ok : forall k raw Gi0 l M A C succ A' C' succ', connect_new k raw Gi0 l A C succ = Ok (Some (A', C', succ')) ->
    merged H0 M (A ++ C) -> moded (k + 1) C -> NoDup l -> (forall a, In a l -> ~ In a (map fst M)) ->
    (forall c, In c (map fst M) -> In c (ids A)) ->
    exists M', taken l M A C M' A' C' /\ forall a, In a l -> ~ In a raw.
  Proof.
    intros k raw Gi0. induction l as [|a l IH]; intros M A C succ A' C' succ' H HM Hmo Hnd Hfr Hin; cbn [connect_new] in H.
    - injection H as <- <- <-. exists M. split; [apply taken_nil; auto|]. intros a [].
    - destruct (deref A a) as [g|] eqn:Eg; [|discriminate]. destruct (memb a raw) eqn:Er; [discriminate|].
      destruct (with_state (astate g) C) as [c|] eqn:Ec; [|discriminate].
      apply deref_In in Eg. destruct Eg as (Hg & Ea).
      apply with_state_ok in Ec.
      2:{ intros y Hy. rewrite (merged_len M (A ++ C) y HM), (merged_len M (A ++ C) g HM); auto; apply in_or_app; auto. }
      destruct Ec as (Hc & Es). inversion Hnd as [|? ? Hni Hnd']; subst.
      rewrite store_store in H by auto.
      destruct (step_taken M A C g c (fun x => set_trans (atrans c) (set_mode (k + 1) (set_trans [] x)))) as (K1 & K2 & K3); auto.
      { apply Hfr. left. auto. }
      { intros K. apply Hin in K. apply (nodup_app_x A C (aid c)); auto. apply HM. apply in_ids. auto. }
      { intros x. cbn. repeat split; auto. symmetry. apply Hmo. auto. }
      destruct (IH _ _ _ _ _ _ _ H K1) as (M' & HT & Hraw).
      + apply moded_step; auto; [apply (nodup_app_r A C); apply HM|apply in_ids; auto].
      + auto.
      + intros b Hb [K|K]; [cbn in K; congruence|]. apply (Hfr b); auto. right. auto.
      + intros b [K|K]; rewrite K2; [cbn in K; subst b; apply in_ids; auto|auto].
      + exists M'. split.
        * eapply taken_cons; eauto. apply in_ids. auto.
        * intros b [<-|Hb]; auto. apply memb_false. auto.
  Qed.
  Lemma connect_reached_ok : forall l M A C A' C', connect_reached l A C = Ok (Some (A', C')) ->
    merged H0 M (A ++ C) -> moded (-1) C -> NoDup l -> (forall a, In a l -> ~ In a (map fst M)) ->
    (forall c, In c (map fst M) -> In c (ids A)) ->
    exists M', taken l M A C M' A' C'.
  Proof.
    induction l as [|a l IH]; intros M A C A' C' H HM Hmo Hnd Hfr Hin; cbn [connect_reached] in H.
    - injection H as <- <-. exists M. apply taken_nil; auto.
    - destruct (deref A a) as [g|] eqn:Eg; [|discriminate].
      destruct (with_state (astate g) C) as [c|] eqn:Ec; [|discriminate].
      apply deref_In in Eg. destruct Eg as (Hg & Ea).
      apply with_state_ok in Ec.
      2:{ intros y Hy. rewrite (merged_len M (A ++ C) y HM), (merged_len M (A ++ C) g HM); auto; apply in_or_app; auto. }
      destruct Ec as (Hc & Es). inversion Hnd as [|? ? Hni Hnd']; subst.
      rewrite store_store in H by auto.
      destruct (step_taken M A C g c (fun x => set_rgrad (argrad c) (set_trans (atrans c) (set_mode (-1) x)))) as (K1 & K2 & K3); auto.
      { apply Hfr. left. auto. }
      { intros K. apply Hin in K. apply (nodup_app_x A C (aid c)); auto. apply HM. apply in_ids. auto. }
      { intros x. cbn. repeat split; auto. symmetry. apply Hmo. auto. }
      destruct (IH _ _ _ _ _ H K1) as (M' & HT).
      + apply moded_step; auto; [apply (nodup_app_r A C); apply HM|apply in_ids; auto].
      + auto.
      + intros b Hb [K|K]; [cbn in K; congruence|]. apply (Hfr b); auto. right. auto.
      + intros b [K|K]; rewrite K2; [cbn in K; subst b; apply in_ids; auto|auto].
      + exists M'. eapply taken_cons; eauto. apply in_ids. auto.
  Qed.
  Lemma merged_perm : forall M A C, merged H0 M (A ++ C) -> merged H0 M (C ++ A).
  Proof.
    intros M A C HM. assert (Hnd : NoDup (ids (C ++ A))).
    { apply nodup_app_i; [apply (nodup_app_r A C)|apply (nodup_app_l A C)|]; try apply HM.
      intros a H1 H2. apply (nodup_app_x A C a); auto. apply HM. }
    assert (Hin : forall z, In z (C ++ A) <-> In z (A ++ C)) by (intros z; rewrite !in_app_iff; tauto).
    constructor; try apply HM; auto.
    - intros a. rewrite <- (me_dom _ _ _ HM a). unfold ids. rewrite !map_app, !in_app_iff. tauto.
    - intros z Hz. apply Hin in Hz. apply (me_node _ _ _ HM z Hz).
  Qed.
  Lemma first_at_ok : forall A Gi s x, (forall y, In y A -> length (astate y) = length s) -> first_at A Gi s = Ok (Some x) ->
    In x A /\ In (aid x) Gi /\ astate x = s.
  Proof.
    intros A Gi s x Hl. induction Gi as [|a Gi IH]; cbn [first_at]; intros H; [discriminate|].
    destruct (deref A a) as [y|] eqn:E; [|discriminate]. apply deref_In in E. destruct E as (Hy & Ea).
    destruct (statecmp (astate y) s) eqn:Es.
    - injection H as <-. split; auto. split; [left; auto|]. apply statecmp_spec in Es; auto.
    - destruct (IH H) as (K1 & K2 & K3). split; auto. split; auto. right. auto.
  Qed.
  Lemma connect_back_ok : forall nodes Gi1 raw M A C A' C' raw', connect_back nodes Gi1 raw A C = Ok (Some (A', C', raw')) ->
    merged H0 M (A ++ C) -> NoDup nodes -> (forall b, In b nodes -> In b (ids C) /\ ~ In b (map fst M)) ->
    (forall a, In a Gi1 -> ~ In a (map fst M)) -> (forall a, In a Gi1 -> ~ In a (ids C)) ->
    exists M' N, merged H0 M' (A' ++ C') /\ M' = N ++ M /\ ids C' = ids C /\
      (forall a b, In (a, b) N -> In a nodes /\ In b Gi1 /\ exists x, In x H0 /\ aid x = a /\ atrans x = []) /\
      (forall b x, In b nodes -> In x H0 -> aid x = b -> atrans x = [] -> In b (map fst N)) /\
      (forall a, In a (ids A') -> In a (ids A)).
  Proof.
    induction nodes as [|b nodes IH]; intros Gi1 raw M A C A' C' raw' H HM Hnd Hno HGi HGi'; cbn [connect_back] in H.
    - injection H as <- <- <-. exists M, []. split; auto. split; auto. split; auto. split; [intros a b []|]. split; [intros b x []|auto].
    - destruct (deref C b) as [c|] eqn:Ec; [|discriminate]. apply deref_In in Ec. destruct Ec as (Hc & Eb).
      inversion Hnd as [|? ? Hni Hnd']; subst.
      assert (Hcm : exists x, In x H0 /\ aid x = aid c /\ length (atrans x) = length (atrans c)).
      { destruct (me_node _ _ _ HM c) as (z0 & x & _ & _ & _ & _ & Hx & Ex & _ & _ & Et); [apply in_or_app; auto|].
        exists x. split; auto. rewrite Ex, bwd_out by (apply Hno; left; auto). split; auto. rewrite Et, map_length. auto. }
      destruct (no_trans c) eqn:En.
      + destruct (first_at A Gi1 (astate c)) as [[x|]| |] eqn:Ef; cbn [bind] in H; try discriminate.
        apply first_at_ok in Ef.
        2:{ intros y Hy. rewrite (merged_len M (A ++ C) y HM), (merged_len M (A ++ C) c HM); auto; apply in_or_app; auto. }
        destruct Ef as (Hx & Hxg & Es).
        pose proof (merged_perm _ _ _ HM) as HM'.
        assert (Hfb : ~ In (aid x) (map fst M)) by (apply HGi; auto).
        assert (Hfa : ~ In (aid c) (map fst M)) by (apply Hno; left; auto).
        set (A1 := delete_anode (replace_anode_trans (store A (aid x) (set_trans [])) (aid x) (Some (aid c))) (Some (aid x))) in *.
        set (C1 := replace_anode_trans (store C (aid c) (succeed x)) (aid x) (Some (aid c))) in *.
        assert (Hf1 : forall y, aid (succeed x y) = aid y /\ ainit (succeed x y) = ainit y /\ astate (succeed x y) = astate y /\
          amode (succeed x y) = amode x) by (intros y; cbn; auto).
        assert (K1 : merged H0 ((aid c, aid x) :: M) (C1 ++ A1)) by (apply take_merged; auto).
        assert (K2 : ids C1 = ids C) by (apply take_P; auto).
        assert (K3 : forall d, In d (ids A1) <-> In d (ids A) /\ d <> aid x) by (eapply take_Q; eauto).
        apply merged_perm in K1.
        destruct (IH Gi1 _ _ _ _ _ _ _ H K1 Hnd') as (M' & N & J1 & J2 & J3 & J4 & J5 & J6).
        * intros d Hd. rewrite K2. destruct (Hno d (or_intror Hd)) as (L1 & L2). split; auto. intros [K|K]; [cbn in K; congruence|auto].
        * intros d Hd [K|K]; [|apply (HGi d); auto]. cbn in K. apply (HGi' d Hd). rewrite <- K. apply in_ids. auto.
        * intros d Hd. rewrite K2. auto.
        * exists M', (N ++ [(aid c, aid x)]). split; auto. split; [rewrite <- app_assoc; auto|]. split; [congruence|]. split; [|split].
          -- intros u v Hi. apply in_app_or in Hi. destruct Hi as [Hi|[E|[]]].
             ++ destruct (J4 u v Hi) as (L1 & L2 & L3). split; [right; auto|auto].
             ++ injection E as <- <-. split; [left; auto|]. split; auto. destruct Hcm as (y & Hy & Ey & El). exists y. split; auto. split; auto.
                apply no_trans_nil in En. rewrite En in El. destruct (atrans y); [auto|discriminate].
          -- intros d y [<-|Hd] Hy Ey Et; rewrite map_app, in_app_iff; cbn; [auto|]. left. eapply J5; eauto.
          -- intros d Hd. apply J6 in Hd. apply K3 in Hd. tauto.
      + destruct (IH Gi1 _ _ _ _ _ _ _ H HM Hnd') as (M' & N & J1 & J2 & J3 & J4 & J5 & J6).
        * intros d Hd. apply Hno. right. auto.
        * auto.
        * auto.
        * exists M', N. split; auto. split; auto. split; auto. split; [|split]; auto.
          -- intros u v Hi. destruct (J4 u v Hi) as (L1 & L2 & L3). split; [right; auto|auto].
          -- intros d y [<-|Hd] Hy Ey Et; [|eapply J5; eauto]. exfalso.
             destruct Hcm as (x & Hx & Ex & El).
             destruct (me_node _ _ _ HM c) as (z0 & x' & _ & _ & _ & _ & Hx' & Ex' & _ & _ & Et'); [apply in_or_app; auto|].
             rewrite bwd_out in Ex' by (apply Hno; left; auto).
             apply not_true_iff_false in En. apply En. apply no_trans_nil.
             rewrite Et'. assert (y = x') by (apply (node_unique H0); auto; congruence). subst y. rewrite Et. reflexivity.
  Qed.
End Loops.
