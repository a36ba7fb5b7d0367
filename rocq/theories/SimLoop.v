(** Proofs about the main loop of sim_rhc (Sim.v). *)
From Coq Require Import List ZArith Lia Bool Arith String.
From Verif Require Import Base Game GameTheory Bdd BGame Support SupportProofs EnumProofs Ops OpsProofs
  Automaton AutProofs2 Synth SynthBdd SynthProg Nonbool Metric MetricSpec MetricProofs MetricLevels Sim SimProofs.
Import ListNotations.
Open Scope list_scope.
Open Scope nat_scope.

Definition total (stacks : list (list vec)) : nat := list_sum (map (@List.length vec) stacks).
Lemma total_levs : forall stacks, total stacks = list_sum (map (fun d => List.length (lev stacks d)) (seq 0 (List.length stacks))).
Proof.
  unfold total, lev. induction stacks as [|l r IH]; cbn [map List.length seq list_sum fold_right]; auto.
  cbn [nth]. f_equal. change (fold_right Nat.add 0) with list_sum. rewrite IH. rewrite <- seq_shift, map_map. reflexivity.
Qed.
Lemma sum_le : forall (f g : nat -> nat) l, (forall x, In x l -> f x <= g x) -> list_sum (map f l) <= list_sum (map g l).
Proof.
  induction l as [|x l IH]; intros H; cbn; auto. pose proof (H x (or_introl eq_refl)).
  pose proof (IH (fun y Hy => H y (or_intror Hy))). unfold list_sum in *. lia.
Qed.
Lemma sum_lt : forall (f g : nat -> nat) l x, (forall x, In x l -> f x <= g x) -> In x l -> f x < g x ->
  list_sum (map f l) < list_sum (map g l).
Proof.
  induction l as [|y l IH]; intros x H Hx Hlt; [destruct Hx|]. destruct Hx as [-> | Hx]; cbn.
  - pose proof (sum_le f g l (fun y Hy => H y (or_intror Hy))). unfold list_sum in *. lia.
  - pose proof (H y (or_introl eq_refl)). pose proof (IH x (fun y Hy => H y (or_intror Hy)) Hx Hlt). unfold list_sum in *. lia.
Qed.
Lemma sum_const : forall (f : nat -> nat) c l, (forall x, In x l -> f x <= c) -> list_sum (map f l) <= List.length l * c.
Proof.
  induction l as [|x l IH]; intros H; cbn; auto. pose proof (H x (or_introl eq_refl)).
  pose proof (IH (fun y Hy => H y (or_intror Hy))). unfold list_sum in *. lia.
Qed.

Section Loop.
  Variables (ne ns : nat) (orc : oracle) (fuel : nat) (rand : nat -> Z) (alloc : nat -> aut -> nat).
  Let n := ne + ns.
  Let m := 2 * (ne + ns).
  Hypothesis Horc : oracle_ok m orc.
  Hypothesis Hfuel : 2 ^ n <= fuel.
  Hypothesis Halloc : forall t A, ~ In (alloc t A) (map aid A).
  Variables (W et st : dt) (sgoals : list dt) (offw : list (Z * Z)).
  Hypothesis HW : Good ne ns W.
  Hypothesis Het : no_primed_sys ne ns et.
  Hypothesis Hoff : fields_in n offw.
  Hypothesis Hsg : Forall (Good ne ns) sgoals.
  Hypothesis Hsg0 : sgoals <> [].
  Notation den := (evS n).
  Notation z0 := (bZero m).
  Notation mv := (mv ne ns et).
  Notation ans := (ans ne ns W et st).
  Notation pstep := (pstep ne ns W et st).
  Notation linked := (linked ne ns W et st).
  (** the system can stay in W *)
  Hypothesis Hforce : forall s e, bitvec n s -> den W s = true -> mv s e -> exists s', ans s e s'.
  Variable h : nat.
  Hypothesis Hh : 1 <= h.
  Notation stacks_ok := (stacks_ok ne ns W h).
  Notation New := (New h).

  Fixpoint psteps (k : nat) (x y : vec) : Prop :=
    match k with O => x = y | S k' => exists z, pstep x z /\ psteps k' z y end.
  Lemma psteps_snoc : forall k x y z, psteps k x y -> pstep y z -> psteps (S k) x z.
  Proof.
    induction k; intros x y z H Hs; cbn in *.
    - subst. exists z. auto.
    - destruct H as (w & H1 & H2). exists w. split; auto. exact (IHk w y z H2 Hs).
  Qed.

  (** ** Going back *)
  Lemma back_ok : forall stacks, stacks_ok stacks -> linked stacks ->
    forall j x, In x (lev stacks j) ->
    exists to, back_from ne ns et st j stacks x = Some to /\ In to (lev stacks 0) /\ psteps j to x /\
      forall old, covered ne ns W et st (h - 1) old -> j < h -> (forall i, i <= j -> ~ In x (lev old i)) -> ~ In to (lev old 0).
  Proof.
    intros stacks Hok Hl. induction j; intros x Hx; cbn [back_from].
    - exists x. repeat split; auto.
    - destruct (so_bits _ _ _ _ _ Hok _ _ Hx) as [Hbx HWx]. fold n in Hbx, HWx.
      match goal with |- context [find ?f ?l] => destruct (find f l) as [p|] eqn:Ef end.
      + apply find_some in Ef. destruct Ef as [Hp Ef].
        destruct (so_bits _ _ _ _ _ Hok _ _ Hp) as [Hbp _]. fold n in Hbp.
        destruct (IHj p Hp) as (to & E & H0 & Hs & Hold). exists to. split; auto. split; auto.
        assert (Hpx : pstep p x); [|split; [apply psteps_snoc with p; auto|]].
        2:{ intros old Hc Hj Hn. apply (Hold old Hc); [lia|]. intros i Hi Hpi.
            destruct (Hc i p x) as (i' & Hi' & Hx'); auto; [lia|]. apply (Hn i'); auto. lia. }
        rewrite ev_And in Ef by (apply (join2 ne ns); auto).
        apply andb_true_iff in Ef. destruct Ef as [E1 E2]. exists (firstn ne x).
        destruct (split2 ne ns x Hbx) as (e & w & -> & He & Hw). rewrite firstn_len by apply He.
        split; [split; auto|split; [exact Hbx|]].
        * rewrite <- E1. apply Het; auto using bitvec_zeros.
        * split; [apply firstn_len, He|]. auto.
      + exfalso. destruct (Hl j x Hx) as (p & Hp & e & (He & Hm) & _ & Hf & Hst & _).
        pose proof (find_none _ _ Ef p Hp) as Hn. cbn beta in Hn.
        destruct (so_bits _ _ _ _ _ Hok _ _ Hp) as [Hbp _]. fold n in Hbp.
        rewrite ev_And in Hn by (apply (join2 ne ns); auto). rewrite Hst, andb_true_r in Hn.
        destruct (split2 ne ns x Hbx) as (e' & w & -> & He' & Hw). rewrite firstn_len in Hf by apply He'. subst e'.
        rewrite (Het p e w (zeros ns)) in Hn; auto using bitvec_zeros. congruence.
  Qed.
  Lemma find_first : forall (g : nat -> bool) k a j, find g (seq a k) = Some j ->
    forall i, a <= i < a + k -> g i = true -> j <= i.
  Proof.
    intros g. induction k; intros a j H i Hi Hg; cbn in H; [discriminate|]. destruct (g a) eqn:E.
    - injection H as <-. lia.
    - apply (IHk (S a) j H i); auto. destruct (Nat.eq_dec i a); [congruence|lia].
  Qed.
  Lemma backtrack_ok : forall stacks x d, stacks_ok stacks -> linked stacks -> d < h -> In x (lev stacks d) ->
    exists to j, backtrack ne ns et st h stacks x = Some to /\ In to (lev stacks 0) /\ j < h /\ psteps j to x /\
      (In x (lev stacks 0) -> to = x) /\
      forall old, covered ne ns W et st (h - 1) old -> (forall i, i <= d -> ~ In x (lev old i)) -> ~ In to (lev old 0).
  Proof.
    intros stacks x d Hok Hl Hd Hx. unfold backtrack.
    assert (Hfound : forall j, found (nth j stacks []) x = true <-> In x (lev stacks j)).
    { intros j. apply (found_spec n).
      - apply Forall_forall. intros y Hy. eapply so_bits; eauto.
      - eapply so_bits; eauto. }
    destruct (found (nth 0 stacks []) x) eqn:E0.
    - rewrite andb_false_r. exists x, 0. apply Hfound in E0. repeat split; auto. intros old _ Hn. apply Hn. lia.
    - assert (Hn0 : ~ In x (lev stacks 0)) by (rewrite <- Hfound, E0; discriminate).
      assert (Hd0 : d <> 0) by (intros ->; contradiction).
      destruct (Nat.ltb_spec 1 h) as [H1|H1]; [|lia]. cbn [andb negb].
      destruct (find (fun j => found (nth j stacks []) x) (seq 1 (h - 1))) as [j|] eqn:Ef.
      + pose proof (find_first _ _ _ _ Ef d ltac:(lia) (proj2 (Hfound d) Hx)) as Hjd.
        apply find_some in Ef. destruct Ef as [Hj Ef]. apply in_seq in Hj. apply Hfound in Ef.
        destruct (back_ok stacks Hok Hl j x Ef) as (to & E & H2 & H3 & H4). exists to, j.
        split; auto. split; auto. split; [lia|]. split; auto. split; [intros H; contradiction|].
        intros old Hc Hn. apply (H4 old Hc); [lia|]. intros i Hi. apply Hn. lia.
      + exfalso. pose proof (find_none _ _ Ef d) as Hn. cbn beta in Hn.
        assert (Hin : In d (seq 1 (h - 1))) by (apply in_seq; lia). specialize (Hn Hin).
        apply Hfound in Hx. congruence.
  Qed.

  (** ** One iteration *)
  Definition gidx (q : simst) : nat :=
    if den (nth (si_goal q) sgoals z0) (si_state q) then (si_goal q + 1) mod List.length sgoals else si_goal q.
  Definition gset (i : nat) (x : vec) : Prop :=
    bitvec n x /\ den (nth i sgoals z0) x = true /\ den W x = true.
  Definition mem_in (stacks : list (list vec)) (l : list vec) : Prop :=
    forall x, In x l -> exists d, d < h /\ In x (lev stacks d).
  (** MEM after the goal has been looked at *)
  Definition memq (q : simst) : memory :=
    if den (nth (si_goal q) sgoals z0) (si_state q) then [] else si_mem q.
  Record qinv (q : simst) : Prop := {
    qi_bits : bitvec n (si_state q);
    qi_win : den W (si_state q) = true;
    qi_ok : stacks_ok (si_stacks q);
    qi_link : linked (si_stacks q);
    qi_cover : covered ne ns W et st (h - 1) (si_stacks q);
    qi_goal : si_goal q < List.length sgoals;
    qi_keys : forall k l, In (k, l) (si_mem q) -> bitvec n k;
    qi_mem : forall k l, In (k, l) (si_mem q) -> mem_in (si_stacks q) l;
    qi_next : (si_next q = None /\ (forall d, lev (si_stacks q) d = []) /\ si_mem q = []) \/
              (si_next q = Some (si_state q) /\ In (si_state q) (lev (si_stacks q) 0));
    qi_play : exists a rest, si_play q = Node a false (si_state q) (Z.of_nat (si_it q)) (-1) [] :: rest
  }.
  (** one iteration in which the environment moves by [e] and the search aims at [a] *)
  Record srel (q : simst) (e a : vec) (q' : simst) : Prop := {
    sl_it : si_it q' = S (si_it q);
    sl_goal : si_goal q' = gidx q;
    sl_mv : mv (si_state q) e;
    sl_lev0 : forall x, In x (lev (si_stacks q') 0) <-> In x (lev (si_stacks q) 0) \/ ans (si_state q) e x;
    sl_grown : forall d x, In x (lev (si_stacks q) d) -> In x (lev (si_stacks q') d);
    sl_cover : covered ne ns W et st (h - 1) (si_stacks q');
    sl_in0 : In (si_state q') (lev (si_stacks q') 0);
    sl_mem : si_mem q' = mem_add (memq q) (si_state q) a;
    sl_sel : let C := fun x => New (si_stacks q) (si_stacks q') x /\ ~ In x (mem_of (memq q) (si_state q)) in
      ((forall x, ~ C x) /\ a = si_state q /\ si_state q' = si_state q) \/
      (C a /\ ans (si_state q) e (si_state q') /\ (exists j, j < h /\ psteps j (si_state q') a) /\
       (In a (lev (si_stacks q') 0) -> si_state q' = a) /\
       forall y dx dy, C y -> set_dist offw (gset (gidx q)) a dx -> set_dist offw (gset (gidx q)) y dy -> (dx <= dy)%Z);
    sl_play : forall p rest, si_play q = Node p false (si_state q) (Z.of_nat (si_it q)) (-1) [] :: rest ->
      si_play q' = store (Node (alloc (S (si_it q)) (si_play q)) false (si_state q') (Z.of_nat (S (si_it q))) (-1) [] :: si_play q)
                     p (fun x => Automaton.set_trans (atrans x ++ [alloc (S (si_it q)) (si_play q)]) x)
  }.

  Lemma mem_of_in : forall M s x, In x (mem_of M s) -> exists k l, In (k, l) M /\ In x l.
  Proof.
    induction M as [|[k l] M IH]; intros s x Hx; cbn in Hx; [destruct Hx|].
    destruct (statecmp k s); [exists k, l; split; auto; left; auto|].
    destruct (IH s x Hx) as (k' & l' & H1 & H2). exists k', l'. split; auto. right. auto.
  Qed.
  Lemma mem_add_in : forall M s y k l, In (k, l) (mem_add M s y) ->
    forall x, In x l -> x = y \/ exists k' l', In (k', l') M /\ In x l'.
  Proof.
    induction M as [|[k0 l0] M IH]; intros s y k l H x Hx; cbn in H.
    - destruct H as [E|[]]. injection E as <- <-. destruct Hx as [<- | []]. auto.
    - destruct (statecmp k0 s).
      + destruct H as [E|H].
        * injection E as <- <-. apply in_app_iff in Hx. destruct Hx as [Hx|[<- | []]]; auto.
          right. exists k0, l0. split; auto. left. auto.
        * right. exists k, l. split; auto. right. auto.
      + destruct H as [E|H].
        * injection E as <- <-. right. exists k0, l0. split; auto. left. auto.
        * destruct (IH s y k l H x Hx) as [E|(k' & l' & H1 & H2)]; auto. right. exists k', l'. split; auto. right. auto.
  Qed.

  Lemma mem_add_key : forall M s y k l, In (k, l) (mem_add M s y) -> k = s \/ exists l', In (k, l') M.
  Proof.
    induction M as [|[k0 l0] M IH]; intros s y k l H; cbn in H.
    - destruct H as [E|[]]. injection E as <- <-. auto.
    - destruct (statecmp k0 s).
      + destruct H as [E|H]; [injection E as <- <-; right; exists l0; left; auto|]. right. exists l. right. auto.
      + destruct H as [E|H]; [injection E as <- <-; right; exists l0; left; auto|].
        destruct (IH s y k l H) as [E|(l' & H')]; auto. right. exists l'. right. auto.
  Qed.
  Lemma cmp_bits : forall x y, bitvec n x -> bitvec n y -> statecmp x y = true -> x = y.
  Proof. intros x y Hx Hy. apply statecmp_eq. rewrite (proj1 Hx), (proj1 Hy). reflexivity. Qed.
  Lemma mem_of_add : forall M s y s', (forall k l, In (k, l) M -> bitvec n k) -> bitvec n s -> bitvec n s' ->
    forall x, In x (mem_of (mem_add M s y) s') <-> In x (mem_of M s') \/ (s = s' /\ x = y).
  Proof.
    induction M as [|[k0 l0] M IH]; intros s y s' HM Hs Hs' x; cbn [mem_add mem_of].
    - destruct (statecmp s s') eqn:E.
      + apply cmp_bits in E; auto. split; [intros [<- | []]; auto|]. intros [[]|[_ ->]]. left. auto.
      + split; [intros []|]. intros [[]|[-> _]]. rewrite statecmp_refl in E. discriminate.
    - assert (Hk0 : bitvec n k0) by (apply (HM k0 l0); left; auto).
      destruct (statecmp k0 s) eqn:E0.
      + apply cmp_bits in E0; auto. subst k0. cbn [mem_of]. destruct (statecmp s s') eqn:E.
        * apply cmp_bits in E; auto. rewrite in_app_iff. cbn [In]. intuition auto.
        * split; auto. intros [H|[-> _]]; auto. rewrite statecmp_refl in E. discriminate.
      + cbn [mem_of]. destruct (statecmp k0 s') eqn:E.
        * apply cmp_bits in E; auto. subst k0. split; auto. intros [H|[-> _]]; auto.
          rewrite statecmp_refl in E0. discriminate.
        * apply IH; auto. intros k l H. apply (HM k l). right. auto.
  Qed.
  Lemma draw_ok : forall k l, l <> [] -> exists e, draw rand k l = Ok e /\ In e l.
  Proof.
    intros k l Hl. unfold draw. destruct l as [|x l]; [congruence|].
    set (L := x :: l). assert (HL : (0 < Z.of_nat (List.length L))%Z) by (unfold L; cbn [List.length]; lia).
    pose proof (Z.mod_pos_bound (rand k) _ HL) as Hb.
    destruct (nth_error L (Z.to_nat (rand k mod Z.of_nat (List.length L)))) as [e|] eqn:E.
    - exists e. split; auto. eapply nth_error_In; eauto.
    - apply nth_error_None in E. lia.
  Qed.

  Lemma nth_z0 : forall i, i < List.length sgoals -> nth_error sgoals i = Some (nth i sgoals z0).
  Proof. intros. apply nth_error_nth'. auto. Qed.
  Lemma gidx_lt : forall q, si_goal q < List.length sgoals -> gidx q < List.length sgoals.
  Proof.
    intros q H. unfold gidx. destruct (den _ _); auto. apply Nat.mod_upper_bound.
    destruct sgoals; [congruence|]. discriminate.
  Qed.

  Lemma step_ok : forall q, qinv q -> (exists e, mv (si_state q) e) ->
    exists e a q', sim_step ne ns orc fuel rand alloc W et st sgoals offw h q = Ok (Some q') /\ qinv q' /\ srel q e a q'.
  Proof.
    intros q Hq (e0 & He0). pose proof (qi_bits _ Hq) as Hb. pose proof (qi_win _ Hq) as HwW.
    unfold sim_step.
    assert (Eg : next_goal ne ns sgoals q = Ok (gidx q, memq q)).
    { unfold next_goal, gidx, memq. rewrite nth_z0 by apply Hq.
      rewrite (eval_at_den ne ns) by auto. fold n.
      destruct (den (nth (si_goal q) sgoals z0) (si_state q)); eauto. }
    assert (HM : memq q = [] \/ memq q = si_mem q).
    { unfold memq. destruct (den (nth (si_goal q) sgoals z0) (si_state q)); [left|right]; reflexivity. }
    rewrite Eg. cbn [bind]. set (M := memq q) in *.
    pose proof (gidx_lt q (qi_goal _ Hq)) as Hgl. rewrite nth_z0 by auto.
    set (g := nth (gidx q) sgoals z0).
    assert (Gg : Good ne ns g).
    { rewrite Forall_forall in Hsg. apply Hsg. apply nth_In. auto. }
    destruct (env_moves_ok ne ns orc fuel Horc Hfuel et Het (si_t q) (si_state q) Hb) as (l & El & _ & Hl).
    rewrite El. cbn [bind].
    destruct (draw_ok (si_it q) l) as (e & Ee & Hin).
    { intros ->. apply Hl in He0. destruct He0. }
    rewrite Ee. cbn [bind]. apply Hl in Hin.
    destruct (good_And ne ns g W Gg HW) as [GgW HgW].
    set (goalW := bAnd (2 * (ne + ns)) g W) in *.
    set (mem := mem_of M (si_state q)).
    assert (Hmem : mem_in (si_stacks q) mem).
    { intros x Hx. apply mem_of_in in Hx. destruct Hx as (k & l' & H1 & H2).
      destruct HM as [E | E]; rewrite E in H1; [destruct H1|]. eapply (qi_mem _ Hq); eauto. }
    assert (Hmb : Forall (bitvec n) mem).
    { apply Forall_forall. intros x Hx. destruct (Hmem x Hx) as (d & _ & Hd).
      eapply (so_bits _ _ _ _ _ (qi_ok _ Hq)); eauto. }
    set (q0 := Search (S (si_t q)) (si_stacks q) (si_next q) (-1)).
    assert (I0 : inv ne ns W offw goalW h (si_stacks q) (si_next q) mem q0).
    { constructor; cbn [q0 sr_stacks sr_next sr_min]; auto; [apply Hq|]. left. split; auto.
      intros x ((d & _ & H1 & H2) & _). apply (H2 d); auto. }
    destruct (explore_ok ne ns orc fuel Horc Hfuel W st offw HW Hoff goalW GgW h
                (si_stacks q) (si_next q) mem Hmb 0 (si_state q) e q0) as (q1 & E1 & I1 & A1 & A2 & A3 & A4); auto.
    { apply Hin. }
    rewrite E1. cbn [bind].
    assert (L1 : forall x, In x (lev (sr_stacks q1) 0) <-> In x (lev (si_stacks q) 0) \/ ans (si_state q) e x).
    { intros x. unfold SimProofs.ans. fold (succ ne ns W st (si_state q) e x). split.
      - intros Hx. apply A2 in Hx. destruct Hx as [Hx|[Hx _]]; auto.
      - intros [Hx|[_ Hx]]; auto. destruct (A4 x Hx) as (j & Hj & Hx'). replace j with 0 in Hx' by lia. auto. }
    destruct (depths_ok ne ns orc fuel Horc Hfuel W et st offw HW Het Hoff goalW GgW h
                (si_stacks q) (si_next q) mem Hmb (h - 1) 0 q1) as (q2 & E2 & I2 & K2 & C2 & Z2); auto; [lia| | |].
    { intros d x Hx. rewrite A1 in Hx by lia. cbn [q0 sr_stacks] in Hx.
      destruct (qi_link _ Hq d x Hx) as (p & Hp & Hs). exists p. split; auto.
      destruct d; [apply A3; auto|]. rewrite A1 by lia. auto. }
    { intros j p x Hj. lia. }
    rewrite E2. cbn [bind].
    pose proof (iv_ok _ _ _ _ _ _ _ _ _ _ I2) as Ok2. pose proof (iv_grown _ _ _ _ _ _ _ _ _ _ I2) as Gr2.
    pose proof (iv_sel _ _ _ _ _ _ _ _ _ _ I2) as Sel.
    set (C := fun x => New (si_stacks q) (sr_stacks q2) x /\ ~ In x mem) in *.
    (** the state the search aims at *)
    assert (Hsel : exists next, sr_next q2 = Some next /\ (exists d, d < h /\ In next (lev (sr_stacks q2) d)) /\
       (((forall x, ~ C x) /\ next = si_state q /\ In next (lev (sr_stacks q2) 0)) \/
        (C next /\ forall y dx dy, C y -> set_dist offw (gset (gidx q)) next dx -> set_dist offw (gset (gidx q)) y dy -> (dx <= dy)%Z))).
    { destruct Sel as [(Hn & Ex & _)|(x & Hx & Ex & Hmin & _)].
      - destruct (qi_next _ Hq) as [(N1 & N2 & N3)|(N1 & N2)].
        + exfalso. destruct (Hforce (si_state q) e) as (y & Hy); auto.
          assert (Hmn : mem = []).
          { unfold mem. destruct HM as [E | E]; rewrite E; [auto|rewrite N3; auto]. }
          apply (Hn y). split; [|rewrite Hmn; intros []].
          exists 0. split; [lia|]. split; [rewrite Z2; apply L1; auto|]. intros i _. rewrite N2. intros [].
        + exists (si_state q). assert (Hin2 : In (si_state q) (lev (sr_stacks q2) 0)) by (apply Gr2; auto).
          split; [congruence|]. split; [exists 0; split; [lia|auto]|]. left. auto.
      - exists x. split; auto. split.
        { destruct (proj1 Hx) as (d & Hd & Hxd & _). eauto. }
        right. split; auto. intros y dx dy Hy Hdx Hdy.
        assert (HG : forall s, goalset ne ns goalW s <-> gset (gidx q) s).
        { intros s. unfold goalset, in_set, gset. fold n g. split.
          - intros [H1 H2]. change (evS (ne + ns)) with den in H2. unfold OpsProofs.den in HgW. fold n in HgW.
            rewrite HgW in H2 by auto. apply andb_true_iff in H2. tauto.
          - intros (H1 & H2 & H3). split; auto. unfold OpsProofs.den in HgW. fold n in HgW. change (evS (ne + ns)) with den.
            rewrite HgW by auto. rewrite H2, H3. auto. }
        assert (HS : forall z d, set_dist offw (gset (gidx q)) z d -> set_dist offw (goalset ne ns goalW) z d).
        { intros z d [(s & Hs & Hd) Hle]. split; [exists s; split; auto; apply HG; auto|].
          intros s' Hs'. apply Hle. apply HG. auto. }
        destruct Hmin as [M1 M2].
        { destruct Hdx as [(s & Hs & _) _]. exists s. apply HG. auto. }
        rewrite (set_dist_fun ne ns offw goalW x dx (sr_min q2)); auto. eapply M2; eauto. }
    destruct Hsel as (next & En & Hin0 & Hcase). rewrite En.
    assert (Hd0 : exists d, d < h /\ In next (lev (sr_stacks q2) d) /\ (C next -> forall i, i <= d -> ~ In next (lev (si_stacks q) i))).
    { destruct Hcase as [(H1 & _)|(((d & Hd & Hd1 & Hd2) & _) & _)]; [|exists d; auto].
      destruct Hin0 as (d & Hd & Hx). exists d. split; auto. split; auto. intros H. destruct (H1 _ H). }
    destruct Hd0 as (d & Hd & Hnd & Hnew).
    destruct (backtrack_ok (sr_stacks q2) next d Ok2 K2 Hd Hnd) as (to & j & Eb & Hto & Hj & Hps & Hsame & Hold).
    rewrite Eb.
    destruct (qi_play _ Hq) as (a & rest & Ep).
    unfold append_anode_trans, insert_anode. cbn [find_anode amode astate].
    assert (Hz : (Z.of_nat (S (si_it q)) =? Z.of_nat (si_it q))%Z = false) by (apply Z.eqb_neq; lia).
    rewrite Hz. cbn [andb].
    assert (Ef : find_anode (si_play q) (Z.of_nat (si_it q)) (si_state q) =
                 Some (Node a false (si_state q) (Z.of_nat (si_it q)) (-1) [])).
    { rewrite Ep. cbn [find_anode amode astate]. rewrite Z.eqb_refl, statecmp_refl. reflexivity. }
    rewrite Ef.
    rewrite Z.eqb_refl, statecmp_refl. cbn [andb bind fst snd aid].
    eexists e, next, _. split; [reflexivity|].
    destruct (so_bits _ _ _ _ _ Ok2 _ _ Hto) as [Hbto HWto].
    split.
    - constructor; cbn [si_state si_stacks si_goal si_mem si_next si_play si_it]; auto.
      + intros k l' Hkl. apply mem_add_key in Hkl. destruct Hkl as [-> | (l2 & Hkl)]; auto.
        destruct HM as [E | E]; rewrite E in Hkl; [destruct Hkl|]. eapply (qi_keys _ Hq); eauto.
      + intros k l' Hkl x Hx. destruct (mem_add_in M (si_state q) next k l' Hkl x Hx) as [->|(k' & l2 & H1 & H2)]; eauto.
        destruct HM as [E | E]; rewrite E in H1; [destruct H1|]. destruct (qi_mem _ Hq k' l2 H1 x H2) as (d' & H3 & H4). eauto.
      + assert (Na : (alloc (S (si_it q)) (si_play q) =? a) = false).
        { apply Nat.eqb_neq. intros Eq. apply (Halloc (S (si_it q)) (si_play q)). rewrite Eq, Ep. left. reflexivity. }
        eexists _, _. cbn [store map aid]. rewrite Na. reflexivity.
    - constructor; cbn [si_state si_stacks si_goal si_mem si_next si_play si_it]; auto.
      + intros x. rewrite Z2. apply L1.
      + cbn zeta. fold M mem. fold C. destruct Hcase as [(H1 & H2 & H3)|(H1 & H2)].
        * left. split; auto. split; auto. rewrite <- H2. auto.
        * right. split; auto. split; [|split; [eauto|split; auto]].
          pose proof Hto as Hto'. rewrite Z2 in Hto'. apply L1 in Hto'. destruct Hto' as [Hto'|Hto']; auto.
          exfalso. apply (Hold (si_stacks q)); auto. apply Hq.
      + intros a' rest' Ep'. rewrite Ep in Ep'. injection Ep' as <- <-. reflexivity.
  Qed.

  (** ** All iterations *)
  Variable s0 : vec.
  Hypothesis Hs0 : bitvec n s0.
  Hypothesis HW0 : den W s0 = true.
  (** the environment can always move *)
  Hypothesis Hmoves : forall s, bitvec n s -> den W s = true -> exists e, mv s e.

  Lemma start_ok : forall t, qinv (sim_start alloc h t s0).
  Proof.
    intros t.
    assert (Hl : forall d, lev (repeat [] h) d = []).
    { intros d. unfold lev. destruct (Nat.lt_ge_cases d h) as [H|H].
      - apply nth_repeat.
      - apply nth_overflow. rewrite repeat_length. auto. }
    constructor; cbn [sim_start si_state si_stacks si_goal si_mem si_next si_play si_it]; auto.
    - constructor.
      + apply repeat_length.
      + intros d x. rewrite Hl. intros [].
      + intros d. rewrite Hl. constructor.
    - intros d x. rewrite Hl. intros [].
    - intros j p x _ Hp. rewrite Hl in Hp. destruct Hp.
    - destruct sgoals; [congruence|]. cbn. lia.
    - intros k l [].
    - intros k l [].
    - eexists _, _. reflexivity.
  Qed.
  Lemma loop_ok : forall k q, qinv q -> exists (f : nat -> simst) (e a : nat -> vec), f 0 = q /\
    (forall i, i <= k -> qinv (f i)) /\ (forall i, i < k -> srel (f i) (e i) (a i) (f (S i))) /\
    sim_loop ne ns orc fuel rand alloc W et st sgoals offw h k q = Ok (Some (si_play (f k))).
  Proof.
    induction k; intros q Hq; cbn [sim_loop].
    - exists (fun _ => q), (fun _ => []), (fun _ => []). split; auto. split; auto. split; auto. intros i Hi. lia.
    - destruct (step_ok q Hq (Hmoves _ (qi_bits _ Hq) (qi_win _ Hq))) as (e0 & a0 & q' & E & Hq' & R).
      destruct (IHk q' Hq') as (f & e & a & F0 & F1 & F2 & F3).
      exists (fun i => match i with O => q | S i' => f i' end), (fun i => match i with O => e0 | S i' => e i' end),
        (fun i => match i with O => a0 | S i' => a i' end).
      split; auto. split; [intros [|i] Hi; auto; apply F1; lia|]. split.
      + intros [|i] Hi; [rewrite F0; auto|]. apply F2. lia.
      + rewrite E. cbn [bind]. exact F3.
  Qed.

  Section Run.
    Variables (k t : nat) (f : nat -> simst) (e a : nat -> vec).
    Hypothesis F0 : f 0 = sim_start alloc h t s0.
    Hypothesis F1 : forall i, i <= k -> qinv (f i).
    Hypothesis F2 : forall i, i < k -> srel (f i) (e i) (a i) (f (S i)).
    Let s (i : nat) := si_state (f i).

    Lemma run_it : forall i, i <= k -> si_it (f i) = i.
    Proof. induction i; intros Hi; [rewrite F0; auto|]. rewrite (sl_it _ _ _ _ (F2 i ltac:(lia))), IHi; lia. Qed.
    Lemma start_lev : forall d, lev (si_stacks (f 0)) d = [].
    Proof.
      intros d. rewrite F0. cbn. unfold lev. destruct (Nat.lt_ge_cases d h) as [H|H].
      - apply nth_repeat.
      - apply nth_overflow. rewrite repeat_length. auto.
    Qed.
    Lemma run_lev0 : forall i, i <= k -> forall x,
      In x (lev (si_stacks (f i)) 0) <-> exists j, j < i /\ ans (s j) (e j) x.
    Proof.
      induction i; intros Hi x.
      - rewrite start_lev. split; [intros []|]. intros (j & Hj & _). lia.
      - rewrite (sl_lev0 _ _ _ _ (F2 i ltac:(lia))), (IHi ltac:(lia)). split.
        + intros [(j & Hj & H)|H]; [exists j|exists i]; split; auto; lia.
        + intros (j & Hj & H). destruct (Nat.eq_dec j i) as [-> |]; auto. left. exists j. split; auto. lia.
    Qed.
    (** the goal is reached *)
    Let reached (i : nat) : bool := den (nth (si_goal (f i)) sgoals z0) (s i).
    (** what the search has aimed at from this state *)
    Lemma run_mem : forall i, i <= k -> forall y x, bitvec n y ->
      (In x (mem_of (si_mem (f i)) y) <->
       exists j, j < i /\ s j = y /\ a j = x /\ forall l, j < l < i -> reached l = false).
    Proof.
      induction i; intros Hi y x Hy.
      - rewrite F0. cbn. split; [intros []|]. intros (j & Hj & _). lia.
      - pose proof (F2 i ltac:(lia)) as R. pose proof (F1 i ltac:(lia)) as Q.
        rewrite (sl_mem _ _ _ _ R), mem_of_add; auto; [| |apply Q].
        2:{ unfold memq. intros k' l H. destruct (den (nth (si_goal (f i)) sgoals z0) (si_state (f i))); [destruct H|]. eapply (qi_keys _ Q); eauto. }
        unfold memq. fold (s i). fold (reached i).
        split.
        + intros [H|(H1 & ->)].
          * destruct (reached i) eqn:E; [destruct H|]. apply IHi in H; auto; [|lia].
            destruct H as (j & Hj & H1 & H2 & H3). exists j. split; [lia|]. split; auto. split; auto.
            intros l Hl. destruct (Nat.eq_dec l i) as [-> |]; auto. apply H3. lia.
          * exists i. split; [lia|]. split; auto. split; auto. intros l Hl. lia.
        + intros (j & Hj & H1 & H2 & H3). destruct (Nat.eq_dec j i) as [-> |Hji]; [right; auto|]. left.
          rewrite (H3 i) by lia. apply IHi; auto; [lia|]. exists j. split; [lia|]. split; auto. split; auto.
          intros l Hl. apply H3. lia.
    Qed.
    Lemma run_memq : forall i, i < k -> forall x,
      (In x (mem_of (memq (f i)) (s i)) <->
       exists j, j < i /\ s j = s i /\ a j = x /\ forall l, j < l <= i -> reached l = false).
    Proof.
      intros i Hi x. unfold memq. fold (s i). fold (reached i). destruct (reached i) eqn:E.
      - split; [intros []|]. intros (j & Hj & _ & _ & H). rewrite H in E by lia. discriminate.
      - rewrite run_mem by (try lia; apply (F1 i); lia). split; intros (j & Hj & H1 & H2 & H3); exists j;
          (split; [auto|]); (split; [auto|]); (split; [auto|]); intros l Hl.
        + destruct (Nat.eq_dec l i) as [-> |]; auto. apply H3. lia.
        + apply H3. lia.
    Qed.
    Lemma reach_cover : forall stacks, covered ne ns W et st (h - 1) stacks ->
      forall j x y i, In x (lev stacks i) -> psteps j x y -> i + j < h -> exists d, d <= i + j /\ In y (lev stacks d).
    Proof.
      intros stacks Hc. induction j; intros x y i Hx Hp Hij; cbn in Hp.
      - subst. exists i. split; auto. lia.
      - destruct Hp as (z & Hz & Hp). destruct (Hc i x z) as (i' & Hi' & Hz'); auto; [lia|].
        destruct (IHj z y i') as (d & Hd & Hy); auto; [lia|]. exists d. split; auto. lia.
    Qed.
    Lemma link_down : forall stacks, linked stacks -> forall d x, In x (lev stacks d) ->
      exists z, In z (lev stacks 0) /\ psteps d z x.
    Proof.
      intros stacks Hl. induction d; intros x Hx; [exists x; split; cbn; auto|].
      destruct (Hl d x Hx) as (p & Hp & Hs). destruct (IHd p Hp) as (z & Hz & Hps). exists z. split; auto.
      apply psteps_snoc with p; auto.
    Qed.
    (** the states in the lists up to [d] *)
    Definition within (i d : nat) (x : vec) : Prop :=
      exists j z m', j < i /\ ans (s j) (e j) z /\ m' <= d /\ psteps m' z x.
    Lemma run_upto : forall i d x, i <= k -> d < h ->
      ((exists d', d' <= d /\ In x (lev (si_stacks (f i)) d')) <-> within i d x).
    Proof.
      intros i d x Hi Hd. split.
      - intros (d' & Hd' & Hx). destruct (link_down _ (qi_link _ (F1 i Hi)) d' x Hx) as (z & Hz & Hp).
        apply run_lev0 in Hz; auto. destruct Hz as (j & Hj & Ha). exists j, z, d'. auto.
      - intros (j & z & d' & Hj & Ha & Hd' & Hp).
        assert (Hz : In z (lev (si_stacks (f i)) 0)) by (apply run_lev0; eauto).
        destruct (reach_cover _ (qi_cover _ (F1 i Hi)) d' z x 0 Hz Hp) as (d0 & H0 & Hx); [lia|].
        exists d0. split; auto. lia.
    Qed.
    Lemma run_new : forall i x, i < k ->
      (New (si_stacks (f i)) (si_stacks (f (S i))) x <-> exists d, d < h /\ within (S i) d x /\ ~ within i d x).
    Proof.
      intros i x Hi. split.
      - intros (d & Hd & H1 & H2). exists d. split; auto. rewrite <- !run_upto by lia. split; eauto.
        intros (d' & Hd' & Hx). apply (H2 d'); auto.
      - intros (d & Hd & H1 & H2). rewrite <- run_upto in H1, H2 by lia. destruct H1 as (d' & Hd' & Hx).
        exists d'. split; [lia|]. split; auto. intros i' Hi' Hx'. apply H2. exists i'. split; auto. lia.
    Qed.
    (** one step *)
    Definition cand (i : nat) (x : vec) : Prop :=
      (exists d, d < h /\ within (S i) d x /\ ~ within i d x) /\
      ~ exists j, j < i /\ s j = s i /\ a j = x /\ forall l, j < l <= i -> reached l = false.
    Lemma run_step : forall i, i < k ->
      ((forall x, ~ cand i x) /\ a i = s i /\ s (S i) = s i) \/
      (cand i (a i) /\ ans (s i) (e i) (s (S i)) /\ (exists j, j < h /\ psteps j (s (S i)) (a i)) /\
       forall y dx dy, cand i y -> set_dist offw (gset (gidx (f i))) (a i) dx ->
         set_dist offw (gset (gidx (f i))) y dy -> (dx <= dy)%Z).
    Proof.
      intros i Hi. pose proof (sl_sel _ _ _ _ (F2 i Hi)) as Hs. cbn zeta in Hs.
      assert (HC : forall x, cand i x <-> New (si_stacks (f i)) (si_stacks (f (S i))) x /\ ~ In x (mem_of (memq (f i)) (s i))).
      { intros x. unfold cand. rewrite run_new, run_memq by auto. reflexivity. }
      destruct Hs as [(H1 & H2 & H3)|(H1 & H2 & H3 & _ & H4)].
      - left. split; auto. intros x Hx. apply (H1 x). apply HC. auto.
      - right. split; [apply HC; auto|]. split; auto. split; auto. intros y dx dy Hy. apply H4. apply HC. auto.
    Qed.
    (** with horizon 1 *)
    Lemma run_one : h = 1 -> forall i, i < k ->
      let C := fun x => ans (s i) (e i) x /\ forall j, j < i -> ~ ans (s j) (e j) x in
      ((forall x, ~ C x) /\ s (S i) = s i) \/
      (C (s (S i)) /\ forall y dx dy, C y -> set_dist offw (gset (gidx (f i))) (s (S i)) dx ->
         set_dist offw (gset (gidx (f i))) y dy -> (dx <= dy)%Z).
    Proof.
      intros E1 i Hi C. pose proof (sl_sel _ _ _ _ (F2 i Hi)) as Hs. cbn zeta in Hs.
      assert (Hm : mem_in (si_stacks (f i)) (mem_of (memq (f i)) (si_state (f i)))).
      { intros x Hx. apply mem_of_in in Hx. destruct Hx as (k' & l & H1 & H2). unfold memq in H1.
        destruct (den (nth (si_goal (f i)) sgoals z0) (si_state (f i))); [destruct H1|]. eapply (qi_mem _ (F1 i ltac:(lia))); eauto. }
      assert (HC : forall x, C x <-> New (si_stacks (f i)) (si_stacks (f (S i))) x /\ ~ In x (mem_of (memq (f i)) (si_state (f i)))).
      { intros x. unfold C. split.
        - intros (H1 & H2).
          assert (Ho : ~ In x (lev (si_stacks (f i)) 0)).
          { rewrite run_lev0 by lia. intros (j & Hj & H). apply (H2 j Hj H). }
          split.
          + exists 0. split; [lia|]. split; [apply (sl_lev0 _ _ _ _ (F2 i Hi)); auto|].
            intros i' Hi'. replace i' with 0 by lia. auto.
          + intros Hx. destruct (Hm x Hx) as (d & Hd & Hx'). replace d with 0 in Hx' by lia. contradiction.
        - intros ((d & Hd & H1 & H2) & _). replace d with 0 in * by lia. specialize (H2 0 (le_n _)).
          apply (sl_lev0 _ _ _ _ (F2 i Hi)) in H1. destruct H1 as [H1|H1]; [contradiction|]. split; auto.
          intros j Hj H. apply H2. apply run_lev0; [lia|]. eauto. }
      destruct Hs as [(H1 & _ & H2)|(H1 & H2 & H3 & H4 & H5)].
      - left. split; auto. intros x Hx. apply (H1 x). apply HC. auto.
      - right. assert (Ex : s (S i) = a i).
        { apply H4. destruct H1 as ((d & Hd & Hx & _) & _). replace d with 0 in Hx by lia. auto. }
        rewrite Ex. split; [apply HC; auto|]. intros y dx dy Hy. apply H5. apply HC. auto.
    Qed.
    (** the number of states in the lists *)
    Fixpoint moved (i : nat) : nat :=
      match i with
      | O => 0
      | S i' => moved i' + if list_eq_dec Z.eq_dec (s (S i')) (s i') then 0 else 1
      end.
    Lemma run_total : forall i, i <= k -> moved i <= total (si_stacks (f i)).
    Proof.
      induction i; intros Hi; cbn [moved]; [lia|].
      assert (Hk : i < k) by lia. specialize (IHi ltac:(lia)). pose proof (F2 i Hk) as R.
      pose proof (qi_ok _ (F1 i ltac:(lia))) as O1. pose proof (qi_ok _ (F1 (S i) Hi)) as O2.
      assert (Hle : forall d, List.length (lev (si_stacks (f i)) d) <= List.length (lev (si_stacks (f (S i))) d)).
      { intros d. apply NoDup_incl_length; [apply (so_nodup _ _ _ _ _ O1)|]. intros x. apply (sl_grown _ _ _ _ R). }
      rewrite !total_levs in *. rewrite (so_len _ _ _ _ _ O1) in IHi. rewrite (so_len _ _ _ _ _ O2).
      destruct (list_eq_dec Z.eq_dec (s (S i)) (s i)) as [E|E].
      - eapply Nat.le_trans; [|apply sum_le; intros d _; apply Hle]. lia.
      - destruct (sl_sel _ _ _ _ R) as [(_ & _ & Hs)|(((d & Hd & Hx & Hn) & _) & _)]; [contradiction|].
        specialize (Hn d (le_n _)). set (x := a i) in *.
        eapply Nat.le_trans; [|apply (sum_lt (fun d => List.length (lev (si_stacks (f i)) d)) _ _ d); auto].
        + lia.
        + apply in_seq. lia.
        + apply (NoDup_incl_length (l := x :: lev (si_stacks (f i)) d)).
          * constructor; auto. apply (so_nodup _ _ _ _ _ O1).
          * intros y [<- | Hy]; auto. apply (sl_grown _ _ _ _ R). auto.
    Qed.
    Lemma run_moved : moved k <= h * 2 ^ n.
    Proof.
      eapply Nat.le_trans; [apply run_total; lia|].
      pose proof (qi_ok _ (F1 k (le_n _))) as O. rewrite total_levs, (so_len _ _ _ _ _ O).
      eapply Nat.le_trans; [apply (sum_const _ (2 ^ n))|rewrite seq_length; lia].
      intros d _. apply NoDup_bits_length; [apply (so_nodup _ _ _ _ _ O)|].
      apply Forall_forall. intros x Hx. eapply (so_bits _ _ _ _ _ O); eauto.
    Qed.

    (** the play *)
    Definition path (ids : nat -> nat) (j : nat) : aut :=
      map (fun i => Node (ids i) false (s i) (Z.of_nat i) (-1) (if i <? j then [ids (S i)] else [])) (rev (seq 0 (S j))).
    Lemma path_S : forall ids j, path ids j = Node (ids j) false (s j) (Z.of_nat j) (-1) [] ::
      map (fun i => Node (ids i) false (s i) (Z.of_nat i) (-1) [ids (S i)]) (rev (seq 0 j)).
    Proof.
      intros ids j. unfold path. rewrite seq_S, rev_app_distr. cbn [rev app map Nat.add]. rewrite Nat.ltb_irrefl. f_equal.
      apply map_ext_in. intros i Hi. apply in_rev, in_seq in Hi. destruct (Nat.ltb_spec i j); [auto|lia].
    Qed.
    Lemma path_ids : forall ids j i, i <= j -> In (ids i) (map aid (path ids j)).
    Proof.
      intros ids j i Hi. unfold path. rewrite map_map. cbn [aid]. apply in_map. apply -> in_rev. apply in_seq. lia.
    Qed.
    Lemma run_play : forall j, j <= k -> exists ids, (forall a b, a <= j -> b <= j -> ids a = ids b -> a = b) /\
      si_play (f j) = path ids j.
    Proof.
      induction j; intros Hj.
      - exists (fun _ => alloc 0 []). split; [intros; lia|]. rewrite path_S. unfold s. rewrite F0. reflexivity.
      - destruct (IHj ltac:(lia)) as (ids & Hinj & Ep). pose proof (F2 j ltac:(lia)) as R.
        set (new := alloc (S j) (si_play (f j))).
        assert (Hnew : forall i, i <= j -> ids i <> new).
        { intros i Hi E. apply (Halloc (S j) (si_play (f j))). fold new. rewrite <- E, Ep. apply path_ids. auto. }
        exists (fun i => if i =? S j then new else ids i). split.
        + intros a0 b Ha Hb. destruct (Nat.eqb_spec a0 (S j)) as [-> |Na], (Nat.eqb_spec b (S j)) as [-> |Nb]; auto.
          * intros E. exfalso. apply (Hnew b); [lia|auto].
          * intros E. exfalso. apply (Hnew a0); [lia|auto].
          * intros E. apply Hinj; auto; lia.
        + pose proof (sl_play _ _ _ _ R) as P. rewrite (run_it j) in P by lia.
          specialize (P (ids j) (map (fun i => Node (ids i) false (s i) (Z.of_nat i) (-1) [ids (S i)]) (rev (seq 0 j)))).
          rewrite P by (rewrite Ep, path_S; reflexivity). clear P. fold new. rewrite path_S.
          cbn [store map aid]. rewrite (proj2 (Nat.eqb_neq new (ids j))) by (intros E; apply (Hnew j); auto).
          rewrite Nat.eqb_refl. f_equal. rewrite Ep, path_S. rewrite seq_S, rev_app_distr.
          cbn [rev app map aid Nat.add]. rewrite Nat.eqb_refl.
          destruct (Nat.eqb_spec j (S j)) as [|_]; [lia|]. unfold Automaton.set_trans. cbn [aid ainit astate amode argrad atrans app].
          rewrite Nat.eqb_refl. f_equal.
          rewrite map_map. apply map_ext_in. intros i Hi. apply in_rev, in_seq in Hi. cbn [aid].
          destruct (Nat.eqb_spec (ids i) (ids j)) as [E|_]; [apply Hinj in E; lia|].
          destruct (Nat.eqb_spec i (S j)) as [|_]; [lia|]. destruct (Nat.eqb_spec (S i) (S j)) as [|_]; [lia|]. reflexivity.
    Qed.
  End Run.
End Loop.
