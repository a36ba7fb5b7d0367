(** rm_sysgoal in closed form, continued: connecting the two strategies. *)
From Coq Require Import List ZArith Lia Bool Arith.
From Verif Require Import Base Bdd Support SupportProofs Ops Strs Ptree Solve Automaton AutProofs Synth Reach Nonbool AutIO
  Hotswap HotProofs.
Import ListNotations.
Open Scope nat_scope.


Lemma find_map_state : forall (f : anode -> anode) u S, (forall s, astate (f s) = astate s) ->
  with_state u (map f S) = option_map f (with_state u S).
Proof.
  intros f u S Hf. unfold with_state. induction S as [|s S IH]; auto. cbn. rewrite Hf.
  destruct (statecmp u (astate s)); auto.
Qed.

Section Connect.
  Variables (A S0 : aut) (n : nat).
  Hypothesis HndA : NoDup (ids A).
  Hypothesis HndS : NoDup (ids S0).
  Hypothesis HcS : closed S0.
  Hypothesis Hdis : forall a, In a (ids A) -> ~ In a (ids S0).
  Hypothesis HlA : forall x, In x A -> length (astate x) = n.
  Hypothesis HlS : forall s, In s S0 -> length (astate s) = n.
  (** the substrategy after the first loop: only the initial marks change *)
  Definition marked (i : anode -> bool) : aut := map (fun s => set_init (i s) s) S0.
  (** the pairs of a substitution lead from the one strategy to the other *)
  Definition crosses (m : smap) : Prop := forall a v, In (a, v) m ->
    In a (ids A) /\ match v with None => True | Some b => In b (ids S0) end.
  Lemma crosses_fresh : forall m a, crosses m -> In a (ids A) -> forall t b, In (t, Some b) m -> b <> a.
  Proof. intros m a Hm Ha t b Hi ->. destruct (Hm _ _ Hi) as (_ & Hb). exact (Hdis a Ha Hb). Qed.
  Lemma crosses_app : forall m m', crosses m -> crosses m' -> crosses (m ++ m').
  Proof. intros m m' H H' a v Hi. apply in_app_or in Hi. destruct Hi; auto. Qed.

  Lemma entry_ok : forall l m i A1 S1, crosses m ->
    connect_entry l (map (ren m) A) (marked i) = Ok (Some (A1, S1)) ->
    exists m1 i1, A1 = map (ren (m ++ m1)) A /\ S1 = marked i1 /\ map fst m1 = l /\
      (forall a v, In (a, v) m1 -> exists x s, In x A /\ aid x = a /\ In s S0 /\ v = Some (aid s) /\
         astate s = astate x) /\
      (forall s, In s S0 -> i1 s = true -> i s = true \/
         exists x, In x A /\ In (aid x) l /\ astate x = astate s /\ ainit x = true).
  Proof.
    induction l as [|a l IH]; intros m i A1 S1 Hm H; cbn [connect_entry] in H.
    - injection H as <- <-. exists [], i. rewrite app_nil_r. repeat split; auto. intros a v [].
    - rewrite deref_map in H by reflexivity. destruct (deref A a) as [x|] eqn:Ex; cbn [option_map] in H; [|discriminate].
      destruct (deref_In _ _ _ Ex) as (Hx & Ea). unfold marked in H at 1.
      rewrite find_map_state in H by reflexivity. cbn [astate ren set_trans] in H.
      destruct (with_state (astate x) S0) as [s|] eqn:Es; cbn [option_map] in H; [|discriminate].
      unfold with_state in Es. apply find_some in Es. destruct Es as (Hs & Es).
      assert (Est : astate s = astate x).
      { symmetry. apply statecmp_spec; auto. rewrite HlA, HlS; auto. }
      cbn [aid set_init] in H.
      assert (Ha : In a (ids A)) by (rewrite <- Ea; apply in_map; auto).
      rewrite replace_ren in H by (apply crosses_fresh; auto).
      unfold marked in H. rewrite store_map in H by reflexivity.
      assert (Em : map (fun x0 => if aid x0 =? aid s then set_init (ainit (ren m x)) (set_init (i x0) x0) else set_init (i x0) x0) S0 =
        marked (fun z => if aid z =? aid s then ainit x else i z)).
      { unfold marked. apply map_ext. intros z. destruct (aid z =? aid s); reflexivity. }
      assert (Hm' : crosses [(a, Some (aid s))]).
      { intros a' v [E|[]]. injection E as <- <-. split; auto. apply in_map. auto. }
      rewrite Em in H. destruct (IH _ _ _ _ (crosses_app _ _ Hm Hm') H) as (m1 & i1 & H1 & H2 & H3 & H4 & H5).
      exists ((a, Some (aid s)) :: m1), i1. rewrite <- app_assoc in H1. split; [exact H1|]. split; auto.
      split; [cbn; f_equal; auto|]. split.
      + intros a' v [E|Hi]; [|auto]. injection E as <- <-. exists x, s. auto.
      + intros z Hz Hi. destruct (H5 z Hz Hi) as [K|(x' & K1 & K2 & K3)].
        * destruct (Nat.eqb_spec (aid z) (aid s)) as [E|E]; auto. right. exists x.
          assert (z = s) by (apply (node_unique S0); auto). subst z. split; auto. split; [left; auto|]. auto.
        * right. exists x'. split; auto. split; [right; auto|]. auto.
  Qed.

  (** ** The second loop *)
  Variable S1 : aut.
  Hypothesis HS1 : exists i, S1 = marked i.
  Variable Exit : list nat.
  Hypothesis HExA : forall a, In a Exit -> In a (ids A).
  Hypothesis HndE : NoDup Exit.
  Variable m1 : smap.
  Hypothesis Hm1 : crosses m1.

  Definition pairs := list (nat * nat).
  Definition lift (M : pairs) : smap := map (fun p => (fst p, Some (snd p))) M.
  Definition partner (M : pairs) (s : anode) : option nat :=
    option_map fst (find (fun p => snd p =? aid s) M).
  (** a node of the substrategy, after taking over an Exit node *)
  Definition fin (m : smap) (M : pairs) (s : anode) : anode :=
    match partner M s with
    | None => s
    | Some a => match deref A a with
                | None => s
                | Some x => Node (aid s) (ainit x) (astate s) (amode x) (argrad x) (sub_tr m (atrans x))
                end
    end.
  Definition unmerged (M : pairs) (x : anode) : bool := negb (memb (aid x) (map fst M)).
  Definition left_over (M : pairs) : list (option nat) :=
    map (fun a => if memb a (map fst M) then None else Some a) Exit.
  Lemma fin_aid : forall m M s, aid (fin m M s) = aid s.
  Proof. intros m M s. unfold fin. destruct (partner M s) as [a|]; auto. destruct (deref A a); auto. Qed.
  Lemma fin_state : forall m M s, astate (fin m M s) = astate s.
  Proof. intros m M s. unfold fin. destruct (partner M s) as [a|]; auto. destruct (deref A a); auto. Qed.
  Lemma partner_None : forall M s, ~ In (aid s) (map snd M) -> partner M s = None.
  Proof.
    intros M s H. unfold partner. destruct (find (fun p => snd p =? aid s) M) as [p|] eqn:E; auto.
    apply find_some in E. destruct E as (Hp & E). apply Nat.eqb_eq in E. exfalso. apply H. rewrite <- E.
    apply in_map. auto.
  Qed.
  Lemma partner_Some : forall M s a, partner M s = Some a -> In (a, aid s) M.
  Proof.
    intros M s a H. unfold partner in H. destruct (find (fun p => snd p =? aid s) M) as [(a', b)|] eqn:E; [|discriminate].
    apply find_some in E. destruct E as (Hp & E). apply Nat.eqb_eq in E. cbn in *. injection H as <-. subst b. auto.
  Qed.
  Lemma partner_In : forall M s a, NoDup (map snd M) -> In (a, aid s) M -> partner M s = Some a.
  Proof.
    intros M s a HM Hi. unfold partner. induction M as [|(a', b) M IH]; [destruct Hi|].
    cbn in HM. inversion HM as [|? ? Hni HM']; subst. cbn. destruct (Nat.eqb_spec b (aid s)) as [E|E].
    - cbn. destruct Hi as [Hi|Hi]; [congruence|]. exfalso. apply Hni. rewrite E. apply in_map_iff. exists (a, aid s). auto.
    - destruct Hi as [Hi|Hi]; [congruence|]. apply IH; auto.
  Qed.
  Lemma ids_S1 : ids S1 = ids S0.
  Proof. destruct HS1 as (i & ->). unfold marked, ids. rewrite map_map. reflexivity. Qed.
  Lemma S1_In : forall s, In s S1 -> exists s0, In s0 S0 /\ aid s = aid s0 /\ astate s = astate s0 /\ atrans s = atrans s0 /\
    amode s = amode s0 /\ argrad s = argrad s0.
  Proof.
    destruct HS1 as (i & ->). intros s Hs. unfold marked in Hs. apply in_map_iff in Hs. destruct Hs as (s0 & <- & H0).
    exists s0. repeat split; auto.
  Qed.
  Lemma S1_trans : forall s t, In s S1 -> In t (atrans s) -> In t (ids S0).
  Proof. intros s t Hs Ht. destruct (S1_In s Hs) as (s0 & H0 & _ & _ & E & _). apply (HcS s0); auto. congruence. Qed.

  Lemma match_ok : forall M m E s x E', match_exit (map (ren m) (filter (unmerged M) A))
      (map (fun a => if memb a (map fst M) then None else Some a) E) s = Ok (Some (x, E')) ->
    NoDup E -> length s = n ->
    exists x0, In x0 A /\ x = ren m x0 /\ In (aid x0) E /\ ~ In (aid x0) (map fst M) /\ astate x0 = s /\
      forall b, E' = map (fun a => if memb a (map fst (M ++ [(aid x0, b)])) then None else Some a) E.
  Proof.
    intros M m E s x E' H HE Hls. revert E' H. induction E as [|a E IH]; intros E' H; cbn [map match_exit] in H; [discriminate|].
    inversion HE as [|? ? Hni HE']; subst.
    destruct (memb a (map fst M)) eqn:Ea.
    - destruct (match_exit _ _ s) as [[(x1, r)|]| |] eqn:Em; cbn [bind] in H; try discriminate. injection H as <- <-.
      destruct (IH HE' r eq_refl) as (x0 & H0 & H1 & H2 & H3 & H4 & H5). exists x0. split; auto. split; auto.
      split; [right; auto|]. split; auto. split; auto. intros b. cbn [map]. rewrite <- H5. f_equal.
      rewrite map_app, (proj2 (memb_In a _)); auto. apply in_or_app. left. apply memb_In; auto.
    - rewrite deref_map in H by reflexivity. rewrite deref_filter in H by auto.
      destruct (deref A a) as [x1|] eqn:Ex1; cbn [option_map] in H; [|discriminate].
      destruct (deref_In _ _ _ Ex1) as (Hx1 & Eid).
      destruct (unmerged M x1) eqn:Eu; cbn [option_map] in H; [|discriminate].
      cbn [astate ren set_trans] in H. destruct (statecmp s (astate x1)) eqn:Es.
      + injection H as <- <-. apply statecmp_spec in Es; [|rewrite HlA; auto].
        exists x1. split; auto. split; auto. split; [left; auto|]. split; [rewrite Eid; apply memb_false; auto|]. split; auto.
        intros b. cbn [map]. f_equal.
        * rewrite map_app, (proj2 (memb_In a _)); auto. apply in_or_app. right. left. auto.
        * apply map_ext_in. intros c Hc. rewrite map_app. destruct (memb c (map fst M)) eqn:Ec.
          -- rewrite (proj2 (memb_In c _)); auto. apply in_or_app. left. apply memb_In; auto.
          -- rewrite (proj2 (memb_false c _)); auto. rewrite in_app_iff. apply memb_false in Ec. cbn. intros [|[|[]]]; auto.
             congruence.
      + destruct (match_exit _ _ s) as [[(x2, r)|]| |] eqn:Em; cbn [bind] in H; try discriminate. injection H as <- <-.
        destruct (IH HE' r eq_refl) as (x0 & H0 & H1 & H2 & H3 & H4 & H5). exists x0. split; auto. split; auto.
        split; [right; auto|]. split; auto. split; auto. intros b. cbn [map]. rewrite <- (H5 b). f_equal.
        rewrite map_app, (proj2 (memb_false a _)); auto. rewrite in_app_iff. apply memb_false in Ea. cbn.
        intros [|[|[]]]; auto. congruence.
  Qed.

  (** what is known about the merged pairs *)
  Record merges (M : pairs) : Prop := {
    mg_fst : NoDup (map fst M);
    mg_snd : NoDup (map snd M);
    mg_pair : forall a b, In (a, b) M -> exists x s, In x A /\ aid x = a /\ In a Exit /\ In s S1 /\ aid s = b /\
      atrans s = [] /\ astate s = astate x
  }.
  Lemma lift_fst : forall M, map fst (lift M) = map fst M.
  Proof. intros M. unfold lift. rewrite map_map. apply map_ext. auto. Qed.
  Lemma lift_app : forall M M', lift (M ++ M') = lift M ++ lift M'.
  Proof. intros. apply map_app. Qed.
  Lemma crosses_lift : forall M, merges M -> crosses (lift M).
  Proof.
    intros M HM a v Hi. unfold lift in Hi. apply in_map_iff in Hi. destruct Hi as ((a', b) & E & Hi). cbn in E. injection E as <- <-.
    destruct (mg_pair M HM a' b Hi) as (x & s & K1 & K2 & K3 & K4 & K5 & _). split; [apply HExA; auto|].
    rewrite <- ids_S1, <- K5. apply in_map. auto.
  Qed.

  (** one node of the substrategy takes over an Exit node *)
  Lemma exit_step : forall M s x E', merges M -> In s S1 -> ~ In (aid s) (map snd M) -> no_trans s = true ->
    match_exit (map (ren (m1 ++ lift M)) (filter (unmerged M) A)) (left_over M) (astate s) = Ok (Some (x, E')) ->
    exists x0, let a := aid x0 in let b := aid s in
      aid x = a /\ E' = left_over (M ++ [(a, b)]) /\ merges (M ++ [(a, b)]) /\
      delete_anode (replace_anode_trans (store (map (ren (m1 ++ lift M)) (filter (unmerged M) A)) a (set_trans [])) a (Some b)) (Some a)
        = map (ren (m1 ++ lift (M ++ [(a, b)]))) (filter (unmerged (M ++ [(a, b)])) A) /\
      replace_anode_trans (store (map (fin (m1 ++ lift M) M) S1) b (take_over x)) a (Some b)
        = map (fin (m1 ++ lift (M ++ [(a, b)])) (M ++ [(a, b)])) S1.
  Proof.
    intros M s x E' HM Hs Hfr Ent Em.
    destruct (S1_In s Hs) as (s0 & Hs0 & Eid0 & Est0 & _). set (b := aid s) in *.
    assert (Hbs : In b (ids S0)) by (rewrite Eid0; apply in_map; auto).
    destruct (match_ok M _ _ _ _ _ Em HndE) as (x0 & Hx0 & -> & Hx0E & Hx0M & Est & HE').
    { rewrite Est0. auto. }
    exists x0. cbn zeta. set (a := aid x0) in *. split; [reflexivity|]. split; [apply HE'|].
    assert (Ha : In a (ids A)) by (apply in_map; auto).
    assert (Htr : atrans s = []).
    { unfold no_trans in Ent. destruct (atrans s); auto. discriminate. }
    assert (HM' : merges (M ++ [(a, b)])).
    { constructor.
      - rewrite map_app. apply NoDup_app; [apply HM|repeat constructor; auto|]. intros c Hc [<-|[]]. auto.
      - rewrite map_app. apply NoDup_app; [apply HM|repeat constructor; auto|]. intros c Hc [<-|[]]. auto.
      - intros a' b' Hi. apply in_app_or in Hi. destruct Hi as [Hi|[E|[]]]; [apply HM; auto|].
        injection E as <- <-. exists x0, s. repeat split; auto. }
    split; auto.
    set (m := m1 ++ lift M) in *.
    assert (Hm : crosses m) by (apply crosses_app; auto using crosses_lift).
    assert (Hm' : m1 ++ lift (M ++ [(a, b)]) = m ++ [(a, Some b)]).
    { unfold m. rewrite lift_app, app_assoc. reflexivity. }
    split.
    { rewrite store_map by reflexivity. unfold replace_anode_trans. rewrite map_map.
      set (g := fun x => set_trans _ _).
      assert (Hg : forall x, aid (g x) = aid x) by (intros x; unfold g; cbn; destruct (aid x =? a); reflexivity).
      rewrite delete_ok.
      - rewrite filter_map. rewrite (filter_ext_In _ _ (fun x => negb (aid x =? a))) by (intros; rewrite Hg; auto).
        rewrite filter_filter. rewrite (filter_ext_In _ _ (unmerged (M ++ [(a, b)]))).
        + apply map_ext_in. intros z Hz. apply filter_In in Hz. destruct Hz as (_ & Hz). unfold g.
          assert (Eza : (aid z =? a) = false).
          { apply Nat.eqb_neq. intros E. unfold unmerged in Hz. apply negb_true_iff, memb_false in Hz. apply Hz.
            rewrite map_app. apply in_or_app. right. left. auto. }
          rewrite Eza. cbn. unfold ren. cbn. unfold set_trans. cbn. rewrite replace_sub by (apply crosses_fresh; auto).
          rewrite Hm'. reflexivity.
        + intros z _. unfold unmerged. rewrite map_app. unfold memb. rewrite existsb_app. cbn.
          rewrite orb_false_r, negb_orb. rewrite andb_comm. auto.
      - unfold ids. rewrite map_map. rewrite (map_ext _ aid) by auto. apply nodup_filter_ids. auto.
      - unfold ids. rewrite map_map. rewrite (map_ext _ aid) by auto. apply in_map. apply filter_In. split; auto.
        unfold unmerged. apply negb_true_iff, memb_false. auto. }
    { rewrite store_map by apply fin_aid. unfold replace_anode_trans. rewrite map_map. apply map_ext_in. intros z Hz.
      rewrite Hm'. destruct (Nat.eqb_spec (aid z) b) as [E|E].
      - assert (z = s).
        { apply (node_unique S1); [rewrite ids_S1; auto|auto|auto|exact E]. }
        subst z. assert (Hp' : partner (M ++ [(a, b)]) s = Some a).
        { apply partner_In; [apply HM'|]. rewrite E. apply in_or_app. right. left. auto. }
        assert (Hf2 : fin (m ++ [(a, Some b)]) (M ++ [(a, b)]) s =
          Node (aid s) (ainit x0) (astate s) (amode x0) (argrad x0) (sub_tr (m ++ [(a, Some b)]) (atrans x0))).
        { unfold fin. rewrite Hp'. unfold a. rewrite (deref_unique A x0 HndA Hx0). reflexivity. }
        rewrite Hf2. unfold set_trans, take_over. cbn. rewrite fin_aid, fin_state. rewrite replace_sub; [reflexivity|].
        apply crosses_fresh; auto.
      - assert (Hp' : partner (M ++ [(a, b)]) z = partner M z).
        { unfold partner. clear - E. induction M as [|(a', b') M IH]; cbn.
          - destruct (Nat.eqb_spec b (aid z)); [congruence|auto].
          - destruct (b' =? aid z); auto. }
        unfold fin. rewrite Hp'. destruct (partner M z) as [c|] eqn:Ec.
        + destruct (deref A c) as [xc|] eqn:Exc.
          * unfold set_trans. cbn. rewrite replace_sub; [reflexivity|]. apply crosses_fresh; auto.
          * apply partner_Some in Ec. destruct (mg_pair M HM _ _ Ec) as (xx & _ & Hxx & Exx & _).
            exfalso. apply deref_None in Exc. apply Exc. rewrite <- Exx. apply in_map. auto.
        + rewrite replace_absent.
          * destruct z; reflexivity.
          * intros Hi. apply (Hdis a Ha). apply (S1_trans z); auto. }
  Qed.
  Lemma exit_ok : forall nodes M A2 S2, merges M ->
    (forall b, In b nodes -> In b (ids S1)) -> NoDup nodes -> (forall b, In b nodes -> ~ In b (map snd M)) ->
    connect_exit nodes (map (ren (m1 ++ lift M)) (filter (unmerged M) A)) (map (fin (m1 ++ lift M) M) S1) (left_over M)
      = Ok (Some (A2, S2)) ->
    exists M', merges (M ++ M') /\
      A2 = map (ren (m1 ++ lift (M ++ M'))) (filter (unmerged (M ++ M')) A) /\
      S2 = map (fin (m1 ++ lift (M ++ M')) (M ++ M')) S1 /\
      (forall s, In s S1 -> In (aid s) nodes -> atrans s = [] -> In (aid s) (map snd (M ++ M'))).
  Proof.
    induction nodes as [|b nodes IH]; intros M A2 S2 HM Hin Hnd Hfr H; cbn [connect_exit] in H.
    - injection H as <- <-. exists []. rewrite app_nil_r. split; auto. split; auto. split; auto. intros s _ [].
    - inversion Hnd as [|? ? Hni Hnd']; subst. rewrite deref_map in H by apply fin_aid.
      destruct (deref_Some S1 b (Hin b (or_introl eq_refl))) as (s & Es). rewrite Es in H. cbn [option_map] in H.
      destruct (deref_In _ _ _ Es) as (Hs & Eb).
      assert (Hps : partner M s = None) by (apply partner_None; rewrite Eb; apply Hfr; left; auto).
      assert (Hfs : fin (m1 ++ lift M) M s = s) by (unfold fin; rewrite Hps; auto). rewrite Hfs in H.
      destruct (S1_In s Hs) as (s0 & Hs0 & Eid0 & Est0 & _).
      assert (Hbs : In b (ids S0)) by (rewrite <- Eb, Eid0; apply in_map; auto).
      destruct (no_trans s) eqn:Ent.
      + destruct (match_exit _ _ (astate s)) as [[(x, E')|]| |] eqn:Em; cbn [bind] in H; try discriminate.
        destruct (exit_step M s x E' HM Hs) as (x0 & Ex0 & HE' & HM' & HA & HS); auto.
        { rewrite Eb. apply Hfr. left. auto. }
        cbn zeta in *. rewrite Eb in *. set (a := aid x0) in *. rewrite Ex0 in H.
        rewrite HA, HS, HE' in H.
        destruct (IH (M ++ [(a, b)]) A2 S2 HM') as (M' & H1 & H2 & H3 & H4).
        * intros c Hc. apply Hin. right; auto.
        * auto.
        * intros c Hc. rewrite map_app, in_app_iff. cbn. intros [K|[K|[]]].
          -- apply (Hfr c); [right; auto|auto].
          -- congruence.
        * exact H.
        * exists ((a, b) :: M'). replace (M ++ (a, b) :: M') with ((M ++ [(a, b)]) ++ M') by (rewrite <- app_assoc; auto).
          split; auto. split; auto. split; auto.
          intros z Hz [Hi|Hi] Ht; [|apply H4; auto]. rewrite !map_app. apply in_or_app. left. apply in_or_app. right. left.
          auto.
      + destruct (IH M A2 S2 HM) as (M' & H1 & H2 & H3 & H4); auto.
        * intros c Hc. apply Hin. right; auto.
        * intros c Hc. apply Hfr. right; auto.
        * exists M'. split; auto. split; auto. split; auto. intros z Hz [Hi|Hi] Ht; [|apply H4; auto].
          exfalso. assert (z = s) by (apply (node_unique S1); [rewrite ids_S1; auto|auto|auto|congruence]).
          subst z. unfold no_trans in Ent. rewrite Ht in Ent. discriminate.
  Qed.

  (** ** The third loop *)
  Variables (d k : Z) (raw : list nat) (M : pairs).
  Hypothesis HM : merges M.
  Definition nones (D : list nat) : smap := map (fun a => (a, None)) D.
  Lemma fin_replace : forall m a v s, crosses m -> In a (ids A) -> In s S1 ->
    set_trans (replace_in (atrans (fin m M s)) a v) (fin m M s) = fin (m ++ [(a, v)]) M s.
  Proof.
    intros m a v s Hm Ha Hs. unfold fin. destruct (partner M s) as [c|] eqn:Ec.
    - destruct (deref A c) as [xc|] eqn:Exc.
      + unfold set_trans. cbn. rewrite replace_sub; [reflexivity|]. apply crosses_fresh; auto.
      + apply partner_Some in Ec. destruct (mg_pair M HM _ _ Ec) as (xx & _ & Hxx & Exx & _).
        exfalso. apply deref_None in Exc. apply Exc. rewrite <- Exx. apply in_map. auto.
    - rewrite replace_absent; [destruct s; reflexivity|]. intros Hi. apply (Hdis a Ha). apply (S1_trans s); auto.
  Qed.
  Lemma find_none_false : forall (X : Type) (f : X -> bool) l, find f l = None -> forall x, In x l -> f x = false.
  Proof.
    intros X f l. induction l as [|y l IH]; cbn; intros H x Hx; [destruct Hx|]. destruct (f y) eqn:E; [discriminate|].
    destruct Hx as [<-|Hx]; auto.
  Qed.
  Lemma filter_all : forall (X : Type) (f : X -> bool) l, (forall x, In x l -> f x = true) -> filter f l = l.
  Proof.
    induction l as [|x l IH]; intros H; cbn; auto. rewrite (H x) by (left; auto). f_equal. apply IH. intros; apply H; right; auto.
  Qed.
  Lemma crosses_one : forall a, In a (ids A) -> crosses [(a, None)].
  Proof. intros a Ha a' v [E|[]]. injection E as <- <-. auto. Qed.
  Lemma drop_ok : forall fuel m A' p, crosses m -> incl A' A -> NoDup (ids A') ->
    drop_modes d k fuel raw (map (ren m) A') (map (fin m M) S1) = Ok p ->
    exists D, (forall a, In a D <-> exists x, In x A' /\ aid x = a /\ del_mode d k (amode x) = true) /\
      fst p = map (ren (m ++ nones D)) (filter (fun x => negb (del_mode d k (amode x))) A') /\
      snd p = map (fin (m ++ nones D) M) S1.
  Proof.
    intros fuel. induction fuel as [|fuel IH]; intros m A' p Hm Hi Hnd H; cbn [drop_modes] in H.
    all: destruct (find (fun x => del_mode d k (amode x)) (map (ren m) A')) as [y|] eqn:Ef; try discriminate.
    1, 3: injection H as <-; pose proof (find_none_false _ _ _ Ef) as Hn; exists []; unfold nones; cbn [map]; rewrite app_nil_r;
      assert (Hn' : forall x, In x A' -> del_mode d k (amode x) = false)
        by (intros x Hx; apply (Hn (ren m x)); apply in_map; auto);
      split; [intros a; split; [intros []|intros (x & Hx & _ & E); rewrite Hn' in E; congruence]|];
      split; auto; rewrite filter_all; auto; intros x Hx; rewrite Hn'; auto.
    apply find_some in Ef. destruct Ef as (Hy & Ey). apply in_map_iff in Hy. destruct Hy as (x & <- & Hx).
    cbn [aid ren set_trans amode] in H, Ey. destruct (memb (aid x) raw) eqn:Er; [discriminate|].
    set (a := aid x) in *. assert (Ha : In a (ids A)) by (apply in_map; auto).
    rewrite replace_ren in H by (apply crosses_fresh; auto).
    rewrite delete_ok in H.
    2:{ unfold ids. rewrite map_map. rewrite (map_ext _ aid) by auto. auto. }
    2:{ unfold ids. rewrite map_map. rewrite (map_ext _ aid) by auto. apply in_map. auto. }
    rewrite filter_map in H.
    rewrite (filter_ext_In _ _ (fun z => negb (aid z =? a))) in H by auto.
    assert (HS : replace_anode_trans (map (fin m M) S1) a None = map (fin (m ++ [(a, None)]) M) S1).
    { unfold replace_anode_trans. rewrite map_map. apply map_ext_in. intros s Hs. apply fin_replace; auto. }
    rewrite HS in H. destruct (IH _ _ _ (crosses_app _ _ Hm (crosses_one a Ha))
      (fun z Hz => Hi z (proj1 (proj1 (filter_In _ _ _) Hz))) (nodup_filter_ids _ _ Hnd) H) as (D & H1 & H2 & H3).
    exists (a :: D). unfold nones in *. cbn [map]. rewrite <- app_assoc in H2, H3. cbn [app] in H2, H3.
    split; [|split; auto].
    - intros b. cbn [In]. rewrite H1. split.
      + intros [<-|(z & Hz & Ez & E)]; [exists x; auto|]. apply filter_In in Hz. exists z. tauto.
      + intros (z & Hz & Ez & E). destruct (Nat.eqb_spec (aid z) a) as [E'|E']; [left; congruence|right].
        exists z. split; auto. apply filter_In. split; auto. apply negb_true_iff, Nat.eqb_neq. auto.
    - rewrite H2, filter_filter. f_equal. apply filter_ext_In. intros z Hz.
      destruct (Nat.eqb_spec (aid z) a) as [E'|E']; cbn; auto.
      assert (z = x) by (apply (node_unique A'); auto). subst z. rewrite Ey. auto.
  Qed.
End Connect.
