(** localfixpoint_goalmode in closed form: what the list operations amount to. *)
From Coq Require Import List ZArith Lia Bool Arith.
From Verif Require Import Base Bdd Support SupportProofs Ops Strs Ptree Solve Automaton AutProofs AutProofs2 Synth Reach ReadState
  Nonbool AutIO Hotswap HotProofs AddMerge Patch.
Import ListNotations.
Open Scope nat_scope.

Lemma inN_iff : forall n N s, Forall (fun v => length v = n) N -> length s = n -> (inN N s = true <-> In s N).
Proof.
  intros n N s HN Hs. unfold inN. rewrite existsb_exists. rewrite Forall_forall in HN. split.
  - intros (v & Hv & E). apply statecmp_spec in E; [|rewrite (HN v Hv); auto]. subst. auto.
  - intros H. exists s. split; auto. apply statecmp_spec; auto.
Qed.

Lemma nodup_snoc : forall (T : Type) (l : list T) a, NoDup l -> ~ In a l -> NoDup (l ++ [a]).
Proof.
  induction l as [|b l IH]; intros a H Hn; cbn; [constructor; auto|]. inversion H; subst. constructor.
  - intros Hi. apply in_app_or in Hi. destruct Hi as [Hi|[<-|[]]]; auto. apply Hn. left. auto.
  - apply IH; auto. intros K. apply Hn. right. auto.
Qed.
Lemma filter_all' : forall (T : Type) (f : T -> bool) l, (forall x, In x l -> f x = true) -> filter f l = l.
Proof.
  induction l as [|x l IH]; intros H; auto. cbn. rewrite (H x) by (left; auto). f_equal. apply IH. intros; apply H; right; auto.
Qed.
(** ** The arrays Entry and Exit *)
Section Scan.
  Variables (n : nat) (N : list vec) (g : Z) (A : aut).
  Hypothesis HN : Forall (fun v => length v = n) N.
  Hypothesis Hlen : forall x, In x A -> length (astate x) = n.
  Definition inside (x : anode) : bool := (amode x =? g)%Z && inN N (astate x).
  (** entered from outside by a transition that keeps the mode *)
  Definition entered (l : aut) (y : anode) : Prop :=
    In y A /\ inside y = true /\ exists x, In x l /\ amode x = g /\ inN N (astate x) = false /\ In (aid y) (atrans x).
  Lemma add_entries_ok : forall l En En', add_entries N g A l En = Ok En' ->
    (forall e, In e En -> In e A /\ inside e = true) -> NoDup (map astate En) ->
    incl En En' /\ NoDup (map astate En') /\
    (forall e, In e En' -> In e En \/ In e A /\ inside e = true /\ In (aid e) l) /\
    (forall t, In t l -> forall y, deref A t = Some y -> inside y = true -> exists e, In e En' /\ astate e = astate y).
  Proof.
    induction l as [|t l IH]; intros En En' H HE Hnd; cbn [add_entries] in H.
    - injection H as <-. split; [apply incl_refl|]. split; auto. split; auto. intros t [].
    - destruct (deref A t) as [y|] eqn:Ey; [|discriminate]. pose proof (deref_In _ _ _ Ey) as (HyA & Eyt).
      fold (inside y) in H. destruct (inside y) eqn:Ei.
      + destruct (existsb (fun e => statecmp (astate e) (astate y)) En) eqn:Ex.
        * destruct (IH _ _ H HE Hnd) as (H1 & H2 & H3 & H4). split; auto. split; auto. split.
          -- intros e He. destruct (H3 e He) as [K|(K1 & K2 & K3)]; auto. right. split; auto. split; auto. right; auto.
          -- intros u [<-|Hu] z Hz Hi; [|eauto]. rewrite Ey in Hz. injection Hz as <-. apply existsb_exists in Ex.
             destruct Ex as (e & He & Ec). exists e. split; [apply H1; auto|].
             apply statecmp_spec in Ec; auto. rewrite (Hlen e), (Hlen y); auto. apply HE; auto.
        * destruct (length N <=? length En); [discriminate|].
          destruct (IH _ _ H) as (H1 & H2 & H3 & H4).
          { intros e He. apply in_app_or in He. destruct He as [He|[<-|[]]]; auto. }
          { rewrite map_app. cbn. apply nodup_snoc; auto. intros Hi. apply in_map_iff in Hi. destruct Hi as (e & Ee & He).
            assert (existsb (fun e => statecmp (astate e) (astate y)) En = true); [|congruence].
            apply existsb_exists. exists e. split; auto. rewrite Ee. apply statecmp_refl. }
          split; [intros e He; apply H1; apply in_or_app; auto|]. split; auto. split.
          -- intros e He. destruct (H3 e He) as [K|(K1 & K2 & K3)].
             ++ apply in_app_or in K. destruct K as [K|[<-|[]]]; auto. right. split; auto. split; auto. left; auto.
             ++ right. split; auto. split; auto. right; auto.
          -- intros u [<-|Hu] z Hz Hi; [|eauto]. rewrite Ey in Hz. injection Hz as <-. exists y. split; auto.
             apply H1. apply in_or_app. right. left. auto.
      + destruct (IH _ _ H HE Hnd) as (H1 & H2 & H3 & H4). split; auto. split; auto. split.
        * intros e He. destruct (H3 e He) as [K|(K1 & K2 & K3)]; auto. right. split; auto. split; auto. right; auto.
        * intros u [<-|Hu] z Hz Hi; [|eauto]. rewrite Ey in Hz. injection Hz as <-. congruence.
  Qed.
  Lemma scan_nodes_ok : forall l En Ex En' Ex', scan_nodes N g A l En Ex = Ok (En', Ex') ->
    (forall e, In e En -> In e A /\ inside e = true) -> NoDup (map astate En) -> NoDup (ids A) ->
    Ex' = Ex ++ filter inside l /\ incl En En' /\ NoDup (map astate En') /\
    (forall e, In e En' -> In e En \/ entered l e) /\
    (forall y, entered l y -> exists e, In e En' /\ astate e = astate y).
  Proof.
    induction l as [|x l IH]; intros En Ex En' Ex' H HE Hnd HA; cbn [scan_nodes] in H.
    - injection H as <- <-. rewrite app_nil_r. split; auto. split; [apply incl_refl|]. split; auto. split; auto.
      intros y (_ & _ & x & [] & _).
    - assert (Hg : forall e, entered l e -> entered (x :: l) e).
      { intros e (K1 & K2 & z & Kz & K3). split; auto. split; auto. exists z. split; [right; auto|auto]. }
      cbn [filter]. unfold inside at 1. destruct (amode x =? g)%Z eqn:Em; cbn [andb].
      + destruct (inN N (astate x)) eqn:EN.
        * destruct (length N <=? length Ex); [discriminate|].
          destruct (IH _ _ _ _ H HE Hnd HA) as (H1 & H2 & H3 & H4 & H5). rewrite <- app_assoc in H1. split; auto. split; auto.
          split; auto. split; [intros e He; destruct (H4 e He); auto|].
          intros y (K1 & K2 & z & [<-|Kz] & K3 & K4 & K5); [congruence|]. apply H5. split; auto. split; auto. exists z. auto.
        * destruct (add_entries N g A (atrans x) En) as [En1| |] eqn:E1; try discriminate. cbn [bind] in H.
          destruct (add_entries_ok _ _ _ E1 HE Hnd) as (G1 & G2 & G3 & G4).
          destruct (IH _ _ _ _ H) as (H1 & H2 & H3 & H4 & H5); auto.
          { intros e He. destruct (G3 e He) as [K|K]; [auto|tauto]. }
          split; auto. split; [intros e He; auto|]. split; auto. split.
          -- intros e He. destruct (H4 e He) as [K|K]; auto. destruct (G3 e K) as [K'|(K1 & K2 & K3)]; auto.
             right. split; auto. split; auto. exists x. split; [left; auto|]. apply Z.eqb_eq in Em. auto.
          -- intros y (K1 & K2 & z & [<-|Kz] & K3 & K4 & K5).
             ++ destruct (G4 (aid y) K5 y) as (e & He & Ee); auto; [apply deref_unique; auto|]. exists e. auto.
             ++ apply H5. split; auto. split; auto. exists z. auto.
      + destruct (IH _ _ _ _ H HE Hnd HA) as (H1 & H2 & H3 & H4 & H5). split; auto. split; auto.
        split; auto. split; [intros e He; destruct (H4 e He); auto|].
        intros y (K1 & K2 & z & [<-|Kz] & K3 & K4 & K5); [apply Z.eqb_neq in Em; congruence|].
        apply H5. split; auto. split; auto. exists z. auto.
  Qed.
End Scan.

(** ** The least annotation *)
Lemma lower_fold : forall l m, (forall x, In x l -> 0 <= argrad x)%Z -> (m = -1 \/ 0 <= m)%Z ->
  let r := fold_left lower l m in
  (r = -1 \/ 0 <= r)%Z /\ (0 <= m -> 0 <= r <= m)%Z /\ forall x, In x l -> (0 <= r <= argrad x)%Z.
Proof.
  induction l as [|x l IH]; intros m Hl Hm; cbn [fold_left]; cbv zeta.
  - split; auto. split; [lia|]. intros x [].
  - pose proof (Hl x (or_introl eq_refl)) as Hx.
    assert (Hlow : (0 <= lower m x)%Z /\ (lower m x <= argrad x)%Z /\ (0 <= m -> lower m x <= m)%Z).
    { unfold lower. destruct (argrad x <? m)%Z eqn:E1; cbn; [lia|]. destruct (m =? -1)%Z eqn:E2; cbn; lia. }
    destruct (IH (lower m x)) as (H1 & H2 & H3); [intros y Hy; apply Hl; right; auto|lia|]. split; auto. split.
    + intros H. specialize (H2 ltac:(lia)). lia.
    + intros y [<-|Hy]; [|auto]. specialize (H2 ltac:(lia)). lia.
Qed.
Lemma least_ok : forall En U, (forall x, In x En -> 0 <= argrad x)%Z -> (forall x, In x U -> 0 <= argrad x)%Z ->
  forall x, In x En \/ In x U -> (least_rgrad En U <= argrad x)%Z.
Proof.
  intros En U HE HU x Hx. unfold least_rgrad.
  destruct (lower_fold En (-1) HE ltac:(auto)) as (H1 & H2 & H3).
  destruct (lower_fold U (fold_left lower En (-1)%Z) HU ltac:(auto)) as (G1 & G2 & G3).
  destruct Hx as [Hx|Hx]; [|apply G3; auto]. specialize (H3 x Hx). specialize (G2 ltac:(lia)). lia.
Qed.
Lemma removelast_In : forall (r : list anode) z l, rev r = z :: l -> forall x, In x r <-> x = z \/ In x (removelast r).
Proof.
  intros r z l E. assert (Er : r = rev l ++ [z]) by (rewrite <- (rev_involutive r), E; reflexivity).
  rewrite Er, removelast_app by discriminate. cbn. rewrite app_nil_r. intros x. rewrite in_app_iff. cbn. intuition.
Qed.
Lemma drop_exits_ok : forall fuel m done rest, length rest < fuel -> forall x,
  In x (drop_exits fuel m done rest) <-> In x done \/ In x rest /\ (argrad x < m)%Z.
Proof.
  induction fuel as [|f IH]; intros m done rest Hf x; [lia|]. cbn [drop_exits]. destruct rest as [|y r].
  - rewrite app_nil_r, <- in_rev. cbn. tauto.
  - cbn [length] in Hf. destruct (m <=? argrad y)%Z eqn:E; [apply Z.leb_le in E|apply Z.leb_gt in E].
    + destruct (rev r) as [|z l] eqn:Er.
      * assert (r = []) by (rewrite <- (rev_involutive r), Er; reflexivity). subst r. rewrite <- in_rev. cbn.
        split; [auto|]. intros [K|([<-|[]] & K)]; auto. lia.
      * rewrite IH.
        2:{ pose proof (f_equal (@length _) Er) as El. rewrite rev_length in El. cbn in El.
            assert (Hr : r <> []) by (intros ->; discriminate Er).
            rewrite (app_removelast_last y Hr), app_length in El, Hf. cbn in *. lia. }
        cbn [In]. rewrite (removelast_In r z l Er x). split.
        -- intros [K|([<-|K] & K')]; auto.
        -- intros [K|([<-|[->|K]] & K')]; auto. lia.
    + rewrite IH by lia. cbn [In]. split; [intros [[<-|K]|K]; tauto|]. intros [K|([<-|K] & K')]; auto.
Qed.

(** ** Connecting *)
Section Connect.
  Variables (n : nat) (N : list vec) (g : Z) (A L : aut).
  Hypothesis HN : Forall (fun v => length v = n) N.
  Hypothesis HlenA : forall x, In x A -> length (astate x) = n.
  Hypothesis HlenL : forall x, In x L -> length (astate x) = n.
  Hypothesis Hnd : NoDup (ids (A ++ L)).
  Hypothesis HcA : closed A.
  Hypothesis HcL : closed L.
  Hypothesis Hg : (0 <= g)%Z.
  Hypothesis HmA : forall x, In x A -> (0 <= amode x)%Z.
  Hypothesis HmL : forall x, In x L -> amode x = (-1)%Z.
  Lemma ndA : NoDup (ids A). Proof. apply (nodup_app_l A L). auto. Qed.
  Lemma ndL : NoDup (ids L). Proof. apply (nodup_app_r A L). auto. Qed.
  Lemma ndX : forall a, In a (ids A) -> In a (ids L) -> False. Proof. intros a. apply (nodup_app_x A L a). auto. Qed.

  (** entries become nodes of the local strategy with the same state *)
  Record entry_map (En : list anode) (m : smap) : Prop := {
    em_dom : map fst m = map aid En;
    em_val : forall a v, In (a, v) m -> exists e c, In e En /\ In c L /\ aid e = a /\ v = Some (aid c) /\ astate c = astate e
  }.
  Lemma connect_entries_ok : forall En0 En m A', entry_map En0 m -> incl En A ->
    connect_entries En L (map (ren m) A) = Some A' -> exists m', A' = map (ren m') A /\ entry_map (En0 ++ En) m'.
  Proof.
    intros En0 En. revert En0. induction En as [|e En IH]; intros En0 m A' Hm Hi H; cbn [connect_entries] in H.
    - injection H as <-. exists m. rewrite app_nil_r. auto.
    - destruct (with_state (astate e) L) as [c|] eqn:Ec; [|discriminate].
      assert (HeA : In e A) by (apply Hi; left; auto).
      destruct (with_state_ok (astate e) L c) as (Hc & Es); auto.
      { intros y Hy. rewrite HlenL, HlenA; auto. }
      rewrite replace_ren in H.
      2:{ intros t b Hb E. destruct (em_val _ _ Hm _ _ Hb) as (e' & c' & _ & Hc' & _ & Ev & _). injection Ev as ->. subst.
          apply (ndX (aid c')); [rewrite E; apply in_ids; auto|apply in_ids; auto]. }
      destruct (IH (En0 ++ [e]) (m ++ [(aid e, Some (aid c))]) A') as (m' & E & Hm'); auto.
      + constructor.
        * rewrite !map_app, (em_dom _ _ Hm). reflexivity.
        * intros a v Hav. apply in_app_or in Hav. destruct Hav as [Hav|[Hav|[]]].
          -- destruct (em_val _ _ Hm _ _ Hav) as (e' & c' & H1 & H2 & H3). exists e', c'. split; [apply in_or_app; auto|auto].
          -- injection Hav as <- <-. exists e, c. split; [apply in_or_app; right; left; auto|]. auto.
      + intros x Hx. apply Hi. right; auto.
      + exists m'. split; auto. rewrite <- app_assoc in Hm'. exact Hm'.
  Qed.

  Variables (En Ex : list anode) (mE : smap).
  Hypothesis HEn : incl En A.
  Hypothesis HEx : incl Ex A.
  Hypothesis HExi : forall x, In x Ex -> inside N g x = true.
  Hypothesis HmE : entry_map En mE.
  Let A1 := map (ren mE) A.
  Definition oldv (M : nat -> bool) : aut := map (fun x => if M (aid x) then set_mode (-1) x else x) A1.
  Definition newv (m : smap) : aut := map (fun c => if memb (aid c) (map fst m) then set_mode (-2) (ren m c) else ren m c) L.
  Definition eligA (a : nat) : Prop := exists y, In y A /\ aid y = a /\ inside N g y = true.
  (** reached from the exits used *)
  Inductive mr : nat -> Prop :=
  | mr_exit : forall x, In x Ex -> mr (aid x)
  | mr_next : forall a b, mr a -> edge A1 a b -> eligA b -> mr b.
  Record exit_map (m : smap) (M : nat -> bool) : Prop := {
    xm_val : forall t v, In (t, v) m -> exists c x, In c L /\ aid c = t /\ atrans c = [] /\ In x Ex /\
      v = Some (aid x) /\ astate x = astate c /\ M (aid x) = true;
    xm_mark : forall a, M a = true -> eligA a;
    xm_next : forall a b, M a = true -> edge A1 a b -> eligA b -> M b = true;
    xm_from : forall a, M a = true -> mr a
  }.
  Lemma A1_ids : ids A1 = ids A.
  Proof. apply ids_map. reflexivity. Qed.
  Lemma newv_ids : forall m, ids (newv m) = ids L.
  Proof. intros m. apply ids_map. intros x. destruct (memb _ _); reflexivity. Qed.
  Lemma oldv_ids : forall M, ids (oldv M) = ids A.
  Proof. intros M. rewrite <- A1_ids. apply ids_map. intros x. destruct (M _); reflexivity. Qed.
  Lemma A1_closed : forall x t, In x A1 -> In t (atrans x) -> In t (ids A) \/ In t (ids L).
  Proof.
    intros x t Hx Ht. apply in_map_iff in Hx. destruct Hx as (x0 & <- & Hx0). cbn in Ht. apply sub_In in Ht.
    destruct Ht as (u & Hu & E). destruct (assoc u mE) as [[b|]|] eqn:Ea; [|tauto|].
    - subst b. apply assoc_Some in Ea. destruct (em_val _ _ HmE _ _ Ea) as (e & c & _ & Hc & _ & Ev & _). injection Ev as ->.
      right. apply in_ids; auto.
    - subst u. left. apply (HcA x0); auto.
  Qed.
  Lemma ren_some : forall m c, (forall t v, In (t, v) m -> v <> None) -> (sub_tr m (atrans c) = [] <-> atrans c = []).
  Proof.
    intros m c Hm. destruct (atrans c) as [|t l]; [split; reflexivity|]. split; [|discriminate]. intros H. exfalso.
    unfold sub_tr in H. cbn in H. destruct (assoc t m) as [[b|]|] eqn:E; cbn in H; try discriminate.
    apply assoc_Some in E. apply (Hm _ _ E eq_refl).
  Qed.
  Lemma newv_closed : forall m M x t, exit_map m M -> In x (newv m) -> In t (atrans x) -> In t (ids A) \/ In t (ids L).
  Proof.
    intros m M x t Hm Hx Ht. apply in_map_iff in Hx. destruct Hx as (x0 & E & Hx0).
    assert (Ht' : In t (sub_tr m (atrans x0))) by (destruct (memb _ _); subst x; exact Ht). clear Ht E. apply sub_In in Ht'.
    destruct Ht' as (u & Hu & E). destruct (assoc u m) as [[b|]|] eqn:Ea; [|tauto|].
    - subst b. apply assoc_Some in Ea. destruct (xm_val _ _ Hm _ _ Ea) as (c & y & _ & _ & _ & Hy & Ev & _). injection Ev as ->.
      left. apply in_ids. auto.
    - subst u. right. apply (HcL x0); auto.
  Qed.
  Lemma inside_state : forall x, inside N g x = true -> amode x = g /\ inN N (astate x) = true.
  Proof. intros x H. apply andb_true_iff in H. destruct H as (H1 & H2). apply Z.eqb_eq in H1. auto. Qed.
  Section Heap.
    Variables (m : smap) (M : nat -> bool).
    Hypothesis HX : exit_map m M.
    Let H0 := A1 ++ newv m.
    Lemma heap_ids : ids H0 = ids (A ++ L).
    Proof. unfold H0, ids. rewrite !map_app. fold (ids A1) (ids (newv m)). rewrite A1_ids, newv_ids. reflexivity. Qed.
    Lemma heap_nd : NoDup (ids H0).
    Proof. rewrite heap_ids. auto. Qed.
    Lemma heap_closed : closed H0.
    Proof.
      intros x t Hx Ht. rewrite heap_ids. unfold ids. rewrite map_app. apply in_or_app. apply in_app_or in Hx.
      destruct Hx as [Hx|Hx]; [apply (A1_closed x t Hx Ht)|apply (newv_closed m M x t HX Hx Ht)].
    Qed.
    Lemma heap_elig : forall b, elig g N H0 b = true <-> eligA b.
    Proof.
      intros b. unfold elig. split.
      - destruct (deref H0 b) as [y|] eqn:E; [|discriminate]. apply deref_In in E. destruct E as (Hy & Eb). intros K.
        apply andb_true_iff in K. destruct K as (K1 & K2). apply in_app_or in Hy. destruct Hy as [Hy|Hy].
        + apply in_map_iff in Hy. destruct Hy as (y0 & <- & Hy0). exists y0. split; auto. split; auto.
          apply andb_true_iff. split; auto.
        + exfalso. apply Z.eqb_eq in K1. apply in_map_iff in Hy. destruct Hy as (y0 & E & Hy0). pose proof (HmL y0 Hy0).
          destruct (memb _ _); subst y; cbn in K1; lia.
      - intros (y & Hy & <- & Hi). assert (E : deref H0 (aid y) = Some (ren mE y)).
        { change (aid y) with (aid (ren mE y)). apply deref_unique; [apply heap_nd|]. apply in_or_app. left. apply in_map. auto. }
        rewrite E. exact Hi.
    Qed.
    Lemma heap_edge : forall a b, eligA a -> edge H0 a b -> edge A1 a b.
    Proof.
      intros a b (y & Hy & <- & _) (x & Hx & E & Hb). apply in_app_or in Hx. destruct Hx as [Hx|Hx]; [exists x; auto|].
      exfalso. apply (ndX (aid y)); [apply in_ids; auto|]. rewrite <- E, <- (newv_ids m). apply in_ids. auto.
    Qed.
    Lemma heap_now : oldv M ++ newv m = mark (-1) H0 M.
    Proof.
      unfold mark, H0. rewrite map_app. f_equal. rewrite <- (map_id (newv m)) at 1. apply map_ext_in. intros x Hx.
      destruct (M (aid x)) eqn:E; auto. exfalso. destruct (xm_mark _ _ HX _ E) as (y & Hy & Ey & _).
      apply (ndX (aid y)); [apply in_ids; auto|]. rewrite Ey, <- (newv_ids m). apply in_ids. auto.
    Qed.
    Lemma reach_step : forall x, In x Ex -> exists M',
      forward_modereach (S (length A + length L)) (oldv M ++ newv m) (aid x) g N (-1) = Ok (oldv M' ++ newv m) /\
      exit_map m (add (aid x) M') .
    Proof.
      intros x Hx. assert (HxA : In x A) by auto.
      assert (Ed : deref H0 (aid x) = Some (ren mE x)).
      { change (aid x) with (aid (ren mE x)). apply deref_unique; [apply heap_nd|]. apply in_or_app. left. apply in_map. auto. }
      destruct (fmr_correct g (-1) N H0 heap_nd heap_closed ltac:(lia) (S (length A + length L)) M (aid x) (ren mE x)) as (M' & E & Hexp); [|exact Ed|].
      { unfold todo. pose proof (filter_length_le _ (fun a => elig g N H0 a && negb (M a)) (ids H0)) as K.
        rewrite heap_ids in K. unfold ids in K at 2. rewrite map_length, app_length in K. rewrite <- heap_ids in K at 1. lia. }
      destruct Hexp as [E1 E2 E3 E4].
      assert (Hmr : forall a, mreach g N H0 (aid x) a -> eligA a /\ mr a).
      { intros a Ha. induction Ha as [b Hb He|b c Hb IH Hbc He].
        - apply (elig_iff g N H0 heap_nd) in He. apply heap_elig in He. split; auto. apply mr_next with (aid x); auto.
          + constructor; auto.
          + apply heap_edge; auto. exists x. auto.
        - apply (elig_iff g N H0 heap_nd) in He. apply heap_elig in He. split; auto. apply mr_next with b; try tauto.
          apply heap_edge; tauto. }
      assert (Hmk : forall a, M' a = true -> eligA a).
      { intros a Ha. destruct (E4 a Ha) as [K|K]; [apply (xm_mark _ _ HX); auto|apply Hmr; auto]. }
      assert (Hnow' : oldv M' ++ newv m = mark (-1) H0 M').
      { unfold mark, H0. rewrite map_app. f_equal. rewrite <- (map_id (newv m)) at 1. apply map_ext_in. intros y Hy.
        destruct (M' (aid y)) eqn:Em; auto. exfalso. destruct (Hmk _ Em) as (z & Hz & Ez & _).
        apply (ndX (aid z)); [apply in_ids; auto|]. rewrite Ez, <- (newv_ids m). apply in_ids. auto. }
      exists M'. rewrite heap_now, Hnow'. split; [exact E|]. constructor.
      - intros t v Hv. destruct (xm_val _ _ HX t v Hv) as (c & y & H1 & H2 & H3 & H4 & H5 & H6 & H7). exists c, y.
        repeat (split; auto). unfold add. rewrite (E1 _ H7). apply orb_true_r.
      - intros a Ha. unfold add in Ha. apply orb_true_iff in Ha. destruct Ha as [Ha|Ha]; [|auto].
        apply Nat.eqb_eq in Ha. subst a. exists x. auto.
      - intros a b Ha Hab Hb. unfold add in Ha |- *. apply orb_true_iff. right. pose proof (proj2 (heap_elig b) Hb) as Hb'.
        assert (Hab' : edge H0 a b) by (destruct Hab as (z & Hz & Ez & Hzb); exists z; split; [apply in_or_app; auto|auto]).
        apply orb_true_iff in Ha. destruct Ha as [Ha|Ha].
        + apply Nat.eqb_eq in Ha. subst a. apply E2; auto. destruct Hab as (z & Hz & Ez & Hzb).
          assert (z = ren mE x); [|subst z; auto]. apply (node_unique A1); auto.
          * rewrite A1_ids. apply ndA.
          * apply in_map. auto.
        + destruct (M a) eqn:Em; [apply E1; apply (xm_next _ _ HX a b); auto|apply (E3 a); auto].
      - intros a Ha. unfold add in Ha. apply orb_true_iff in Ha. destruct Ha as [Ha|Ha].
        + apply Nat.eqb_eq in Ha. subst a. constructor. auto.
        + destruct (E4 a Ha) as [K|K]; [apply (xm_from _ _ HX); auto|apply Hmr; auto].
    Qed.
  End Heap.
  Lemma oldv_len : forall M, length (oldv M) = length A.
  Proof. intros M. unfold oldv, A1. rewrite !map_length. reflexivity. Qed.
  Lemma newv_len : forall m, length (newv m) = length L.
  Proof. intros m. unfold newv. rewrite !map_length. reflexivity. Qed.
  Lemma oldv_store : forall M a, store (oldv M) a (set_mode (-1)) = oldv (add a M).
  Proof.
    intros M a. unfold store, oldv. rewrite map_map. apply map_ext. intros x. unfold add.
    destruct (M (aid x)) eqn:E; cbn; destruct (aid x =? a); cbn; rewrite ?E; auto.
  Qed.
  Lemma newv_step : forall m b a, (forall t c, In (t, Some c) m -> c <> b) ->
    replace_anode_trans (store (newv m) b (set_mode (-2))) b (Some a) = newv (m ++ [(b, Some a)]).
  Proof.
    intros m b a Hm. unfold replace_anode_trans, store, newv. rewrite !map_map. apply map_ext. intros c.
    rewrite map_app. cbn [map fst].
    assert (Em : memb (aid c) (map fst m ++ [b]) = (memb (aid c) (map fst m) || (aid c =? b))).
    { unfold memb. rewrite existsb_app. cbn. rewrite orb_false_r. reflexivity. }
    rewrite Em. destruct (memb (aid c) (map fst m)); cbn [aid set_mode ren set_trans orb]; destruct (aid c =? b);
      unfold ren, set_mode, set_trans; cbn; rewrite replace_sub by auto; reflexivity.
  Qed.
  Lemma find_exit : forall c x, length (astate c) = n -> find (fun x => statecmp (astate c) (astate x)) Ex = Some x ->
    In x Ex /\ astate x = astate c.
  Proof.
    intros c x Hl H. apply find_some in H. destruct H as (H1 & H2). split; auto. apply statecmp_spec in H2; auto.
    rewrite Hl. symmetry. apply HlenA. auto.
  Qed.
  Definition bounded (m : smap) (r : Z) : Prop := forall t x, In x Ex -> In (t, Some (aid x)) m -> (argrad x <= r)%Z.
  Lemma connect_exits_ok : forall l m M r A' L' r', NoDup l -> incl l (ids L) -> exit_map m M ->
    (forall t, In t (map fst m) -> ~ In t l) -> bounded m r ->
    connect_exits N g l Ex (oldv M) (newv m) r = Ok (Some (A', L', r')) ->
    exists m' M', A' = oldv M' /\ L' = newv m' /\ exit_map m' M' /\ bounded m' r' /\ (r <= r')%Z /\
      (r' = r \/ exists x, In x Ex /\ r' = argrad x) /\
      incl (map fst m) (map fst m') /\
      (forall c, In c L -> In (aid c) l -> atrans c = [] -> In (aid c) (map fst m')).
  Proof.
    induction l as [|b l IH]; intros m M r A' L' r' Hl Hi HX Hd Hr H; cbn [connect_exits] in H.
    - injection H as <- <- <-. exists m, M. repeat (split; auto); try lia. + apply incl_refl. + intros c _ [].
    - inversion Hl as [|? ? Hb Hl']; subst. assert (HbL : In b (ids L)) by (apply Hi; left; auto).
      destruct (ids_in L b HbL) as (c & Hc & Ec).
      assert (Hbm : memb b (map fst m) = false) by (apply memb_false; intros K; apply (Hd b K); left; auto).
      assert (Ed : deref (newv m) b = Some (ren m c)).
      { unfold newv. rewrite HotProofs.deref_map by (intros y; destruct (memb (aid y) (map fst m)); reflexivity).
        rewrite <- Ec, (deref_unique L c ndL Hc). cbn [option_map]. rewrite Ec, Hbm. reflexivity. }
      rewrite Ed in H.
      assert (Hsome : forall t v, In (t, v) m -> v <> None).
      { intros t v Hv. destruct (xm_val _ _ HX _ _ Hv) as (_ & y & _ & _ & _ & _ & -> & _). discriminate. }
      assert (Hdl : forall t, In t (map fst m) -> ~ In t l) by (intros t Ht K; apply (Hd t Ht); right; auto).
      assert (Hil : incl l (ids L)) by (intros t Ht; apply Hi; right; auto).
      assert (En0 : no_trans (ren m c) = true <-> atrans c = []).
      { rewrite no_trans_nil. cbn. apply ren_some. auto. }
      destruct (no_trans (ren m c)) eqn:Ent.
      + assert (Hct : atrans c = []) by (apply En0; auto).
        destruct (find _ Ex) as [x|] eqn:Ex0; [|discriminate].
        destruct (find_exit c x) as (Hx & Es); auto.
        destruct (reach_step m M HX x Hx) as (M1 & E1 & HX1).
        rewrite oldv_len, newv_len, E1 in H. cbn [bind] in H.
        rewrite <- (oldv_len M1) in H. rewrite firstn_app, firstn_all, Nat.sub_diag in H. cbn [firstn] in H. rewrite app_nil_r in H.
        rewrite skipn_app, skipn_all, Nat.sub_diag in H. cbn [skipn app] in H. rewrite oldv_store in H.
        rewrite newv_step in H.
        2:{ intros t d Hdm E. subst d. destruct (xm_val _ _ HX _ _ Hdm) as (_ & y & _ & _ & _ & Hy & Ev & _). injection Ev as ->.
            apply (ndX (aid y)); auto. apply in_ids. auto. }
        set (r1 := if (r <? argrad x)%Z then argrad x else r) in H.
        assert (Hr1 : (r <= r1)%Z /\ (argrad x <= r1)%Z /\ (r1 = r \/ r1 = argrad x)).
        { unfold r1. destruct (r <? argrad x)%Z eqn:E; [apply Z.ltb_lt in E|apply Z.ltb_ge in E]; lia. }
        assert (HX2 : exit_map (m ++ [(b, Some (aid x))]) (add (aid x) M1)).
        { destruct HX1 as [V1 V2 V3 V4]. constructor; auto. intros t v Hv. apply in_app_or in Hv. destruct Hv as [Hv|[Hv|[]]]; auto.
          injection Hv as <- <-. exists c, x. repeat (split; auto). unfold add. rewrite Nat.eqb_refl. auto. }
        destruct (IH _ _ r1 A' L' r' Hl' Hil HX2) as (m' & M' & K1 & K2 & K3 & K4 & K5 & K6 & K7 & K8); [| |exact H|].
        * intros t Ht. rewrite map_app in Ht. apply in_app_or in Ht. destruct Ht as [Ht|[<-|[]]]; auto.
        * intros t y Hy Hm. apply in_app_or in Hm. destruct Hm as [Hm|[Hm|[]]]; [specialize (Hr t y Hy Hm); lia|].
          injection Hm as _ E. assert (y = x) by (apply (node_unique A); auto; apply ndA). subst y. lia.
        * exists m', M'. rewrite map_app in K7. repeat (split; auto); try lia.
          -- destruct K6 as [K6|K6]; auto. rewrite K6. destruct Hr1 as (_ & _ & [->| ->]); auto. right. exists x. auto.
          -- intros t Ht. apply K7. apply in_or_app. auto.
          -- intros d Hdd [Hbd|Hbd] Hdt; auto. apply K7. apply in_or_app. right. left. auto.
      + destruct (IH _ _ _ _ _ _ Hl' Hil HX Hdl Hr H) as (m' & M' & K1 & K2 & K3 & K4 & K5 & K6 & K7 & K8).
        exists m', M'. repeat (split; auto). intros d Hdd [Hbd|Hbd] Hdt; auto. exfalso.
        assert (d = c) by (apply (node_unique L); auto; [apply ndL|congruence]). subst d. apply En0 in Hdt. congruence.
  Qed.

  (** ** Deleting *)
  Definition drop (M : nat -> bool) (x : anode) : bool := inside N g x && negb (M (aid x)).
  Definition keep (M : nat -> bool) (a : nat) : bool :=
    match deref A a with Some x => negb (drop M x) | None => true end.
  Lemma keep_node : forall M x, In x A -> keep M (aid x) = negb (drop M x).
  Proof. intros M x Hx. unfold keep. rewrite deref_unique; auto. apply ndA. Qed.
  Lemma marked_form : forall m M, exit_map m M -> map (mark_node N g) (oldv M) =
    map (fun x => if drop M x then set_mode (-2) (ren mE x) else ren mE x) A.
  Proof.
    intros m M HX. unfold oldv, A1. rewrite !map_map. apply map_ext_in. intros x Hx. cbn [aid ren set_trans].
    change (aid (ren mE x)) with (aid x). unfold drop. destruct (M (aid x)) eqn:EM.
    - rewrite andb_false_r. destruct (xm_mark _ _ HX _ EM) as (y & Hy & Ey & Hyi).
      assert (y = x) by (apply (node_unique A); auto; apply ndA). subst y. apply inside_state in Hyi. destruct Hyi as (E1 & _).
      unfold mark_node. cbn [amode set_mode]. rewrite (proj2 (Z.eqb_neq (-1) g)) by lia.
      rewrite Z.eqb_refl. unfold set_mode, ren. cbn. rewrite <- E1. destruct x; reflexivity.
    - rewrite andb_true_r. unfold mark_node, inside. change (amode (ren mE x)) with (amode x).
      change (astate (ren mE x)) with (astate x). destruct (amode x =? g)%Z eqn:E.
      + cbn [andb]. destruct (inN N (astate x)); auto.
      + cbn [andb]. rewrite (proj2 (Z.eqb_neq (amode x) (-1))); auto. specialize (HmA x Hx). lia.
  Qed.
  Lemma delete_old_ok : forall fuel C, NoDup (ids C) -> length C < fuel -> exists k, delete_old fuel C = Ok (restrict k C) /\
    (forall x, In x C -> k (aid x) = negb (to_delete x)) /\ (forall a, ~ In a (ids C) -> k a = true).
  Proof.
    induction fuel as [|f IH]; intros C Hc Hf; [lia|]. cbn [delete_old]. destruct (find to_delete C) as [x|] eqn:Exx.
    - apply find_some in Exx. destruct Exx as (Hx & Ed). rewrite remove_node by (auto; apply in_ids; auto).
      set (C1 := restrict (fun a => negb (a =? aid x)) C).
      destruct (IH C1) as (k & E & K1 & K2).
      { apply restrict_nodup. auto. }
      { pose proof (restrict_length (fun a => negb (a =? aid x)) C (aid x)) as K. cbn beta in K. rewrite Nat.eqb_refl in K.
        specialize (K (in_ids C x Hx) eq_refl). unfold C1. lia. }
      exists (fun a => negb (a =? aid x) && k a). unfold C1 in E. rewrite restrict_comp in E. split; auto. split.
      + intros y Hy. destruct (Nat.eqb_spec (aid y) (aid x)) as [En0|En0]; cbn.
        * assert (y = x) by (apply (node_unique C); auto). subst y. rewrite Ed. reflexivity.
        * set (y' := set_trans (filter (fun a => negb (a =? aid x)) (atrans y)) y).
          assert (Hy' : In y' C1). { apply restrict_In. exists y. split; auto. split; auto. rewrite (proj2 (Nat.eqb_neq _ _) En0). auto. }
          specialize (K1 y' Hy'). exact K1.
      + intros a Ha. rewrite K2.
        * destruct (Nat.eqb_spec a (aid x)) as [->|]; auto. exfalso. apply Ha. apply in_ids. auto.
        * unfold C1. rewrite restrict_ids. intros K. apply filter_In in K. tauto.
    - exists (fun a => match deref C a with Some x => negb (to_delete x) | None => true end).
      assert (Hall : forall x, In x C -> to_delete x = false) by (intros x Hx; apply (find_none _ _ Exx x Hx)).
      split; [|split].
      + f_equal. symmetry. unfold restrict.
        assert (Ht : forall a, (match deref C a with Some x => negb (to_delete x) | None => true end) = true).
        { intros a. destruct (deref C a) as [y|] eqn:Ey; auto. apply deref_In in Ey. rewrite Hall; tauto. }
        rewrite (filter_all' _ _ C) by (intros; apply Ht). rewrite <- (map_id C) at 2. apply map_ext. intros x.
        rewrite (filter_all' _ _ (atrans x)) by (intros; apply Ht). destruct x; reflexivity.
      + intros x Hx. rewrite deref_unique by auto. reflexivity.
      + intros a Ha. apply deref_None in Ha. rewrite Ha. reflexivity.
  Qed.
  Lemma delete_local_ok : forall fuel C, NoDup (ids C) -> length C < fuel ->
    delete_local fuel C = Ok (filter (fun x => negb (to_delete x)) C).
  Proof.
    induction fuel as [|f IH]; intros C Hc Hf; [lia|]. cbn [delete_local]. destruct (find to_delete C) as [x|] eqn:Exx.
    - apply find_some in Exx. destruct Exx as (Hx & Ed). rewrite delete_ok by (auto; apply in_ids; auto).
      rewrite IH.
      + f_equal. rewrite filter_filter. apply filter_ext_In. intros y Hy. destruct (Nat.eqb_spec (aid y) (aid x)) as [E|]; cbn; auto.
        assert (y = x) by (apply (node_unique C); auto). subst y. rewrite Ed. reflexivity.
      + apply nodup_filter_ids. auto.
      + assert (Hlt : length (filter (fun y => negb (aid y =? aid x)) C) < length C); [|lia].
        clear - Hx. induction C as [|y C IH]; [destruct Hx|]. cbn. destruct Hx as [->|Hx].
        * rewrite Nat.eqb_refl. cbn. pose proof (filter_length_le _ (fun y => negb (aid y =? aid x)) C). lia.
        * specialize (IH Hx). destruct (negb (aid y =? aid x)); cbn; lia.
    - f_equal. symmetry. apply filter_all'. intros x Hx. rewrite (find_none _ _ Exx x Hx). reflexivity.
  Qed.
End Connect.

Lemma scale_ok : forall fuel room need i j, scale fuel room need i = Ok j -> (i <= j /\ need <= room * j)%Z.
Proof.
  induction fuel as [|f IH]; intros room need i j H; cbn in H; [discriminate|].
  destruct (room * i <? need)%Z eqn:E; [apply IH in H; lia|]. injection H as <-. apply Z.ltb_ge in E. lia.
Qed.
