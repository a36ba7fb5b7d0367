(** The nodes of the strategy localfixpoint_goalmode returns: old ones and those of the
    local strategy. *)
From Coq Require Import List ZArith Lia Bool Arith.
From Verif Require Import Base Bdd Support SupportProofs Ops Strs Ptree Solve Automaton AutProofs AutProofs2 Synth Reach ReadState
  Nonbool AutIO Hotswap HotProofs AddMerge Patch PatchMerge.
Import ListNotations.
Open Scope nat_scope.

(** localfixpoint after synthesize_reachgame *)
Definition finish (N : list vec) (g : Z) (En Ex : list anode) (min : Z) (L A : aut) : out (option aut) :=
  match connect_entries En L A with
  | None => Ok None
  | Some A1 =>
      o <- connect_exits N g (map aid L) Ex A1 L (-1)%Z ;;
      match o with
      | None => Ok None
      | Some (A2, L2, r) =>
          A3 <- delete_old (S (length (map (mark_node N g) A2))) (map (mark_node N g) A2) ;;
          L3 <- delete_local (S (length L2)) L2 ;;
          i <- scale (S (S (Z.to_nat (max_rgrad L - min_rgrad_of L)))) (min - r) (max_rgrad L - min_rgrad_of L) 1 ;;
          match map (scale_old i) A3 with
          | [] => Crash
          | _ => Ok (Some (map (scale_old i) A3 ++ map (scale_new g (r * i)) L3))
          end
      end
  end.
Lemma lf_parts : forall N g ne ns orc alloc fuel et st egs NB A U B,
  localfixpoint N g ne ns orc alloc fuel et st egs NB A U = Ok (Some B) ->
  exists En Ex0 L, scan_nodes N g A A [] [] = Ok (En, Ex0) /\
    let min := least_rgrad En U in
    let Ex := drop_exits (S (length Ex0)) min [] Ex0 in
    synthesize_reachgame ne ns orc (fun t S => alloc t (S ++ A)) fuel (map astate En) (map astate Ex) et st egs NB = Ok L /\
    L <> [] /\ finish N g En Ex min L A = Ok (Some B).
Proof.
  intros N g ne ns orc alloc fuel et st egs NB A U B H. unfold localfixpoint in H.
  destruct (scan_nodes N g A A [] []) as [(En, Ex0)| |]; try discriminate. cbn [bind fst snd] in H.
  destruct (synthesize_reachgame _ _ _ _ _ _ _ _ _ _ _) as [L| |] eqn:EL; try discriminate. cbn [bind] in H.
  destruct L as [|c L]; [discriminate|]. exists En, Ex0, (c :: L). split; auto. cbv zeta. split; auto. split; [discriminate|].
  exact H.
Qed.
Lemma lf_empty : forall N g ne ns orc alloc fuel et st egs NB A U En Ex0,
  scan_nodes N g A A [] [] = Ok (En, Ex0) ->
  synthesize_reachgame ne ns orc (fun t S => alloc t (S ++ A)) fuel (map astate En)
    (map astate (drop_exits (S (length Ex0)) (least_rgrad En U) [] Ex0)) et st egs NB = Ok [] ->
  localfixpoint N g ne ns orc alloc fuel et st egs NB A U = Ok None.
Proof.
  intros N g ne ns orc alloc fuel et st egs NB A U En Ex0 H1 H2. unfold localfixpoint. rewrite H1. cbn [bind fst snd].
  rewrite H2. reflexivity.
Qed.

Section View.
  Variables (n : nat) (N : list vec) (g : Z) (A L : aut).
  Hypothesis HN : Forall (fun v => length v = n) N.
  Hypothesis HlenA : forall x, In x A -> length (astate x) = n.
  Hypothesis HlenL : forall x, In x L -> length (astate x) = n.
  Hypothesis Hnd : NoDup (ids (A ++ L)).
  Hypothesis HcA : closed A.
  Hypothesis HcL : closed L.
  Hypothesis Hg : (0 <= g)%Z.
  Hypothesis HmA : forall x, In x A -> (0 <= amode x)%Z.
  Hypothesis HmL : forall x, In x L -> amode x = (-1)%Z.
  Variables (En Ex : list anode) (min : Z) (B : aut).
  Hypothesis HEn : incl En A.
  Hypothesis HEx : incl Ex A.
  Hypothesis HExi : forall x, In x Ex -> inside N g x = true.
  Hypothesis HB : finish N g En Ex min L A = Ok (Some B).

  Definition oldn (mE : smap) (M : nat -> bool) (i : Z) (x : anode) : anode :=
    Automaton.Node (aid x) (ainit x) (astate x) (amode x) (argrad x * i) (filter (keep N g A M) (sub_tr mE (atrans x))).
  Definition newn (m : smap) (r : Z) (c : anode) : anode :=
    Automaton.Node (aid c) (ainit c) (astate c) g (argrad c + r) (sub_tr m (atrans c)).
  Record view (mE m : smap) (M : nat -> bool) (i r : Z) : Prop := {
    vw_entry : entry_map L En mE;
    vw_exit : exit_map N g A L Ex mE m M;
    vw_ends : forall c, In c L -> (In (aid c) (map fst m) <-> atrans c = []);
    vw_scale : (1 <= i)%Z;
    vw_room : (max_rgrad L - min_rgrad_of L <= (min - r) * i)%Z;
    vw_bound : bounded Ex m r;
    vw_low : (r = -1 \/ exists x, In x Ex /\ r = argrad x)%Z;
    vw_form : B = map (oldn mE M i) (filter (fun x => negb (drop N g M x)) A) ++
                  map (newn m (r * i)) (filter (fun c => negb (no_trans c)) L)
  }.
  Lemma finish_ok : exists mE m M i r, view mE m M i r.
  Proof.
    unfold finish in HB.
    assert (E0 : entry_map L [] []) by (constructor; [reflexivity|intros a v []]).
    destruct (connect_entries En L A) as [A1|] eqn:E1; [|discriminate].
    rewrite <- (ren_nil A) in E1.
    destruct (connect_entries_ok n A L HlenA HlenL Hnd [] En [] A1 E0 HEn E1) as (mE & -> & HmE). cbn [app] in HmE.
    destruct (connect_exits N g (map aid L) Ex (map (ren mE) A) L (-1)%Z) as [[[[A2 L2] r]|]| |] eqn:E2; try discriminate.
    cbn [bind] in HB.
    assert (Eo : map (ren mE) A = oldv A mE (fun _ => false)) by (unfold oldv; rewrite map_id; reflexivity).
    assert (Enw : newv L [] = L).
    { unfold newv. cbn. rewrite <- (ren_nil L) at 2. reflexivity. }
    rewrite Eo in E2. rewrite <- Enw in E2 at 2.
    assert (HX0 : exit_map N g A L Ex mE [] (fun _ => false)).
    { constructor; try discriminate. intros t v []. }
    destruct (connect_exits_ok n N g A L HlenA HlenL Hnd HcA HcL Hg HmL En Ex mE HEx HExi HmE (map aid L) [] (fun _ => false) (-1)%Z
      A2 L2 r (ndL A L Hnd) (incl_refl _) HX0 ltac:(intros t []) ltac:(intros t x _ []) E2)
      as (m & M & -> & -> & HX & Hb & _ & Hlow & _ & Hends).
    rewrite (marked_form N g A L Hnd Hg HmA Ex mE m M HX) in HB. set (A3 := map _ A) in HB.
    assert (Hi3 : ids A3 = ids A) by (apply ids_map; intros x; destruct (drop N g M x); reflexivity).
    destruct (delete_old_ok (S (length A3)) A3) as (k & Ek & K1 & K2); [rewrite Hi3; apply (ndA A L Hnd)|lia|].
    rewrite Ek in HB. cbn [bind] in HB.
    rewrite delete_local_ok in HB; [|rewrite newv_ids; apply (ndL A L Hnd)|lia]. cbn [bind] in HB.
    destruct (scale _ _ _ 1) as [i| |] eqn:Ei; try discriminate. cbn [bind] in HB. apply scale_ok in Ei.
    assert (Hdom : forall c, In c L -> (In (aid c) (map fst m) <-> atrans c = [])).
    { intros c Hc. split; [|intros Hn; apply Hends; auto; apply in_map; auto]. intros Hi. apply in_map_iff in Hi.
      destruct Hi as ((t & v) & Et & Hi). cbn in Et. subst t. destruct (xm_val _ _ _ _ _ _ _ _ HX _ _ Hi) as (c' & x & Hc' & Ec & Hn & _).
      assert (c' = c) by (apply (node_unique L); auto; apply (ndL A L Hnd)). subst c'. auto. }
    assert (Hk : forall a, k a = keep N g A M a).
    { intros a. destruct (in_dec Nat.eq_dec a (ids A)) as [Ha|Ha].
      - destruct (ids_in A a Ha) as (x & Hx & <-). rewrite (keep_node N g A L Hnd M x Hx).
        set (x3 := if drop N g M x then set_mode (-2) (ren mE x) else ren mE x).
        assert (Hx3 : In x3 A3) by (apply (in_map (fun x => if drop N g M x then set_mode (-2) (ren mE x) else ren mE x)); auto).
        specialize (K1 x3 Hx3). assert (Ea : aid x3 = aid x) by (unfold x3; destruct (drop N g M x); reflexivity).
        rewrite Ea in K1. rewrite K1. f_equal. unfold x3, to_delete. destruct (drop N g M x); cbn; auto.
        apply Z.eqb_neq. specialize (HmA x Hx). lia.
      - rewrite K2 by (rewrite Hi3; auto). unfold keep. apply deref_None in Ha. rewrite Ha. reflexivity. }
    assert (EA : map (scale_old i) (restrict k A3) = map (oldn mE M i) (filter (fun x => negb (drop N g M x)) A)).
    { unfold restrict, A3. rewrite HotProofs.filter_map, !map_map.
      assert (Ef : filter (fun x => k (aid (if drop N g M x then set_mode (-2) (ren mE x) else ren mE x))) A =
                   filter (fun x => negb (drop N g M x)) A).
      { apply filter_ext_In. intros x Hx. rewrite <- (keep_node N g A L Hnd M x Hx), <- Hk. destruct (drop N g M x); reflexivity. }
      rewrite Ef. apply map_ext_in. intros x Hx. apply filter_In in Hx. destruct Hx as (_ & Hx). apply negb_true_iff in Hx. rewrite Hx.
      unfold scale_old, oldn, set_rgrad, set_trans. cbn. f_equal. apply filter_ext. auto. }
    assert (EL : map (scale_new g (r * i)) (filter (fun x => negb (to_delete x)) (newv L m)) =
                 map (newn m (r * i)) (filter (fun c => negb (no_trans c)) L)).
    { unfold newv. rewrite HotProofs.filter_map, !map_map.
      assert (Ef : filter (fun c => negb (to_delete (if memb (aid c) (map fst m) then set_mode (-2) (ren m c) else ren m c))) L =
                   filter (fun c => negb (no_trans c)) L).
      { apply filter_ext_In. intros c Hc. f_equal. specialize (Hdom c Hc). rewrite <- no_trans_nil, <- memb_In in Hdom.
        unfold to_delete. destruct (memb (aid c) (map fst m)); cbn [amode set_mode ren set_trans].
        - symmetry. apply Hdom. reflexivity.
        - rewrite (HmL c Hc). destruct (no_trans c); [|reflexivity]. destruct Hdom as (_ & K). discriminate (K eq_refl). }
      rewrite Ef. apply map_ext_in. intros c Hc. apply filter_In in Hc. destruct Hc as (Hc & Hn). apply negb_true_iff in Hn.
      assert (Hm : memb (aid c) (map fst m) = false).
      { apply memb_false. intros K. apply Hdom in K; auto. apply no_trans_nil in K. congruence. }
      rewrite Hm. reflexivity. }
    rewrite EA, EL in HB.
    exists mE, m, M, i, r. constructor; auto; try lia.
    destruct (map (oldn mE M i) (filter (fun x => negb (drop N g M x)) A)) as [|y l]; [discriminate|].
    injection HB as <-. reflexivity.
  Qed.
End View.
