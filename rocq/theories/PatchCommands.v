(** The commands of a change file. *)
From Coq Require Import List ZArith Lia Bool Arith.
From Verif Require Import Base Game Bdd BGame Support SupportProofs EnumProofs Ops OpsProofs Strs Ptree Form Solve FSpec
  SolveProofs Automaton AutProofs AutProofs2 Synth SynthSpec Reach ReachProofs ReadState Nonbool AutIO
  Hotswap HotSpec HotProofs Interactive InteractSpec InteractProofs Patch PatchMerge PatchSpec PatchRules.
Import ListNotations.
Open Scope nat_scope.

(** ** Affected nodes *)
Lemma some_trans_ok : forall A f l, NoDup (ids A) -> (forall t, In t l -> In t (ids A)) ->
  exists b, some_trans A f l = Ok b /\ (b = true <-> exists y, In y A /\ In (aid y) l /\ f y = true).
Proof.
  intros A f l Hnd. induction l as [|t l IH]; intros Hl; cbn [some_trans].
  { exists false. split; [reflexivity|]. split; [discriminate|]. intros (y & _ & [] & _). }
  destruct (deref_Some A t (Hl t (or_introl eq_refl))) as (y & Ey). rewrite Ey. apply deref_In in Ey. destruct Ey as (Hy & Et).
  destruct (f y) eqn:Ef.
  - exists true. split; [reflexivity|]. split; auto. intros _. exists y. rewrite Et. split; auto. split; [left|]; auto.
  - destruct IH as (b & Eb & Hb); [intros; apply Hl; right; auto|]. exists b. split; auto. rewrite Hb. split.
    + intros (z & Hz & Hzl & Ez). exists z. split; auto. split; [right|]; auto.
    + intros (z & Hz & [Hzt|Hzl] & Ez); [|exists z; auto].
      assert (z = y). { apply (node_unique A); auto. congruence. } congruence.
Qed.
Lemma affected_ok : forall k N f g l aff, (forall x, In x l -> f x = Ok (g x)) ->
  (forall x, In x l -> (0 <= amode x < Z.of_nat k)%Z) ->
  affected_nodes k N f l aff =
    Ok (if forallb (fun x => negb (g x) || inN N (astate x)) l
        then Some (aff ++ map (fun x => (amode x, aid x)) (filter g l)) else None).
Proof.
  intros k N f g l. induction l as [|x l IH]; intros aff Hf Hm; cbn [affected_nodes].
  { cbn. rewrite app_nil_r. reflexivity. }
  rewrite (Hf x (or_introl eq_refl)). cbn [bind]. cbn [forallb filter].
  assert (IH' := fun a => IH a (fun y Hy => Hf y (or_intror Hy)) (fun y Hy => Hm y (or_intror Hy))).
  destruct (g x); cbn [negb orb]; [|rewrite IH'; reflexivity].
  unfold mode_ok. pose proof (Hm x (or_introl eq_refl)) as Hx.
  replace ((0 <=? amode x) && (amode x <? Z.of_nat k))%Z with true
    by (symmetry; apply andb_true_iff; split; [apply Z.leb_le|apply Z.ltb_lt]; lia).
  destruct (inN N (astate x)); cbn [andb]; [|reflexivity]. rewrite IH'.
  cbn [map]. rewrite <- app_assoc. reflexivity.
Qed.
Lemma nodes_of_In : forall A c j s x, In x (nodes_of A c j s) <->
  In x A /\ (j <= amode x < j + Z.of_nat c)%Z /\ statecmp (astate x) s = true.
Proof.
  intros A. induction c as [|c IH]; intros j s x; cbn [nodes_of].
  { split; [intros []|]. intros (_ & H & _). lia. }
  rewrite in_app_iff, filter_In, IH, andb_true_iff, Z.eqb_eq. split.
  - intros [(H1 & H2 & H3)|(H1 & H2 & H3)]; (split; [exact H1|]); (split; [lia|exact H3]).
  - intros (H1 & H2 & H3). destruct (Z.eq_dec (amode x) j); [left|right]; (split; [exact H1|]); (split; [lia|exact H3]).
Qed.

Section Commands.
  Variable F : fspec.
  Hypothesis Hws : well_scoped F.
  Hypothesis Hbool : all_boolean F.
  Hypothesis Hsvars : fs_svars F <> [].
  Let ne := length (fs_evars F).
  Let ns := length (fs_svars F).
  Let n := ne + ns.
  Let m := 2 * (ne + ns).
  Let k := length (fs_sgoals F).
  Variable N : list vec.
  Hypothesis HN : Forall (bitvec n) N.
  Variable A : aut.
  Hypothesis Hids : NoDup (ids A).
  Hypothesis Hclosed : forall x t, In x A -> In t (atrans x) -> In t (ids A).
  Hypothesis Hstates : forall x, In x A -> bitvec n (astate x).
  Hypothesis Hmodes : forall x, In x A -> (0 <= amode x < Z.of_nat k)%Z.
  Notation state0 := (state_BDD_eq F [bOne 0] (map (fun _ => bOne 0) (fs_sgoals F)) (map_length _ _) (le_n 1) _ (le_n _)).
  Notation state2 := (state_BDD_eq2 F [bOne 0] (map (fun _ => bOne 0) (fs_sgoals F)) (map_length _ _) (le_n 1) _ (le_n _)).
  Notation env0 := (env_BDD_eq F [bOne 0] (map (fun _ => bOne 0) (fs_sgoals F)) (map_length _ _) (le_n 1) _ (le_n _)).
  Notation next0 := (next_BDD_eq F [bOne 0] (map (fun _ => bOne 0) (fs_sgoals F)) (map_length _ _) (le_n 1) _ (le_n _)).
  Notation out0 := (out_BDD_eq F [bOne 0] (map (fun _ => bOne 0) (fs_sgoals F)) (map_length _ _) (le_n 1) _ (le_n _)).

  (** what a command does *)
  Definition step (c : command) (q : change_state) : out (option change_state) :=
    match c with
    | RestrictEnv s e | RestrictSys s e => change_edge ne ns k A N true (s ++ e) q
    | RelaxEnv s e | RelaxSys s e => change_edge ne ns k A N false (s ++ e) q
    | BlockSys y => block_sys ne ns k A N y q
    | _ => Crash
    end.
  Definition fits_state (r : rules) (q : change_state) : Prop := locally F N r (cs_et q) (cs_st q).
  (** [aff'] are [aff] and the nodes that satisfy [P] *)
  Definition grown (P : anode -> Prop) (aff aff' : list (Z * nat)) : Prop :=
    (forall x, In x A -> (In (amode x, aid x) aff' <-> In (amode x, aid x) aff \/ P x)) /\
    (forall p, In p aff' -> In p aff \/ exists x, In x A /\ p = (amode x, aid x) /\ inN N (astate x) = true).

  Lemma affected_grown : forall f g l aff P, (forall x, In x l -> In x A /\ f x = Ok (g x)) ->
    (forall x, In x A -> (P x <-> In x l /\ g x = true)) ->
    exists o, affected_nodes k N f l aff = Ok o /\
      (o = None <-> exists x, In x A /\ P x /\ inN N (astate x) = false) /\
      forall aff', o = Some aff' -> grown P aff aff'.
  Proof.
    intros f g l aff P Hl HP. eexists. split; [apply (affected_ok k N f g l aff)|].
    { intros x Hx. apply Hl. auto. } { intros x Hx. apply Hmodes. apply Hl. auto. }
    destruct (forallb _ l) eqn:E.
    - split.
      + split; [discriminate|]. intros (x & Hx & Px & Ex). apply HP in Px; auto. destruct Px as (Hxl & Gx).
        rewrite forallb_forall in E. specialize (E x Hxl). rewrite Gx, Ex in E. discriminate.
      + intros aff' H. injection H as <-. split.
        * intros x Hx. rewrite in_app_iff. rewrite HP by auto. apply or_iff_compat_l. rewrite in_map_iff. split.
          -- intros (y & Ey & Hy). apply filter_In in Hy. destruct Hy as (Hy & Gy). injection Ey as _ Ey.
             assert (y = x) by (apply (node_unique A); auto; apply Hl; auto). subst. auto.
          -- intros (Hxl & Gx). exists x. split; auto. apply filter_In. auto.
        * intros p Hp. apply in_app_or in Hp. destruct Hp as [Hp|Hp]; auto. right. apply in_map_iff in Hp.
          destruct Hp as (x & <- & Hx). apply filter_In in Hx. destruct Hx as (Hx & Gx). exists x. split; [apply Hl; auto|]. split; auto.
          rewrite forallb_forall in E. specialize (E x Hx). rewrite Gx in E. exact E.
    - split; [|discriminate]. split; auto. intros _.
      assert (K : existsb (fun x => g x && negb (inN N (astate x))) l = true).
      { destruct (existsb _ l) eqn:Ex; auto. rewrite <- E. apply forallb_forall. intros x Hx.
        destruct (g x) eqn:Gx; auto. destruct (inN N (astate x)) eqn:Nx; auto. exfalso.
        assert (K : existsb (fun x => g x && negb (inN N (astate x))) l = true); [|congruence].
        apply existsb_exists. exists x. rewrite Gx, Nx. auto. }
      apply existsb_exists in K. destruct K as (x & Hx & Kx). apply andb_true_iff in Kx. destruct Kx as (Gx & Nx).
      apply negb_true_iff in Nx. exists x. split; [apply Hl; auto|]. split; auto. apply HP; auto. apply Hl; auto.
  Qed.
  Lemma trans_test : forall f x, In x A -> exists b, some_trans A f (atrans x) = Ok b /\
    (b = true <-> exists y, In y A /\ In (aid y) (atrans x) /\ f y = true).
  Proof. intros f x Hx. apply some_trans_ok; auto. intros t Ht. apply (Hclosed x); auto. Qed.
  (** the test as a function *)
  Definition tt (f : anode -> bool) (x : anode) : bool := match some_trans A f (atrans x) with Ok b => b | _ => false end.
  Lemma tt_ok : forall f x, In x A -> some_trans A f (atrans x) = Ok (tt f x) /\
    (tt f x = true <-> exists y, In y A /\ In (aid y) (atrans x) /\ f y = true).
  Proof. intros f x Hx. destruct (trans_test f x Hx) as (b & Eb & Hb). unfold tt. rewrite Eb. auto. Qed.
  Lemma grown_none : forall aff, grown (fun _ => False) aff aff.
  Proof. intros aff. split; [tauto|auto]. Qed.
  Lemma at_state : forall s x, bitvec n s -> (In x (nodes_of A k 0 s) <-> In x A /\ astate x = s).
  Proof.
    intros s x Hs. rewrite nodes_of_In. split.
    - intros (H1 & _ & H2). split; auto. apply statecmp_eq; auto. rewrite (proj1 (Hstates x H1)). symmetry. apply Hs.
    - intros (H1 & H2). split; auto. split; [pose proof (Hmodes x H1); lia|]. subst s. apply statecmp_refl.
  Qed.

  Lemma firstn_s : forall s e, bitvec n s -> firstn (ne + ns) (s ++ e) = s.
  Proof. intros s e Hs. fold n. rewrite <- (proj1 Hs), firstn_app, firstn_all, Nat.sub_diag. apply app_nil_r. Qed.
  Lemma skipn_s : forall s e : vec, bitvec n s -> skipn (ne + ns) (s ++ e) = e.
  Proof. intros s e Hs. fold n. rewrite <- (proj1 Hs), skipn_app, skipn_all, Nat.sub_diag. reflexivity. Qed.
  Lemma ns_pos : 0 < ns.
  Proof. unfold ns. destruct (fs_svars F); [congruence|cbn; lia]. Qed.

  Lemma step_ok : forall c r q, valid F c -> is_change c = true -> fits_state r q ->
    exists o, step c q = Ok o /\
      (o = None <-> exists x, In x A /\ unfit_by F A x c /\ inN N (astate x) = false) /\
      forall q', o = Some q' -> fits_state (edit F c r) q' /\ grown (fun x => unfit_by F A x c) (cs_aff q) (cs_aff q').
  Proof.
    intros c r q Hv Hc (Hnp & Het & Hst). pose proof ns_pos as Hns.
    assert (Hno : forall P : anode -> Prop, (forall x, ~ P x) -> forall o : option change_state, o <> None ->
      (o = None <-> exists x, In x A /\ P x /\ inN N (astate x) = false)).
    { intros P HP o Ho. split; [congruence|]. intros (x & _ & Px & _). destruct (HP x Px). }
    destruct c as [| | | | |s e|s e|s e|s e| |y| | |]; try discriminate; cbn [valid] in Hv; cbn [step]; unfold change_edge, block_sys; cbv zeta.
    - destruct Hv as (H1 & H2). apply (stb F Hbool) in H1. apply (enb F Hbool) in H2.
      rewrite firstn_s, skipn_s by auto. rewrite app_length. assert (L1 : length s = ne + ns) by apply H1. rewrite L1. assert (L2 : length e = ne) by apply H2. rewrite L2.
      replace (ne + ns + ne =? 2 * (ne + ns)) with false by (symmetry; apply Nat.eqb_neq; unfold n; lia).
      replace (ne + ns + ne =? 2 * ne + ns) with true by (symmetry; apply Nat.eqb_eq; unfold n; lia).
      cbn [andb negb bind]. eexists. split; [reflexivity|]. split; [apply Hno; [intros x []|discriminate]|].
      intros q' E. injection E as <-. split; [|apply grown_none].
      split; [|split]; cbn [cs_et cs_st edit may_env with_env may_sys]; auto.
      + intros u x w w' Hu Hx Hw Hw'. rewrite !ev_And, !ev_Or, !ev_Not by (apply (bm3 F); auto).
        rewrite !state0, !env0 by auto. f_equal. apply Hnp; auto.
      + intros u x w Hu HuN Hx Hw. rewrite ev_And, ev_Or, !ev_Not by (apply (bm3 F); auto).
        rewrite state0, env0, Het by auto. destruct (may_env r u x), (vec_eqb u s), (vec_eqb x e); reflexivity.
    - destruct Hv as (H1 & H2). apply (stb F Hbool) in H1, H2.
      rewrite firstn_s, skipn_s by auto. rewrite app_length. assert (L1 : length s = ne + ns) by apply H1. rewrite L1. assert (L2 : length e = ne + ns) by apply H2. rewrite L2.
      replace (ne + ns + (ne + ns) =? 2 * (ne + ns)) with true by (symmetry; apply Nat.eqb_eq; lia).
      replace (ne + ns + (ne + ns) =? 2 * ne + ns) with false by (symmetry; apply Nat.eqb_neq; unfold n; lia).
      cbn [andb].
      destruct (affected_grown (fun x => some_trans A (fun y => statecmp (astate y) e) (atrans x))
        (tt (fun y => statecmp (astate y) e)) (nodes_of A k 0 s) (cs_aff q) (fun x => unfit_by F A x (RestrictSys s e))) as (o & Eo & Ho1 & Ho2).
      { intros x Hx. apply at_state in Hx; auto. split; [apply Hx|]. apply tt_ok. apply Hx. }
      { intros x Hx. rewrite at_state by auto. rewrite (proj2 (tt_ok _ x Hx)). cbn [unfit_by]. split.
        - intros (E & y & Hy & Ht & Ey). split; auto. exists y. split; auto. split; auto. rewrite Ey. apply statecmp_refl.
        - intros ((_ & E) & y & Hy & Ht & Ey). split; auto. exists y. split; auto. split; auto.
          apply statecmp_eq in Ey; auto. rewrite (proj1 (Hstates y Hy)). symmetry. apply H2. }
      rewrite Eo. cbn [bind]. destruct o as [aff|]; (eexists; split; [reflexivity|]);
        (split; [rewrite <- Ho1; split; congruence|]); [|discriminate].
      intros q' E. injection E as <-. split; [|apply Ho2; auto].
      split; [|split]; cbn [cs_et cs_st edit may_env with_sys may_sys]; auto.
      intros u x Hu HuN Hx. rewrite ev_And, ev_Or, !ev_Not by (apply (bm2 F); auto).
      rewrite state2, next0, Hst by auto. destruct (may_sys r u x), (vec_eqb u s), (vec_eqb x e); reflexivity.
    - destruct Hv as (H1 & H2). apply (stb F Hbool) in H1. apply (enb F Hbool) in H2.
      rewrite firstn_s, skipn_s by auto. rewrite app_length. assert (L1 : length s = ne + ns) by apply H1. rewrite L1. assert (L2 : length e = ne) by apply H2. rewrite L2.
      replace (ne + ns + ne =? 2 * ne + ns) with true by (symmetry; apply Nat.eqb_eq; unfold n; lia).
      cbn [andb negb].
      destruct (affected_grown (fun x => b <- some_trans A (fun y => statecmp (firstn ne (astate y)) e) (atrans x) ;; Ok (negb b))
        (fun x => negb (tt (fun y => statecmp (firstn ne (astate y)) e) x)) (nodes_of A k 0 s) (cs_aff q)
        (fun x => unfit_by F A x (RelaxEnv s e))) as (o & Eo & Ho1 & Ho2).
      { intros x Hx. apply at_state in Hx; auto. split; [apply Hx|].
        rewrite (proj1 (tt_ok _ x (proj1 Hx))). reflexivity. }
      { intros x Hx. rewrite at_state by auto. rewrite negb_true_iff. cbn [unfit_by].
        assert (L : forall y, In y A -> (statecmp (firstn ne (astate y)) e = true <-> g_env (game_of F) (astate y) = e)).
        { intros y Hy. cbn. apply statecmp_eq. rewrite firstn_length, (proj1 (Hstates y Hy)).
          assert (length e = ne) by apply H2. unfold n. lia. }
        pose proof (proj2 (tt_ok (fun y => statecmp (firstn ne (astate y)) e) x Hx)) as T. split.
        - intros (E & Hn). split; auto. apply not_true_is_false. rewrite T. intros (y & Hy & Ht & Ey).
          apply (Hn y Hy Ht). apply L; auto.
        - intros ((_ & E) & Hn). split; auto. intros y Hy Ht Ey. apply not_true_iff_false in Hn. apply Hn. apply T. exists y.
          split; auto. split; auto. apply L; auto. }
      rewrite Eo. cbn [bind]. destruct o as [aff|]; (eexists; split; [reflexivity|]);
        (split; [rewrite <- Ho1; split; congruence|]); [|discriminate].
      intros q' E. injection E as <-. split; [|apply Ho2; auto].
      split; [|split]; cbn [cs_et cs_st edit may_env with_env may_sys]; auto.
      + intros u x w w' Hu Hx Hw Hw'. rewrite !ev_Or, !ev_And by (apply (bm3 F); auto).
        rewrite !state0, !env0 by auto. f_equal. apply Hnp; auto.
      + intros u x w Hu HuN Hx Hw. rewrite ev_Or, ev_And by (apply (bm3 F); auto).
        rewrite state0, env0, Het by auto. apply orb_comm.
    - destruct Hv as (H1 & H2). apply (stb F Hbool) in H1, H2.
      rewrite firstn_s, skipn_s by auto. rewrite app_length. assert (L1 : length s = ne + ns) by apply H1. rewrite L1. assert (L2 : length e = ne + ns) by apply H2. rewrite L2.
      replace (ne + ns + (ne + ns) =? 2 * ne + ns) with false by (symmetry; apply Nat.eqb_neq; unfold n; lia).
      cbn [andb negb bind]. eexists. split; [reflexivity|]. split; [apply Hno; [intros x []|discriminate]|].
      intros q' E. injection E as <-. split; [|apply grown_none].
      split; [|split]; cbn [cs_et cs_st edit may_env with_sys may_sys]; auto.
      intros u x Hu HuN Hx. rewrite ev_Or, ev_And by (apply (bm2 F); auto).
      rewrite state2, next0, Hst by auto. apply orb_comm.
    - apply (outb F Hbool) in Hv.
      destruct (affected_grown (fun x => some_trans A (fun z => statecmp y (skipn ne (astate z))) (atrans x))
        (tt (fun z => statecmp y (skipn ne (astate z)))) A (cs_aff q) (fun x => unfit_by F A x (BlockSys y))) as (o & Eo & Ho1 & Ho2).
      { intros x Hx. split; auto. apply tt_ok; auto. }
      { intros x Hx. rewrite (proj2 (tt_ok _ x Hx)). cbn [unfit_by].
        assert (L : forall z, In z A -> (statecmp y (skipn ne (astate z)) = true <-> out_of F (astate z) = y)).
        { intros z Hz. unfold out_of. fold ne. rewrite statecmp_eq; [split; auto|]. rewrite skipn_length, (proj1 (Hstates z Hz)).
          assert (length y = ns) by apply Hv. unfold n. lia. }
        split.
        - intros (z & Hz & Ht & Ez). split; auto. exists z. split; auto. split; auto. apply L; auto.
        - intros (_ & z & Hz & Ht & Ez). exists z. split; auto. split; auto. apply L; auto. }
      rewrite Eo. cbn [bind]. destruct o as [aff|]; (eexists; split; [reflexivity|]);
        (split; [rewrite <- Ho1; split; congruence|]); [|discriminate].
      intros q' E. injection E as <-. split; [|apply Ho2; auto].
      split; [|split]; cbn [cs_et cs_st edit may_env with_sys may_sys]; auto.
      intros u x Hu HuN Hx. rewrite ev_And, ev_Not by (apply (bm2 F); auto).
      rewrite out0, Hst by auto. reflexivity.
  Qed.

  (** ** All of them *)
  Fixpoint steps (l : list command) (q : change_state) : out (option change_state) :=
    match l with
    | [] => Ok (Some q)
    | c :: l => o <- step c q ;; match o with None => Ok None | Some q => steps l q end
    end.
  Lemma steps_ok : forall l r q, Forall (valid F) l -> forallb is_change l = true -> fits_state r q ->
    exists o, steps l q = Ok o /\
      (o = None <-> exists x, In x A /\ unfit F A l x /\ inN N (astate x) = false) /\
      forall q', o = Some q' -> fits_state (fold_left (fun r c => edit F c r) l r) q' /\ grown (unfit F A l) (cs_aff q) (cs_aff q').
  Proof.
    induction l as [|c l IH]; intros r q Hv Hc Hq; cbn [steps].
    { eexists. split; [reflexivity|]. split.
      - split; [discriminate|]. intros (x & _ & (c & [] & _) & _).
      - intros q' E. injection E as <-. split; auto. split; [|auto]. intros x Hx. split; auto. intros [H|(c & [] & _)]; auto. }
    inversion Hv as [|? ? Hv1 Hv2]; subst. cbn in Hc. apply andb_true_iff in Hc. destruct Hc as (Hc1 & Hc2).
    destruct (step_ok c r q Hv1 Hc1 Hq) as (o & Eo & Ho1 & Ho2). rewrite Eo. cbn [bind]. destruct o as [q1|].
    - destruct (Ho2 q1 eq_refl) as (Hq1 & Hg1). destruct (IH _ q1 Hv2 Hc2 Hq1) as (o & Eo' & Ho1' & Ho2'). exists o. split; auto. split.
      + rewrite Ho1'. split.
        * intros (x & Hx & (d & Hd & Hu) & Nx). exists x. split; auto. split; auto. exists d. split; [right|]; auto.
        * intros (x & Hx & (d & [<-|Hd] & Hu) & Nx).
          -- assert (K : @None change_state = None) by auto. exfalso. assert (Some q1 = None); [|discriminate]. apply Ho1. eauto.
          -- exists x. split; auto. split; auto. exists d. auto.
      + intros q' E. destruct (Ho2' q' E) as (Hq' & Hg'). split; auto. destruct Hg1 as (G1 & G2), Hg' as (G3 & G4). split.
        * intros x Hx. rewrite G3, G1 by auto. split.
          -- intros [[H|H]|(d & Hd & Hu)]; auto; right; [exists c|exists d]; (split; [cbn; auto|auto]).
          -- intros [H|(d & [<-|Hd] & Hu)]; auto. right. exists d. auto.
        * intros p Hp. destruct (G4 p Hp) as [Hp'|Hp']; auto.
    - eexists. split; [reflexivity|]. split; [|discriminate]. split; auto. intros _.
      destruct (proj1 Ho1 eq_refl) as (x & Hx & Hu & Nx). exists x. split; auto. split; auto. exists c. split; [left|]; auto.
  Qed.
End Commands.
