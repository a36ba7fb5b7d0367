(** Proofs about check_realizable: C03-C05. *)
From Coq Require Import List ZArith Lia Bool Arith String.
From Verif Require Import Base Fix Game Bdd BGame Support SupportProofs
  Ops OpsProofs Strs Ptree Form PtreeProofs Solve FSpec SolveProofs Examples.
Import ListNotations.
Open Scope string_scope.
Open Scope list_scope.
Open Scope nat_scope.

Section Good.
  Variables ne ns : nat.
  Let n := ne + ns.
  Let m := 2 * (ne + ns).

  (** comparisons of functions of the current state *)
  Lemma split_half : forall v, bitvec m v -> exists s p, v = s ++ p /\ bitvec n s /\ bitvec n p.
  Proof.
    intros v Hv. exists (firstn n v), (skipn n v). rewrite firstn_skipn. split; auto.
    unfold m in Hv. replace (2 * (ne + ns)) with (n + n) in Hv by (unfold n; lia).
    split; [eapply bitvec_firstn|eapply bitvec_skipn]; eauto.
  Qed.
  Lemma evS_any : forall f s p, Good ne ns f -> bitvec n s -> bitvec n p -> ev f (s ++ p) = evS n f s.
  Proof. intros f s p [_ H] Hs Hp. apply H; auto using bitvec_zeros. Qed.
  Lemma Leq_good : forall a b, Good ne ns a -> Good ne ns b ->
    (bLeq m a b = true <-> forall s, bitvec n s -> evS n a s = true -> evS n b s = true).
  Proof.
    intros a b Ha Hb. rewrite bLeq_spec. split; intros H s Hs.
    - intros E. rewrite <- (evS_any b s (zeros n)); auto using bitvec_zeros. apply H.
      + unfold m. replace (2 * (ne + ns)) with (n + n) by (unfold n; lia).
        apply bitvec_app; auto using bitvec_zeros.
      + exact E.
    - destruct (split_half s Hs) as (s1 & p & -> & H1 & H2).
      rewrite !evS_any; auto.
  Qed.
  Lemma evS_And : forall a b s, bitvec n s -> evS n (bAnd m a b) s = evS n a s && evS n b s.
  Proof.
    intros a b s Hs. unfold evS. rewrite ev_And; auto. unfold m.
    replace (2 * (ne + ns)) with (n + n) by (unfold n; lia).
    apply bitvec_app; auto using bitvec_zeros.
  Qed.
  Lemma evS_Not : forall a s, bitvec n s -> evS n (bNot m a) s = negb (evS n a s).
  Proof.
    intros a s Hs. unfold evS. rewrite ev_Not; auto. unfold m.
    replace (2 * (ne + ns)) with (n + n) by (unfold n; lia).
    apply bitvec_app; auto using bitvec_zeros.
  Qed.
  Lemma evS_One : forall s, bitvec n s -> evS n (bOne m) s = true.
  Proof.
    intros s Hs. unfold evS. rewrite ev_One; auto. unfold m.
    replace (2 * (ne + ns)) with (n + n) by (unfold n; lia).
    apply bitvec_app; auto using bitvec_zeros.
  Qed.
  Lemma eqb_zero : forall a, Good ne ns a ->
    (dt_eqb a (bNot m (bOne m)) = true <-> forall s, bitvec n s -> evS n a s = false).
  Proof.
    intros a Ha. rewrite dt_eqb_eq. split.
    - intros -> s Hs. rewrite evS_Not, evS_One; auto.
    - intros H. apply (dt_ext m); [apply Ha|apply wf_mk|].
      intros v Hv. destruct (split_half v Hv) as (s & p & -> & H1 & H2).
      rewrite evS_any by auto. rewrite H by auto. rewrite ev_Not, ev_One; auto.
  Qed.

  (** abstraction of the current system variables *)
  Lemma exist_sys : forall a, Good ne ns a ->
    Good ne ns (bExist m (cube_sys (repeat 0%Z m) ne ns) a) /\
    forall e w, bitvec ne e -> bitvec ns w ->
      (evS n (bExist m (cube_sys (repeat 0%Z m) ne ns) a) (e ++ w) = true <->
       exists w', bitvec ns w' /\ evS n a (e ++ w') = true).
  Proof.
    intros a Ha. rewrite cube_sys_eq by apply repeat_length.
    set (c := (repeat 2 ne ++ repeat 1 ns ++ repeat 2 (ne + ns))%Z).
    assert (Hm : forall s p, bitvec n s -> bitvec n p -> bitvec m (s ++ p)).
    { intros s p Hs Hp. unfold m. replace (2 * (ne + ns)) with (n + n) by (unfold n; lia).
      apply bitvec_app; auto. }
    assert (H : forall e w p, bitvec ne e -> bitvec ns w -> bitvec n p ->
       (ev (bExist m c a) ((e ++ w) ++ p) = true <->
        exists w', bitvec ns w' /\ evS n a (e ++ w') = true)).
    { intros e w p He Hw Hp. rewrite ev_Exist by (apply Hm; auto; apply bitvec_app; auto).
      rewrite existsb_exists. split.
      - intros (u & Hu & E). apply all_vecs_spec in Hu.
        destruct (split_half u Hu) as (s1 & p1 & -> & H1 & H2).
        destruct (split2 ne ns s1 H1) as (e1 & w1 & -> & He1 & Hw1).
        exists w1. split; auto. rewrite <- (evS_any a (e ++ w1) p); auto; [|apply bitvec_app; auto].
        unfold c in E. rewrite <- !app_assoc in E.
        rewrite !merge_q_app in E by (rewrite ?repeat_length; unfold bitvec in *; intuition lia).
        rewrite !merge_q_twos, merge_q_ones in E by (unfold bitvec, n in *; intuition lia).
        rewrite <- app_assoc. exact E.
      - intros (w' & Hw' & E). exists ((e ++ w') ++ p). split.
        + apply all_vecs_spec. apply Hm; auto; apply bitvec_app; auto.
        + unfold c. rewrite <- !app_assoc.
          rewrite !merge_q_app by (rewrite ?repeat_length; unfold bitvec in *; intuition lia).
          rewrite !merge_q_twos, merge_q_ones by (unfold bitvec, n in *; intuition lia).
          rewrite app_assoc, evS_any; auto. apply bitvec_app; auto. }
    split; [split|].
    - apply wf_mk.
    - intros s p q Hs Hp Hq. destruct (split2 ne ns s Hs) as (e & w & -> & He & Hw).
      apply eq_true_iff_eq. rewrite !H by auto. tauto.
    - intros e w He Hw. apply H; auto using bitvec_zeros.
  Qed.
End Good.

Section Real.
  Variable F : fspec.
  Hypothesis Hws : well_scoped F.
  Hypothesis Hbool : all_boolean F.
  Hypothesis Hgoals : fs_sgoals F <> [].
  Let ne := List.length (fs_evars F).
  Let ns := List.length (fs_svars F).
  Let n := ne + ns.
  Let m := 2 * (ne + ns).
  Notation sp := (spec_of F).
  Notation wins s := (sys_wins (game_of F) s).

  Lemma real_total : forall flags, exists N, forall fuel, N <= fuel ->
    exists r, check_realizable sp fuel flags = Ok r.
  Proof.
    intros flags. destruct (winning_set_spec F Hws Hbool Hgoals) as (N & HN). exists N.
    intros fuel Hf. destruct (HN fuel Hf) as (W & HW & _). unfold check_realizable.
    rewrite HW. cbn [bind]. unfold check_realizable_internal.
    destruct (init_BDD_ok F (fs_einit F)) as (d & Hd & _); [apply Hbool|apply Hws|].
    change (env_init sp) with (opt_tree (fs_einit F)). rewrite Hd. cbn [bind].
    destruct (init_BDD_ok F (fs_sinit F)) as (d' & Hd' & _); [apply Hbool|apply Hws|].
    change (sys_init sp) with (opt_tree (fs_sinit F)). rewrite Hd'. cbn [bind]. eauto.
  Qed.

  Lemma real_inv : forall flags fuel r, check_realizable sp fuel flags = Ok r ->
    exists W ei si, Good ne ns W /\ Good ne ns ei /\ Good ne ns si /\
      (forall s, bitvec n s -> (evS n W s = true <-> wins s)) /\
      (forall s, bitvec n s -> evS n ei s = holds_opt F (fs_einit F) s) /\
      (forall s, bitvec n s -> evS n si s = holds_opt F (fs_sinit F) s) /\
      (r <> None <-> realizable_BDD sp flags ei si W = true) /\
      (forall W', r = Some W' -> W' = W).
  Proof.
    intros flags fuel r H. unfold check_realizable in H.
    destruct (compute_winning_set sp fuel) as [W| |] eqn:HW; try discriminate.
    cbn [bind] in H. unfold check_realizable_internal in H.
    destruct (init_BDD_ok F (fs_einit F)) as (ei & Hd & Hg & He); [apply Hbool|apply Hws|].
    change (env_init sp) with (opt_tree (fs_einit F)) in H. rewrite Hd in H. cbn [bind] in H.
    destruct (init_BDD_ok F (fs_sinit F)) as (si & Hd' & Hg' & He'); [apply Hbool|apply Hws|].
    change (sys_init sp) with (opt_tree (fs_sinit F)) in H. rewrite Hd' in H. cbn [bind] in H.
    destruct (winning_set_exact F Hws Hbool Hgoals fuel W HW) as [HG HE].
    exists W, ei, si. repeat (split; [assumption|]). split.
    { intros s Hs. apply HE. rewrite states_eq; auto. apply all_vecs_spec; auto. }
    split; [exact He|]. split; [exact He'|].
    inversion H; subst. destruct (realizable_BDD sp flags ei si W); split; try congruence;
      split; congruence.
  Qed.

  Lemma Leq_good' : forall a b, Good ne ns a -> Good ne ns b ->
    (bLeq m a b = true <-> forall s, bitvec n s -> evS n a s = true -> evS n b s = true).
  Proof. exact (Leq_good ne ns). Qed.

  Lemma eA : forall a b s, bitvec n s -> evS n (bAnd m a b) s = evS n a s && evS n b s.
  Proof. exact (evS_And ne ns). Qed.
  Lemma eN : forall a s, bitvec n s -> evS n (bNot m a) s = negb (evS n a s).
  Proof. exact (evS_Not ne ns). Qed.
  Lemma eO : forall s, bitvec n s -> evS n (bOne m) s = true.
  Proof. exact (evS_One ne ns). Qed.
  Lemma eZ : forall a, Good ne ns a ->
    (dt_eqb a (bNot m (bOne m)) = true <-> forall s, bitvec n s -> evS n a s = false).
  Proof. exact (eqb_zero ne ns). Qed.
  Definition initial (s : vec) : Prop :=
    In s (fs_states F) /\ holds_opt F (fs_einit F) s = true /\ holds_opt F (fs_sinit F) s = true.

  Lemma all_init_verdict : forall fuel r, check_realizable sp fuel ALL_INIT = Ok r ->
    (r <> None <-> (exists s, initial s) /\ forall s, initial s -> wins s).
  Proof.
    intros fuel r H. destruct (real_inv _ _ _ H) as (W & ei & si & GW & Ge & Gs & HW & He & Hs & Hr & _).
    rewrite Hr. clear Hr H. unfold realizable_BDD.
    rewrite nvars_eq; auto. fold ne ns m.
    assert (G1 : Good ne ns (bAnd m ei si)) by (apply good_And; auto).
    assert (G2 : Good ne ns (bAnd m (bAnd m ei si) W)) by (apply good_And; auto).
    destruct (dt_eqb (bAnd m ei si) (bNot m (bOne m))) eqn:E1.
    { simpl. split; [discriminate|]. intros [(s & Hi & Hi1 & Hi2) _].
      rewrite states_eq in Hi; auto. apply all_vecs_spec in Hi.
      pose proof (proj1 (eZ _ G1) E1 s Hi) as E.
      rewrite eA in E; auto. 
      rewrite He, Hs, Hi1, Hi2 in E; auto. }
    assert (Hex : exists s, initial s).
    { destruct (existsb (fun s => evS n (bAnd m ei si) s) (all_vecs n)) eqn:E2.
      - apply existsb_exists in E2. destruct E2 as (s & Hi & E2).
        pose proof Hi as Hi'. apply all_vecs_spec in Hi'. exists s. split.
        rewrite states_eq; auto. rewrite eA in E2; auto.
        apply andb_true_iff in E2. rewrite He, Hs in E2; auto.
      - exfalso. apply not_true_iff_false in E1. apply E1. apply (eZ _ G1).
        intros s Hi. destruct (evS n (bAnd m ei si) s) eqn:E3; auto.
        rewrite <- E2. symmetry. apply existsb_exists. exists s. split; auto.
        apply all_vecs_spec; auto. }
    simpl orb.
    assert (Hd : bLeq m (bAnd m (bAnd m ei si) W) (bAnd m ei si) = true).
    { apply Leq_good'; auto. intros s Hi. rewrite (eA (bAnd _ ei si)); auto.
      intros E. apply andb_true_iff in E. tauto. }
    rewrite Hd, orb_false_r.
    assert (Hu : bLeq m (bAnd m ei si) (bAnd m (bAnd m ei si) W) = true <->
                 forall s, initial s -> wins s).
    { rewrite Leq_good'; auto. split.
      - intros HL s (Hi & Hi1 & Hi2). rewrite states_eq in Hi; auto. apply all_vecs_spec in Hi.
        apply HW; auto. specialize (HL s Hi). unfold m in HL.
        rewrite !eA in HL; auto. rewrite He, Hs, Hi1, Hi2 in HL; auto.
      - intros HL s Hi E. rewrite !eA in *; auto. rewrite E. simpl.
        apply HW; auto. apply HL. apply andb_true_iff in E. 
        rewrite He, Hs in E; auto. split; auto. rewrite states_eq; auto. apply all_vecs_spec; auto. }
    destruct (bLeq m (bAnd m ei si) (bAnd m (bAnd m ei si) W)); simpl; split; intros HH; try tauto;
      try discriminate.
  Qed.

  Lemma one_side_verdict : forall fuel r, check_realizable sp fuel ONE_SIDE_INIT = Ok r ->
    (r <> None <->
     match fs_sinit F with
     | None => forall s, In s (fs_states F) -> holds_opt F (fs_einit F) s = true -> wins s
     | Some f => exists s, In s (fs_states F) /\ holds F f s = true /\ wins s
     end).
  Proof.
    intros fuel r H. destruct (real_inv _ _ _ H) as (W & ei & si & GW & Ge & Gs & HW & He & Hs & Hr & _).
    rewrite Hr. clear Hr H. unfold realizable_BDD. change (sys_init sp) with (opt_tree (fs_sinit F)).
    rewrite nvars_eq; auto. fold ne ns m.
    destruct (fs_sinit F) as [f|] eqn:Ef.
    - assert (Hnn : forall (A : Type) (a b : A), match opt_tree (Some f) with NULL => a | _ => b end = b).
      { intros. destruct f; reflexivity. }
      rewrite Hnn. clear Hnn.
      assert (G1 : Good ne ns (bAnd m si W)) by (apply good_And; auto).
      assert (G0 : Good ne ns (bNot m (bOne m))) by (apply good_Not, good_One).
      assert (Hu : bLeq m (bNot m (bOne m)) (bAnd m si W) = true).
      { apply Leq_good'; auto. intros s Hi. rewrite eN, eO; auto. discriminate. }
      rewrite Hu, orb_false_r. split.
      + intros E. destruct (existsb (fun s => evS n (bAnd m si W) s) (all_vecs n)) eqn:E2.
        * apply existsb_exists in E2. destruct E2 as (s & Hi & E2).
          pose proof Hi as Hi'. apply all_vecs_spec in Hi'. exists s. split.
          rewrite states_eq; auto. rewrite eA in E2; auto.
          apply andb_true_iff in E2. rewrite Hs, HW in E2; auto.
        * exfalso. assert (E3 : bLeq m (bAnd m si W) (bNot m (bOne m)) = true).
          { apply Leq_good'; auto. intros s Hi E3. exfalso.
            assert (existsb (fun s => evS n (bAnd m si W) s) (all_vecs n) = true).
            { apply existsb_exists. exists s. split; auto. apply all_vecs_spec; auto. }
            congruence. }
          rewrite E3 in E. discriminate.
      + intros (s & Hi & Hf & Hwin). rewrite states_eq in Hi; auto. apply all_vecs_spec in Hi.
        destruct (bLeq m (bAnd m si W) (bNot m (bOne m))) eqn:E3; auto. exfalso.
        pose proof (proj1 (Leq_good' _ _ G1 G0) E3 s Hi) as E.
        rewrite eN, eO, eA in E; auto. 
        rewrite Hs in E; auto. simpl holds_opt in E. rewrite Hf in E.
        apply HW in Hwin; auto. rewrite Hwin in E. simpl in E. discriminate E. reflexivity.
    - simpl opt_tree. cbv iota.
      assert (G1 : Good ne ns (bAnd m ei W)) by (apply good_And; auto).
      assert (Hd : bLeq m (bAnd m ei W) ei = true).
      { apply Leq_good'; auto. intros s Hi. rewrite eA; auto.
        intros E. apply andb_true_iff in E. tauto. }
      rewrite Hd. simpl orb.
      assert (Hu : bLeq m ei (bAnd m ei W) = true <->
         forall s, In s (fs_states F) -> holds_opt F (fs_einit F) s = true -> wins s).
      { rewrite Leq_good'; auto. split.
        - intros HL s Hi Hi1. rewrite states_eq in Hi; auto. apply all_vecs_spec in Hi.
          apply HW; auto. specialize (HL s Hi). rewrite eA in HL; auto.
          rewrite He, Hi1 in HL; auto.
        - intros HL s Hi E. rewrite eA; auto. rewrite E. simpl. apply HW; auto.
          apply HL. rewrite states_eq; auto. apply all_vecs_spec; auto. rewrite <- He; auto. }
      destruct (bLeq m ei (bAnd m ei W)); simpl; split; intros HH; try tauto; try discriminate.
  Qed.

  (** general form of the ALL_ENV_EXIST_SYS_INIT test *)
  Lemma aes_verdict : forall fuel r, check_realizable sp fuel ALL_ENV_EXIST_SYS_INIT = Ok r ->
    (r <> None <-> forall s, initial s ->
       exists s', initial s' /\ firstn ne s' = firstn ne s /\ wins s').
  Proof.
    intros fuel r H. destruct (real_inv _ _ _ H) as (W & ei & si & GW & Ge & Gs & HW & He & Hs & Hr & _).
    rewrite Hr. clear Hr H. unfold realizable_BDD.
    rewrite nvars_eq, num_env_eq, num_sys_eq; auto. fold ne ns m. cbv zeta.
    assert (G1 : Good ne ns (bAnd m si ei)) by (apply good_And; auto).
    assert (G2 : Good ne ns (bAnd m (bAnd m si ei) W)) by (apply good_And; auto).
    destruct (exist_sys ne ns _ G1) as [X1 E1]. destruct (exist_sys ne ns _ G2) as [X2 E2].
    fold m in X1, X2, E1, E2. fold n in E1, E2.
    set (A := bExist m (cube_sys (repeat 0%Z m) ne ns) (bAnd m si ei)) in *.
    set (B := bExist m (cube_sys (repeat 0%Z m) ne ns) (bAnd m (bAnd m si ei) W)) in *.
    assert (Hinit : forall s, bitvec n s -> (evS n (bAnd m si ei) s = true <-> initial s)).
    { intros s Hi. rewrite eA; auto. rewrite He, Hs; auto.
      unfold initial. rewrite states_eq, all_vecs_spec, andb_true_iff; auto. tauto. }
    assert (Hinit2 : forall s, bitvec n s -> (evS n (bAnd m (bAnd m si ei) W) s = true <->
               initial s /\ wins s)).
    { intros s Hi. rewrite (eA (bAnd _ si ei)); auto.
      rewrite andb_true_iff. rewrite Hinit, HW; auto. tauto. }
    assert (Hd : bLeq m B A = true).
    { apply Leq_good'; auto. intros s Hi. destruct (split2 ne ns s Hi) as (e & w & -> & H1 & H2).
      rewrite E1, E2; auto. intros (w' & Hw' & E). exists w'. split; auto.
      rewrite Hinit2 in E by (apply bitvec_app; auto). apply Hinit; [apply bitvec_app; auto|tauto]. }
    rewrite Hd. simpl orb.
    assert (Hu : bLeq m A B = true <-> forall s, initial s ->
       exists s', initial s' /\ firstn ne s' = firstn ne s /\ wins s').
    { rewrite Leq_good'; auto. split.
      - intros HL s Hi. assert (Hb : bitvec n s).
        { destruct Hi as [Hi _]. rewrite states_eq in Hi; auto. apply all_vecs_spec; auto. }
        destruct (split2 ne ns s Hb) as (e & w & -> & H1 & H2).
        specialize (HL (e ++ w) Hb). rewrite E1, E2 in HL; auto.
        destruct HL as (w' & Hw' & E).
        { exists w. split; auto. apply Hinit; auto. }
        rewrite Hinit2 in E by (apply bitvec_app; auto).
        exists (e ++ w'). split; [tauto|]. split; [|tauto].
        rewrite !firstn_app. destruct H1 as [H1 _]. rewrite H1, Nat.sub_diag. reflexivity.
      - intros HL s Hb. destruct (split2 ne ns s Hb) as (e & w & -> & H1 & H2).
        rewrite E1, E2; auto. intros (w' & Hw' & E).
        rewrite Hinit in E by (apply bitvec_app; auto).
        destruct (HL _ E) as (s' & Hi' & Hf & Hw1).
        assert (Hb' : bitvec n s').
        { destruct Hi' as [Hi' _]. rewrite states_eq in Hi'; auto. apply all_vecs_spec; auto. }
        destruct (split2 ne ns s' Hb') as (e1 & w1 & -> & H3 & H4).
        assert (e1 = e).
        { rewrite !firstn_app in Hf. destruct H1 as [H1 _]. destruct H3 as [H3 _].
          rewrite H1, H3, Nat.sub_diag in Hf. simpl in Hf. rewrite !app_nil_r in Hf.
          rewrite !firstn_all2 in Hf; auto; lia. }
        subst e1. exists w1. split; auto. apply Hinit2; auto. }
    destruct (bLeq m A B); simpl; split; intros HH; try tauto; try discriminate.
  Qed.
End Real.

Lemma NoDup_disj : forall A (x : A) l l', NoDup (l ++ l') -> In x l -> ~ In x l'.
Proof.
  induction l as [|a l IH]; simpl; intros l' Hnd Hin Hx; auto.
  inversion Hnd as [|? ? Hni Hnd']; subst. destruct Hin as [->|Hin].
  - apply Hni. apply in_or_app; auto.
  - exact (IH _ Hnd' Hin Hx).
Qed.

(** C04 for separated initial conditions *)
Definition holds_env (F : fspec) (f : option form) (e : vec) : bool :=
  match f with None => true | Some g => sem (eval F e) (fun _ => 0%Z) g end.
Section Sep.
  Variable F : fspec.
  Hypothesis Hws : well_scoped F.
  Hypothesis Hbool : all_boolean F.
  Hypothesis Hgoals : fs_sgoals F <> [].
  Hypothesis Hnd : NoDup (names (fs_vars F)).
  Hypothesis He : opt_form (fun f => incl (fvars f) (names (fs_evars F))) (fs_einit F).
  Hypothesis Hs : opt_form (fun f => incl (fvars f) (names (fs_svars F))) (fs_sinit F).
  Let ne := List.length (fs_evars F).
  Let ns := List.length (fs_svars F).
  Notation sp := (spec_of F).
  Notation wins s := (sys_wins (game_of F) s).

  Lemma einit_env : forall e w, bitvec ne e -> bitvec ns w ->
    holds_opt F (fs_einit F) (e ++ w) = holds_env F (fs_einit F) e.
  Proof.
    intros e w Hbe Hbw. destruct Hws as (Hst & _). unfold holds_opt, holds_env, opt_form in *.
    destruct (fs_einit F) as [f|]; auto. unfold holds. destruct Hst as [_ Hn].
    apply sem_ext; [|rewrite Hn; intros x []].
    intros x Hx. unfold val, eval, fs_vars, names. rewrite map_app.
    apply lookup_app_l; [rewrite map_length; apply Hbe|]. apply He; auto.
  Qed.
  Lemma sinit_sys : forall e e' w, bitvec ne e -> bitvec ne e' -> bitvec ns w ->
    holds_opt F (fs_sinit F) (e ++ w) = holds_opt F (fs_sinit F) (e' ++ w).
  Proof.
    intros e e' w Hbe Hbe' Hbw. destruct Hws as (_ & Hst & _). unfold holds_opt, opt_form in *.
    destruct (fs_sinit F) as [f|]; auto. unfold holds. destruct Hst as [_ Hn].
    apply sem_ext; [|rewrite Hn; intros x []].
    intros x Hx. apply Hs in Hx. unfold val, fs_vars, names in *. rewrite map_app in *.
    assert (~ In x (map fst (fs_evars F))).
    { intros Hin. exact (NoDup_disj _ _ _ _ Hnd Hin Hx). }
    rewrite !lookup_app_r; auto; rewrite map_length; apply Hbe || apply Hbe'.
  Qed.

  Lemma aes_separated : (exists s, In s (fs_states F) /\ holds_opt F (fs_sinit F) s = true) ->
    forall fuel r, check_realizable sp fuel ALL_ENV_EXIST_SYS_INIT = Ok r ->
    (r <> None <-> forall e, In e (fs_envs F) -> holds_env F (fs_einit F) e = true ->
       exists s, In s (fs_states F) /\ g_env (game_of F) s = e /\
         holds_opt F (fs_sinit F) s = true /\ wins s).
  Proof.
    intros (s0 & Hs0 & Hsat) fuel r H. rewrite (aes_verdict F Hws Hbool Hgoals fuel r H). fold ne.
    assert (Hst : forall s, In s (fs_states F) <-> exists e w, s = e ++ w /\ bitvec ne e /\ bitvec ns w).
    { intros s. rewrite states_eq, all_vecs_spec by auto. split.
      - intros Hb. destruct (split2 ne ns s Hb) as (e & w & -> & H1 & H2). eauto.
      - intros (e & w & -> & H1 & H2). apply bitvec_app; auto. }
    assert (Hfn : forall e w, bitvec ne e -> firstn ne (e ++ w) = e).
    { intros e w [Hl _]. rewrite firstn_app, Hl, Nat.sub_diag. simpl. rewrite app_nil_r.
      apply firstn_all2. lia. }
    apply Hst in Hs0. destruct Hs0 as (e0 & w0 & -> & He0 & Hw0).
    unfold initial. split.
    - intros HH e Hin Hei. rewrite envs_eq in Hin by auto. apply all_vecs_spec in Hin. fold ne in Hin.
      destruct (HH (e ++ w0)) as (s' & (H1 & H2 & H3) & Hf & Hw).
      { split; [apply Hst; eauto|]. split; [rewrite einit_env; auto|].
        rewrite (sinit_sys e e0); auto. }
      exists s'. rewrite Hfn in Hf by auto. auto.
    - intros HH s (H1 & H2 & H3). apply Hst in H1. destruct H1 as (e & w & -> & Hbe & Hbw).
      destruct (HH e) as (s' & H4 & H5 & H6 & H7).
      { rewrite envs_eq by auto. apply all_vecs_spec; auto. }
      { rewrite <- (einit_env e w); auto. }
      simpl in H5. fold ne in H5. exists s'. split; [|split; auto].
      + split; auto. split; auto. apply Hst in H4. destruct H4 as (e1 & w1 & -> & Hb1 & Hb2).
        rewrite Hfn in H5 by auto. subst e1. rewrite einit_env by auto.
        rewrite <- (einit_env e w); auto.
      + rewrite Hfn; auto.
  Qed.
End Sep.

(** ** The forms used by the property file *)
Lemma winning_set_eval : forall F, well_scoped F -> all_boolean F -> fs_sgoals F <> [] ->
  forall fuel W, compute_winning_set (spec_of F) fuel = Ok W ->
  forall s p, In s (fs_states F) -> In p (fs_states F) ->
    (ev W (s ++ p) = true <-> sys_wins (game_of F) s).
Proof.
  intros F H1 H2 H3 fuel W HW s p Hs Hp.
  destruct (winning_set_exact F H1 H2 H3 fuel W HW) as [HG HE].
  rewrite <- HE by auto. rewrite states_eq in Hs, Hp by auto. apply all_vecs_spec in Hs, Hp.
  rewrite (evS_any _ _ W s p HG Hs Hp). tauto.
Qed.
Lemma winning_set_terminates : forall F, well_scoped F -> all_boolean F -> fs_sgoals F <> [] ->
  exists N, forall fuel, N <= fuel -> exists W, compute_winning_set (spec_of F) fuel = Ok W.
Proof.
  intros F H1 H2 H3. destruct (winning_set_spec F H1 H2 H3) as (N & HN). exists N.
  intros fuel Hf. destruct (HN fuel Hf) as (W & HW & _). eauto.
Qed.
Lemma winning_set_bound : forall ne ns et st egs sgs,
  no_primed_sys ne ns et -> Forall (Good ne ns) egs -> Forall (Good ne ns) sgs ->
  0 < List.length sgs ->
  forall fuel, List.length sgs * 2 ^ (ne + ns) < fuel ->
  exists W, compute_winning_set_BDD ne ns et st fuel egs sgs = Ok W.
Proof.
  intros ne ns et st egs sgs H1 H2 H3 Hk fuel Hf.
  destruct (winning_set_ok ne ns et st H1 egs sgs H2 H3 Hk fuel) as (W & HW & _); eauto.
  - unfold GameTheory.domZ, GameTheory.ngoals. simpl g_sgoals. simpl g_states.
    rewrite prod_length, seq_length, map_length, all_vecs_length. exact Hf.
  - rewrite all_vecs_length. nia.
Qed.
Lemma real_result : forall F, well_scoped F -> all_boolean F -> fs_sgoals F <> [] ->
  forall flags fuel W, check_realizable (spec_of F) fuel flags = Ok (Some W) ->
  forall s p, In s (fs_states F) -> In p (fs_states F) ->
    (ev W (s ++ p) = true <-> sys_wins (game_of F) s).
Proof.
  intros F H1 H2 H3 flags fuel W H s p Hs Hp.
  destruct (real_inv F H1 H2 H3 _ _ _ H) as (W' & ei & si & GW & _ & _ & HW & _ & _ & _ & He).
  specialize (He W eq_refl). subst W'. rewrite states_eq in Hs, Hp by auto.
  apply all_vecs_spec in Hs, Hp. rewrite <- HW by auto.
  rewrite (evS_any _ _ W s p GW Hs Hp). tauto.
Qed.
Lemma all_init_refuted : exists F fuel,
  well_scoped F /\ all_boolean F /\ fs_sgoals F <> [] /\
  (forall s, initial F s -> sys_wins (game_of F) s) /\
  check_realizable (spec_of F) fuel ALL_INIT = Ok None.
Proof.
  exists ex_no_init, 9. split; [exact ex_no_init_scoped|]. split; [exact ex_no_init_bool|].
  split; [discriminate|]. split; [|vm_compute; reflexivity].
  intros s (_ & _ & H). discriminate H.
Qed.
Lemma aes_refuted : exists F fuel W,
  well_scoped F /\ all_boolean F /\ fs_sgoals F <> [] /\
  check_realizable (spec_of F) fuel ALL_ENV_EXIST_SYS_INIT = Ok (Some W) /\
  exists e, In e (fs_envs F) /\ holds_env F (fs_einit F) e = true /\
    ~ exists s, In s (fs_states F) /\ g_env (game_of F) s = e /\
        holds_opt F (fs_sinit F) s = true /\ sys_wins (game_of F) s.
Proof.
  exists ex_no_init, 9. eexists. split; [exact ex_no_init_scoped|]. split; [exact ex_no_init_bool|].
  split; [discriminate|]. split; [vm_compute; reflexivity|].
  exists []. split; [simpl; auto|]. split; [reflexivity|].
  intros (s & _ & _ & H & _). discriminate H.
Qed.
