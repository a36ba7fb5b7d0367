(** The initial states synthesize puts on its stack, and its use of get_env_moves. *)
From Coq Require Import List ZArith Lia Bool Arith.
From Verif Require Import Base Bdd BGame Support SupportProofs EnumProofs Ops OpsProofs RealProofs
  Solve Automaton AutProofs Synth SynthBdd.
Import ListNotations.
Open Scope nat_scope.

Lemma concat_out_any : forall A B (f : A -> out (list B)) g l r,
  (forall x y, f x = Ok y -> y = g x) -> concat_out f l = Ok r -> r = concat (map g l).
Proof.
  intros A B f g. induction l as [|x l IH]; simpl; intros r H Hr.
  - congruence.
  - apply bind_ok in Hr. destruct Hr as (a & Ha & Hr). apply bind_ok in Hr.
    destruct Hr as (b & Hb & Hr). injection Hr as <-. rewrite (H _ _ Ha), (IH b); auto.
Qed.

Lemma get_env_moves_any : forall fuel orc cube s et ne ns l,
  length cube = 2 * (ne + ns) -> bitvec (ne + ns) s ->
  (forall f, wf (2 * (ne + ns)) f -> cubes_ok (2 * (ne + ns)) f (orc f)) ->
  get_env_moves fuel orc cube s et ne ns = Ok l ->
  NoDup l /\
  forall e, In e l <-> (bitvec ne e /\ exists w, bitvec ns w /\ ev et (s ++ e ++ w) = true).
Proof.
  intros fuel orc cube s et ne ns l Hc Hs Horc H.
  destruct (get_env_moves_spec (2 ^ ne) orc cube s et ne ns Hc Hs Horc (le_n _)) as (l' & Hl & Hsp).
  assert (l = l'); [|subst; auto]. unfold get_env_moves in *.
  apply bind_ok in H. destruct H as (f & Hf & H). rewrite Hf in Hl. cbn [bind] in Hl.
  apply (concat_out_any _ _ _ (fun c => completions (slice (ne + ns) ne c))) in H;
    [|intros; eapply enum_cube_any; eauto].
  apply (concat_out_any _ _ _ (fun c => completions (slice (ne + ns) ne c))) in Hl;
    [|intros; eapply enum_cube_any; eauto].
  congruence.
Qed.

Section Init.
  Variables (ne ns : nat) (orc : oracle).
  Let n := ne + ns.
  Let m := 2 * (ne + ns).
  Hypothesis Horc : oracle_ok m orc.
  Notation Good := (Good ne ns).
  Notation den := (evS n).

  Lemma slice0 : forall {A} k (l : list A), slice 0 k l = firstn k l.
  Proof. auto. Qed.
  Lemma mnn : m = n + n. Proof. unfold m, n. lia. Qed.
  Lemma split_nn : forall v, bitvec m v -> exists s p, v = s ++ p /\ bitvec n s /\ bitvec n p.
  Proof.
    intros v Hv. rewrite mnn in Hv. exists (firstn n v), (skipn n v). rewrite firstn_skipn.
    split; auto. split; [eapply bitvec_firstn|eapply bitvec_skipn]; eauto.
  Qed.

  Lemma bm : forall s p, bitvec n s -> bitvec n p -> bitvec m (s ++ p).
  Proof. intros. rewrite mnn. apply bitvec_app; auto. Qed.

  (** completions of a function of the [len] first variables *)
  Lemma completions_of_any : forall fuel t f len g l, wf m f -> len <= m ->
    (forall v, bitvec m v -> ev f v = g (firstn len v)) ->
    completions_of orc fuel t f len = Ok l ->
    NoDup l /\ forall e, In e l <-> bitvec len e /\ g e = true.
  Proof.
    intros fuel t f len g l Hwf Hlen Hg H. unfold completions_of in H.
    apply (concat_out_any _ _ _ (fun c => completions (slice 0 len c))) in H;
      [|intros; rewrite slice0; eapply enum_cube_any; eauto].
    subst l. destruct (enum_slices m 0 len f (orc t f)) as (H1 & H2); auto.
    - apply depends_slice with (g := g); auto.
    - split; auto. intros e. rewrite H2. simpl. rewrite Nat.sub_0_r.
      assert (Hb : forall u, bitvec len u -> bitvec m (u ++ zeros (m - len))).
      { intros u Hu. replace m with (len + (m - len)) at 1 by lia.
        apply bitvec_app; auto using bitvec_zeros. }
      split; intros [He H]; split; auto.
      + rewrite Hg in H by auto. rewrite firstn_len in H by apply He. auto.
      + rewrite Hg by auto. rewrite firstn_len by apply He. auto.
  Qed.
  Lemma completions_of_total : forall fuel t f len, wf m f -> len <= m -> 2 ^ len <= fuel ->
    exists l, completions_of orc fuel t f len = Ok l.
  Proof.
    intros fuel t f len Hwf Hlen Hf. unfold completions_of.
    rewrite (concat_out_ok _ _ _ (fun c => completions (firstn len c))); eauto.
    intros c Hc. apply enum_cube_ok. rewrite firstn_length.
    destruct (Horc t f Hwf) as (Hsh & _). rewrite Forall_forall in Hsh.
    destruct (Hsh c Hc) as (Hl & _). rewrite Hl, Nat.min_l; auto.
  Qed.
  Lemma good_firstn : forall f, Good f -> forall v, bitvec m v -> ev f v = den f (firstn n v).
  Proof.
    intros f Hf v Hv. destruct (split_nn v Hv) as (s & p & -> & Hs & Hp).
    rewrite firstn_len by apply Hs. apply evS_any; auto.
  Qed.
  Lemma completions_good : forall fuel t f l, Good f -> completions_of orc fuel t f n = Ok l ->
    NoDup l /\ forall s, In s l <-> bitvec n s /\ den f s = true.
  Proof.
    intros fuel t f l Hf H. apply (completions_of_any fuel t f); auto.
    - apply Hf.
    - unfold n, m. lia.
    - apply good_firstn; auto.
  Qed.

  (** the environment parts of the states of [einit] *)
  Definition envq : list Z := repeat 2%Z ne ++ repeat 1%Z (m - ne).
  Definition has_sys (einit : dt) (e : vec) : bool := existsb (fun w => den einit (e ++ w)) (all_vecs ns).
  Lemma envq_spec : forall einit, Good einit -> forall v, bitvec m v ->
    ev (bExist m envq einit) v = has_sys einit (firstn ne v).
  Proof.
    intros einit Hg v Hv. rewrite ev_Exist by auto. unfold has_sys, envq.
    assert (Hr : m = ne + (m - ne)) by (unfold m; lia).
    set (r := m - ne) in *.
    assert (Hv' := Hv). rewrite Hr in Hv'.
    pose proof (bitvec_firstn _ _ _ Hv') as He. pose proof (bitvec_skipn _ _ _ Hv') as Hx.
    assert (Hmg : forall u, bitvec m u -> merge_q (repeat 2%Z ne ++ repeat 1%Z r) v u =
                                      firstn ne v ++ skipn ne u).
    { intros u Hu. rewrite <- (firstn_skipn ne v) at 1. rewrite <- (firstn_skipn ne u) at 1.
      rewrite Hr in Hu. pose proof (bitvec_firstn _ _ _ Hu). pose proof (bitvec_skipn _ _ _ Hu).
      rewrite merge_q_app by (rewrite repeat_length; unfold bitvec in *; intuition lia).
      rewrite merge_q_twos, merge_q_ones by (unfold bitvec in *; intuition lia). auto. }
    apply eq_true_iff_eq. rewrite !existsb_exists. split.
    - intros (u & Hu & E). apply all_vecs_spec in Hu. rewrite Hmg in E by auto.
      destruct (split_nn u Hu) as (s & p & -> & Hs & Hp).
      destruct (split2 ne ns s Hs) as (e1 & w1 & -> & He1 & Hw1).
      exists w1. split; [apply all_vecs_spec; auto|].
      rewrite <- app_assoc in E. rewrite skipn_len in E by apply He1.
      rewrite app_assoc in E. rewrite (evS_any ne ns) in E; auto. apply bitvec_app; auto.
    - intros (w & Hw & E). apply all_vecs_spec in Hw.
      assert (Hb : bitvec n (firstn ne v ++ w)) by (apply bitvec_app; auto).
      exists ((firstn ne v ++ w) ++ zeros n).
      assert (Hu : bitvec m ((firstn ne v ++ w) ++ zeros n)).
      { rewrite mnn. apply bitvec_app; auto using bitvec_zeros. }
      split; [apply all_vecs_spec; auto|]. rewrite Hmg by auto.
      rewrite <- (app_assoc (firstn ne v)). rewrite skipn_len by apply He.
      rewrite app_assoc. exact E.
  Qed.
  Lemma has_sys_spec : forall einit e, has_sys einit e = true <->
    exists w, bitvec ns w /\ den einit (e ++ w) = true.
  Proof.
    intros. unfold has_sys. rewrite existsb_exists.
    split; intros (w & Hw & H); exists w; split; auto; apply all_vecs_spec; auto.
  Qed.

  Lemma merge_env : forall e e1 w p, bitvec ne e -> bitvec ne e1 -> bitvec ns w -> bitvec n p ->
    merge_q (e ++ repeat 2%Z (m - ne)) ((e1 ++ w) ++ p) (e ++ repeat 2%Z (m - ne)) = (e ++ w) ++ p.
  Proof.
    intros e e1 w p He He1 Hw Hp. rewrite <- !app_assoc.
    rewrite merge_q_app by (unfold bitvec in *; intuition lia).
    rewrite merge_self_bits by (unfold bitvec in *; intuition lia).
    rewrite merge_q_twos; auto; unfold bitvec, m, n in *; rewrite ?repeat_length, ?app_length; intuition lia.
  Qed.

  (** the stack for ALL_ENV_EXIST_SYS_INIT *)
  Lemma complete_sys_spec : forall W sinit, Good W -> Good sinit ->
    forall es t, Forall (bitvec ne) es ->
    exists o t', complete_sys ne ns orc t W sinit es = Ok (o, t') /\
    match o with
    | Some ss => map (firstn ne) ss = es /\
        forall s, In s ss -> bitvec n s /\ den W s = true /\
          exists e', bitvec ne e' /\ den sinit (e' ++ skipn ne s) = true
    | None => exists e, In e es /\ forall w e', bitvec ns w -> bitvec ne e' ->
        den W (e ++ w) = true -> den sinit (e' ++ w) = true -> False
    end.
  Proof.
    intros W sinit HW Hsi. induction es as [|e es IH]; intros t Hes.
    - exists (Some []), t. split; auto. split; auto. intros s [].
    - inversion Hes as [|? ? He Hes']; subst. cbn [complete_sys].
      rewrite cubeBDD_ok.
      2:{ apply Forall_app. split; [apply bit_lit; apply He|].
          apply Forall_forall. intros y Hy. apply repeat_spec in Hy. unfold islit; auto. }
      fold n. change (2 * n) with m.
      set (c := e ++ repeat 2%Z (m - ne)). set (f := bAnd m (bCof m c W) sinit).
      assert (Hf : forall e1 w p, bitvec ne e1 -> bitvec ns w -> bitvec n p ->
        ev f ((e1 ++ w) ++ p) = den W (e ++ w) && den sinit (e1 ++ w)).
      { intros e1 w p He1 Hw Hp. unfold f.
        assert (Hb : bitvec n (e1 ++ w)) by (apply bitvec_app; auto).
        assert (Hb2 : bitvec m ((e1 ++ w) ++ p)) by (rewrite mnn; apply bitvec_app; auto).
        rewrite ev_And, ev_Cof by auto. unfold c. rewrite merge_env by auto.
        rewrite !(evS_any ne ns) by (auto; apply bitvec_app; auto). auto. }
      assert (Hwf : wf m f) by apply wf_mk.
      destruct (orc t f) as [|gc cs] eqn:Eo.
      + exists None, (S t). split; auto. exists e. split; [left; auto|].
        intros w e' Hw He' H1 H2.
        pose proof (no_cube_ok ne ns orc Horc t f Hwf Eo ((e' ++ w) ++ zeros n)) as H.
        rewrite Hf in H by (auto using bitvec_zeros). rewrite H1, H2 in H. simpl in H.
        assert (true = false); [apply H|discriminate].
        apply bm; auto using bitvec_zeros. apply bitvec_app; auto.
      + destruct (first_cube_ok ne ns orc Horc t f gc cs Hwf Eo) as (Hl & Hb & Hev).
        fold m in Hl, Hb.
        destruct (split_nn _ Hb) as (s & p & Es & Hs & Hp).
        destruct (split2 ne ns s Hs) as (e1 & w & -> & He1 & Hw).
        rewrite Es, Hf in Hev by auto. apply andb_true_iff in Hev. destruct Hev as (Hv1 & Hv2).
        assert (Ei : initialize_cube (firstn n gc) = e1 ++ w).
        { unfold initialize_cube in *. rewrite <- firstn_map. rewrite Es.
          apply firstn_len. apply Hs. }
        rewrite Ei. rewrite skipn_len by apply He1.
        destruct (IH (S t) Hes') as (o & t' & Ho & Hsp). rewrite Ho. cbn [bind fst snd].
        destruct o as [ss|].
        * eexists _, _. split; [reflexivity|]. destruct Hsp as (H1 & H2). split.
          { simpl. rewrite firstn_len by apply He. f_equal. exact H1. }
          intros s [<-|Hin]; auto.
          split; [apply bitvec_app; auto|]. split; auto. exists e1. split; auto.
          rewrite skipn_len by apply He. auto.
        * eexists _, _. split; [reflexivity|]. destruct Hsp as (e2 & H1 & H2).
          exists e2. split; [right|]; auto.
  Qed.

  Variables (einit sinit W : dt).
  Hypothesis (HW : Good W) (Hei : Good einit) (Hsi : Good sinit).

  (** what the stack contains, for each flag *)
  Definition stack_ok (flags : init_flags_t) (sg : bool) (ss : list vec) : Prop :=
    match flags with
    | ALL_INIT => forall s, In s ss <-> bitvec n s /\ den einit s = true /\ den sinit s = true
    | ALL_ENV_EXIST_SYS_INIT =>
        (forall e, bitvec ne e -> (exists w, bitvec ns w /\ den einit (e ++ w) = true) ->
           exists w, bitvec ns w /\ In (e ++ w) ss) /\
        (forall s, In s ss -> bitvec n s /\ den W s = true /\
           (exists w, bitvec ns w /\ den einit (firstn ne s ++ w) = true) /\
           exists e', bitvec ne e' /\ den sinit (e' ++ skipn ne s) = true)
    | ONE_SIDE_INIT =>
        if sg then exists s, ss = [s] /\ bitvec n s /\ den sinit s = true /\ den W s = true
        else forall s, In s ss <-> bitvec n s /\ den einit s = true
    | UNDEFINED_INIT => False
    end.
  Lemma NoDup_of_map : forall A B (f : A -> B) l, NoDup (map f l) -> NoDup l.
  Proof. intros A B f l H. eapply NoDup_map_inv; eauto. Qed.
  Lemma stack_any : forall fuel flags sg ss t,
    initial_stack ne ns orc fuel flags sg einit sinit W = Ok (Some ss, t) ->
    NoDup ss /\ Forall (bitvec n) ss /\ stack_ok flags sg ss.
  Proof.
    intros fuel flags sg ss t H. unfold initial_stack in H. fold n in H. change (2 * n) with m in H.
    destruct flags; [discriminate| | |].
    - apply bind_ok in H. destruct H as (l & Hl & H).
      change (repeat 2%Z ne ++ repeat 1%Z (m - ne)) with envq in Hl.
      destruct (completions_of_any fuel 0 _ ne (has_sys einit) l (wf_mk _ _)
                  ltac:(unfold m; lia) (envq_spec einit Hei) Hl) as (Hnd & Hin).
      assert (Hes : Forall (bitvec ne) (rev l)).
      { apply Forall_forall. intros e He. apply in_rev in He. apply Hin in He. apply He. }
      destruct (complete_sys_spec W sinit HW Hsi (rev l) 1 Hes) as (o & t' & Ho & Hsp).
      rewrite Ho in H. injection H as -> ->. destruct Hsp as (H1 & H2). split; [|split; [|split]].
      + apply (NoDup_of_map _ _ (firstn ne)). rewrite H1. apply NoDup_rev. auto.
      + apply Forall_forall. intros s Hs. apply H2; auto.
      + intros e He Hw. apply has_sys_spec in Hw.
        assert (Hi : In e (map (firstn ne) ss)).
        { rewrite H1. rewrite <- in_rev. apply Hin. auto. }
        apply in_map_iff in Hi. destruct Hi as (s & Es & Hs). destruct (H2 s Hs) as (Hb & _).
        exists (skipn ne s). split; [apply (bitvec_skipn ne); auto|].
        rewrite <- Es. rewrite firstn_skipn. auto.
      + intros s Hs. destruct (H2 s Hs) as (Hb & Hw & Hx). split; auto. split; auto. split; auto.
        assert (Hi : In (firstn ne s) (rev l)) by (rewrite <- H1; apply in_map; auto).
        apply in_rev in Hi. apply Hin in Hi. apply has_sys_spec. apply Hi.
    - apply bind_ok in H. destruct H as (l & Hl & H). injection H as <- <-.
      destruct (good_And ne ns einit sinit Hei Hsi) as (HG & HE).
      destruct (completions_good fuel 0 _ l HG Hl) as (Hnd & Hin). split; [apply NoDup_rev; auto|].
      split.
      + apply Forall_forall. intros s Hs. apply in_rev in Hs. apply Hin in Hs. apply Hs.
      + simpl. intros s. rewrite <- in_rev. rewrite Hin. split; intros (Hb & H).
        * rewrite (evS_And ne ns) in H by auto. apply andb_true_iff in H. auto.
        * split; auto. rewrite (evS_And ne ns) by auto. apply andb_true_iff. auto.
    - destruct sg.
      + set (f := bAnd m sinit W) in *. destruct (orc 0 f) as [|gc cs] eqn:Eo; [discriminate|].
        injection H as <- <-.
        destruct (first_cube_ok ne ns orc Horc 0 f gc cs (wf_mk _ _) Eo) as (Hl & Hb & Hev).
        fold m in Hl, Hb. destruct (split_nn _ Hb) as (s & p & Es & Hs & Hp).
        assert (Ei : initialize_cube (firstn n gc) = s).
        { unfold initialize_cube in *. rewrite <- firstn_map. rewrite Es. apply firstn_len. apply Hs. }
        rewrite Ei. split; [repeat constructor; auto; intros []|]. split; [repeat constructor; auto; apply Hs|].
        exists s. split; auto. split; auto. rewrite Es in Hev. unfold f in Hev.
        rewrite ev_And in Hev by (rewrite mnn; apply bitvec_app; auto).
        rewrite !(evS_any ne ns) in Hev by auto. apply andb_true_iff in Hev. auto.
      + apply bind_ok in H. destruct H as (l & Hl & H). injection H as <- <-.
        destruct (completions_good fuel 0 _ l Hei Hl) as (Hnd & Hin). split; [apply NoDup_rev; auto|].
        split.
        * apply Forall_forall. intros s Hs. apply in_rev in Hs. apply Hin in Hs. apply Hs.
        * simpl. intros s. rewrite <- in_rev. apply Hin.
  Qed.

  (** totality; when NULL is returned *)
  Lemma stack_total : forall fuel flags sg, 2 ^ n <= fuel -> flags <> UNDEFINED_INIT ->
    exists o t, initial_stack ne ns orc fuel flags sg einit sinit W = Ok (o, t) /\
    (o = None -> match flags with
      | ALL_ENV_EXIST_SYS_INIT => exists e, bitvec ne e /\
          (exists w, bitvec ns w /\ den einit (e ++ w) = true) /\
          forall w e', bitvec ns w -> bitvec ne e' -> den W (e ++ w) = true ->
            den sinit (e' ++ w) = true -> False
      | ONE_SIDE_INIT => sg = true /\ forall s, bitvec n s -> den W s = true -> den sinit s = false
      | _ => False
      end).
  Proof.
    intros fuel flags sg Hf Hfl. unfold initial_stack. fold n. change (2 * n) with m.
    destruct flags; [contradiction| | |].
    - change (repeat 2%Z ne ++ repeat 1%Z (m - ne)) with envq.
      destruct (completions_of_total fuel 0 (bExist m envq einit) ne (wf_mk _ _)) as (l & Hl).
      { unfold m. lia. }
      { assert (2 ^ ne <= 2 ^ n) by (apply Nat.pow_le_mono_r; unfold n; lia). lia. }
      destruct (completions_of_any fuel 0 _ ne (has_sys einit) l (wf_mk _ _)
                  ltac:(unfold m; lia) (envq_spec einit Hei) Hl) as (Hnd & Hin).
      assert (Hes : Forall (bitvec ne) (rev l)).
      { apply Forall_forall. intros e He. apply in_rev in He. apply Hin in He. apply He. }
      destruct (complete_sys_spec W sinit HW Hsi (rev l) 1 Hes) as (o & t' & Ho & Hsp).
      rewrite Hl. cbn [bind]. rewrite Ho. exists o, t'. split; auto. intros ->.
      destruct Hsp as (e & He & Hno). exists e. apply in_rev in He. apply Hin in He.
      destruct He as (He & Hx). split; auto. split; auto. apply has_sys_spec; auto.
    - destruct (completions_of_total fuel 0 (bAnd m einit sinit) n (wf_mk _ _)) as (l & Hl).
      { unfold m, n. lia. } { auto. }
      rewrite Hl. cbn [bind]. exists (Some (rev l)), 1. split; auto. discriminate.
    - destruct sg.
      + destruct (orc 0 (bAnd m sinit W)) as [|gc cs] eqn:Eo.
        * exists None, 1. split; auto. intros _. split; auto. intros s Hs HWs.
          pose proof (no_cube_ok ne ns orc Horc 0 (bAnd m sinit W) (wf_mk _ _) Eo (s ++ zeros n)) as H.
          assert (Hb : bitvec m (s ++ zeros n)) by (rewrite mnn; apply bitvec_app; auto using bitvec_zeros).
          specialize (H Hb). rewrite ev_And in H by auto.
          change (ev W (s ++ zeros n)) with (den W s) in H. rewrite HWs, andb_true_r in H. exact H.
        * eexists _, _. split; [reflexivity|]. discriminate.
      + destruct (completions_of_total fuel 0 einit n) as (l & Hl); auto.
        { apply Hei. } { unfold m, n. lia. }
        rewrite Hl. cbn [bind]. exists (Some (rev l)), 1. split; auto. discriminate.
  Qed.
End Init.

(** ** the automaton made of the initial nodes *)
Section Insert.
  Variable alloc : nat -> aut -> nat.
  Hypothesis Halloc : forall t A, ~ In (alloc t A) (ids A).
  Definition init_node (x : anode) : Prop :=
    ainit x = true /\ amode x = 0%Z /\ atrans x = [] .
  Lemma insert_initial_ok : forall ss A t A' t', NoDup (ids A) -> Forall init_node A ->
    insert_initial alloc (map (fun s => (s, 0)) ss) A t = (A', t') ->
    NoDup (ids A') /\ Forall init_node A' /\ map astate A' = rev ss ++ map astate A.
  Proof.
    induction ss as [|s ss IH]; intros A t A' t' Hnd Hin H; simpl in H.
    - injection H as <- <-. auto.
    - apply IH in H.
      + destruct H as (H1 & H2 & H3). split; auto. split; auto. rewrite H3. simpl.
        rewrite <- app_assoc. auto.
      + simpl. constructor; auto.
      + constructor; auto. repeat split.
  Qed.
End Insert.
