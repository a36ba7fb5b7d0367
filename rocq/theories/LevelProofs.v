(** The arrays returned by compute_sublevel_sets form ladders (C37). *)
From Coq Require Import List ZArith Lia Bool Arith.
From Verif Require Import Base Fix Game GameTheory GameComplete Bdd BGame Support SupportProofs
  EnumProofs Ops OpsProofs SubProofs Levels.
Import ListNotations.
Open Scope nat_scope.

Section LevelProofs.
  Variables (ne ns : nat) (et st : dt).
  Let n := ne + ns.
  Let m := 2 * (ne + ns).
  Hypothesis Het : no_primed_sys ne ns et.
  Variables (egs sgs : list dt).
  Hypothesis Hegs : Forall (Good ne ns) egs.
  Hypothesis Hsgs : Forall (Good ne ns) sgs.
  Let G := bgame ne ns et st egs sgs.
  Notation states := (all_vecs n).
  Notation Good := (Good ne ns).
  Notation den := (evS n).
  Notation z0 := (bZero m).

  (** the base set used by compute_sublevel_sets is goal /\ W *)
  Lemma Bs_Bw : forall W i, i < length sgs -> eqP states (den W) (Wset G vec_eqb) ->
    eqP states (Bs ne ns (nth i sgs z0) W) (Bw G vec_eqb i).
  Proof.
    intros W i Hi HW s Hs. unfold Bs, Bw. f_equal.
    - unfold sgoal. simpl. rewrite nth_indep with (d' := evS n z0) by (rewrite map_length; auto).
      rewrite map_nth. reflexivity.
    - apply HW; auto.
  Qed.

  Lemma ladder_is : forall W i K Ys Xs, i < length sgs -> 0 < length egs ->
    eqP states (den W) (Wset G vec_eqb) ->
    ladder ne ns et st egs sgs (nth i sgs z0) W K Ys Xs ->
    eqP states (up (Fs ne ns et st egs sgs (nth i sgs z0) W) (S K))
               (up (Fs ne ns et st egs sgs (nth i sgs z0) W) K) ->
    is_ladder G (den (nth i sgs z0)) (den W) (fun r => den (nth r egs z0)) (length egs)
      K (fun j => den (nth j Ys z0)) (fun j r => den (nth r (nth j Xs []) z0)).
  Proof.
    intros W i K Ys Xs Hi He HW (HlY & HlX & HY & HX0 & HX & Hstr) HK.
    set (sg := nth i sgs z0) in *. set (F := Fs ne ns et st egs sgs sg W) in *.
    assert (Hmono : monoP states F) by exact (Fs_mono ne ns et st egs sgs sg W).
    assert (HYe : forall j, j <= K -> eqP states (den (nth j Ys z0)) (up F j)) by (intros; apply HY; auto).
    assert (HXe : forall j r, j < K -> r < length egs ->
       eqP states (den (nth r (nth (S j) Xs []) z0))
         (nuX G vec_eqb (Bs ne ns sg W) (den (nth r egs z0)) (up F j))).
    { intros j r Hj Hr. destruct (HX (S j)) as (_ & _ & H); [lia|]. apply (H r Hr). }
    assert (Hph : forall j r P s, j < K -> r < length egs ->
       (PhiB G vec_eqb (Bs ne ns sg W) (den (nth r egs z0)) (up F j) P s = true <->
        level_step G (den sg) (den W) (den (nth j Ys z0)) (den (nth r egs z0)) P s)).
    { intros j r P s Hj Hr. unfold PhiB, level_step, Bs.
      rewrite !orb_true_iff, !andb_true_iff, negb_true_iff.
      assert (Hf : EX G vec_eqb (up F j) s = true <-> forces G (den (nth j Ys z0)) s).
      { rewrite (EX_spec G vec_eqb vec_eqb_eq). unfold forces.
        split; intros H e Hle; destruct (H e Hle) as (s' & Hl & Hc); exists s'; (split; [auto|]).
        - rewrite HYe; auto; [lia|apply Hl].
        - rewrite <- HYe; auto; [lia|apply Hl]. }
      assert (Hp : EX G vec_eqb P s = true <-> forces G P s) by apply (EX_spec G vec_eqb vec_eqb_eq).
      rewrite Hf, Hp. unfold OpsProofs.den. fold n. tauto. }
    constructor.
    - intros s Hs. rewrite HYe; auto; lia.
    - intros s Hs. rewrite HYe by auto. rewrite HW by auto.
      pose proof (up_fix_mu ne ns et st egs sgs sg W K HK s Hs) as Hmu. fold F in Hmu.
      rewrite Hmu. clear Hmu.
      etransitivity; [exact (muY_ext G vec_eqb vec_eqb_eq _ _ (Bs_Bw W i Hi HW) s Hs)|].
      apply (sub_eq_W G vec_eqb vec_eqb_eq); auto. unfold ngoals. simpl. rewrite map_length. auto.
    - intros j s Hj Hs H. rewrite HYe in H by (auto; lia). rewrite HYe by (auto; lia).
      apply (up_step states F Hmono j); auto.
    - intros j Hj. destruct (leb states (up F (S j)) (up F j)) eqn:El.
      + exfalso. apply (Hstr j Hj). apply leP_antisym; [apply leb_spec; auto|].
        apply up_step; auto.
      + apply not_leb in El. destruct El as (a & Ha & H1 & H2). exists a. split; auto.
        split; rewrite HYe; auto; lia.
    - intros j s Hj Hs. rewrite HYe by (auto; lia). 
      change (up F (S j) s) with
        (existsb (fun g => nuX G vec_eqb (Bs ne ns sg W) g (up F j) s) (map den egs)).
      rewrite existsb_exists. split.
      + intros (g & Hg & H). apply in_map_iff in Hg. destruct Hg as (d & <- & Hd).
        destruct (In_nth _ _ z0 Hd) as (r & Hr & Er). exists r. split; auto.
        rewrite HXe by auto. rewrite Er. exact H.
      + intros (r & Hr & H). exists (den (nth r egs z0)). split.
        * apply in_map. apply nth_In; auto.
        * rewrite HXe in H by auto. exact H.
    - intros j r s Hj Hr Hs. rewrite <- Hph by auto.
      assert (HF : monoP states (PhiB G vec_eqb (Bs ne ns sg W) (den (nth r egs z0)) (up F j)))
        by exact (PhiB_mono G vec_eqb vec_eqb_eq _ _ _).
      pose proof (gfp_fix states _ _ HF (nu_gfp states _ HF) s Hs) as Hfix.
      pose proof (mono_ext _ _ HF _ _ (HXe j r Hj Hr) s Hs) as Hx.
      pose proof (HXe j r Hj Hr s Hs) as Hy.
      assert (E : evS n (nth r (nth (S j) Xs []) z0) s =
         PhiB G vec_eqb (Bs ne ns sg W) (den (nth r egs z0)) (up F j)
           (den (nth r (nth (S j) Xs []) z0)) s).
      { etransitivity; [exact Hy|]. etransitivity; [exact Hfix|]. symmetry. exact Hx. }
      rewrite E at 1. tauto.
    - intros j r P Hj Hr HP s Hs HPs. rewrite HXe by auto.
      apply (nuX_coind G vec_eqb vec_eqb_eq _ _ _ P); auto.
      intros s1 Hs1 HP1. apply Hph; auto.
  Qed.

  Lemma sublevels_ok : 0 < length sgs -> 0 < length egs ->
    forall fuel0 W, compute_winning_set_BDD ne ns et st fuel0 egs sgs = Ok W ->
    (exists N, forall fuel, N <= fuel -> exists R,
       compute_sublevel_sets ne ns et st fuel W egs sgs = Ok (Some R)) /\
    forall fuel R, compute_sublevel_sets ne ns et st fuel W egs sgs = Ok (Some R) ->
      length R = length sgs /\
      forall i, i < length sgs -> exists K,
        length (fst (nth i R ([], []))) = S K /\ length (snd (nth i R ([], []))) = S K /\
        is_ladder G (den (nth i sgs z0)) (den W) (fun r => den (nth r egs z0)) (length egs)
          K (fun j => den (nth j (fst (nth i R ([], []))) z0))
          (fun j r => den (nth r (nth j (snd (nth i R ([], []))) []) z0)).
  Proof.
    intros Hk He fuel0 W HWc.
    destruct (winning_set_ok ne ns et st Het egs sgs Hegs Hsgs Hk
       (S (Nat.max fuel0 (length (domZ G) + length states)))) as (W' & HW' & HGW & HeW).
    { fold G. lia. } { fold n. lia. }
    pose proof (winning_set_mono ne ns et st fuel0
       (S (Nat.max fuel0 (length (domZ G) + length states))) egs sgs W ltac:(lia) HWc) as HW2.
    assert (W' = W) by congruence. subst W'.
    assert (Htot : forall fuel, length states < fuel -> exists R,
       compute_sublevel_sets ne ns et st fuel W egs sgs = Ok (Some R) /\ length R = length sgs /\
       forall i, i < length sgs -> exists K,
        ladder ne ns et st egs sgs (nth i sgs z0) W K (fst (nth i R ([], []))) (snd (nth i R ([], []))) /\
        eqP states (up (Fs ne ns et st egs sgs (nth i sgs z0) W) (S K))
                   (up (Fs ne ns et st egs sgs (nth i sgs z0) W) K)).
    { intros fuel Hf.
      destruct (sub_goals_ok ne ns et st Het egs sgs Hegs fuel W Hf HGW sgs Hsgs)
        as (R & HR & HlR & HRi).
      exists R. split; auto. unfold compute_sublevel_sets. rewrite HR. cbn [bind].
      destruct sgs; auto. simpl in Hk. lia. }
    split.
    - exists (S (length states)). intros fuel Hf. destruct (Htot fuel) as (R & HR & _); [lia|eauto].
    - intros fuel R HR. destruct (Htot (S (Nat.max fuel (length states)))) as (R' & HR' & Hl & Hi).
      { lia. }
      pose proof (sublevel_mono ne ns et st fuel (S (Nat.max fuel (length states))) egs W sgs _
                    ltac:(lia) HR) as HR2.
      assert (R' = R) by congruence. subst R'. split; auto.
      intros i Hlt. destruct (Hi i Hlt) as (K & HL & HK). exists K.
      split; [apply HL|]. split; [apply HL|]. apply ladder_is; auto.
  Qed.
End LevelProofs.

(** no system goal: NULL is dereferenced *)
Lemma winning_set_no_goal : forall ne ns et st fuel egs, 0 < fuel ->
  compute_winning_set_BDD ne ns et st fuel egs [] = Crash.
Proof. intros ne ns et st [|fuel] egs H; [lia|]. reflexivity. Qed.
