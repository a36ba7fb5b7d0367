(** Fixpoint characterisation of the winning set of a GR(1) game (proof file). *)
From Coq Require Import List ZArith Lia Bool Arith.
From Verif Require Import Base Fix Game.
Import ListNotations.
Open Scope nat_scope.

Lemma existsb_false : forall A (f : A -> bool) l, existsb f l = false ->
  forall x, In x l -> f x = false.
Proof.
  intros A f l H x Hx. destruct (f x) eqn:E; auto.
  assert (existsb f l = true) by (apply existsb_exists; eauto). congruence.
Qed.

Section Theory.
  Context {S E : Type}.
  Variable G : game S E.
  Variable eqE : E -> E -> bool.
  Hypothesis eqE_spec : forall a b, eqE a b = true <-> a = b.

  Notation states := (g_states G).
  Notation envs := (g_envs G).
  Notation egoals := (g_egoals G).
  Notation sgoals := (g_sgoals G).
  Notation lePs := (leP states).
  Notation eqPs := (eqP states).

  (** can the system answer move [e] in [s] by going into [C]? *)
  Definition ans (C : S -> bool) (s : S) (e : E) : bool :=
    existsb (fun s' => eqE (g_env G s') e && g_str G s s' && C s') states.
  (** controllable predecessor *)
  Definition EX (C : S -> bool) (s : S) : bool :=
    forallb (fun e => implb (g_etr G s e) (ans C s e)) envs.

  Lemma ans_spec : forall C s e, ans C s e = true <->
    exists s', legal_sys G s e s' /\ C s' = true.
  Proof.
    intros. unfold ans, legal_sys. rewrite existsb_exists. split.
    - intros (s' & Hin & H). apply andb_true_iff in H. destruct H as [H HC].
      apply andb_true_iff in H. destruct H as [He Hs].
      apply eqE_spec in He. exists s'; auto.
    - intros (s' & (Hin & He & Hs) & HC). exists s'. split; auto.
      rewrite (proj2 (eqE_spec _ _) He), Hs, HC. reflexivity.
  Qed.

  Lemma EX_spec : forall C s, EX C s = true <->
    forall e, legal_env G s e -> exists s', legal_sys G s e s' /\ C s' = true.
  Proof.
    intros. unfold EX, legal_env. rewrite forallb_forall. split.
    - intros H e [He Ht]. specialize (H e He). rewrite Ht in H. simpl in H.
      apply ans_spec; auto.
    - intros H e He. destruct (g_etr G s e) eqn:Et; auto. simpl.
      apply ans_spec; auto.
  Qed.

  Lemma EX_mono : forall P Q, lePs P Q -> forall s, EX P s = true -> EX Q s = true.
  Proof.
    intros P Q H s HP. rewrite EX_spec in *. intros e He.
    destruct (HP e He) as (s' & Hl & HC). exists s'. split; auto.
    apply H; auto. apply Hl.
  Qed.

  (** B \/ EX Y \/ (not eg /\ EX X) *)
  Definition PhiB (B : S -> bool) (eg : S -> bool) (Y X : S -> bool) : S -> bool :=
    fun s => B s || EX Y s || (EX X s && negb (eg s)).
  Definition nuX B eg Y := nu states (PhiB B eg Y).
  Definition stepY (B : S -> bool) (Y : S -> bool) : S -> bool :=
    fun s => existsb (fun eg => nuX B eg Y s) egoals.
  Definition muY B := mu states (stepY B).

  Lemma PhiB_le : forall B B' eg Y Y' X X', lePs B B' -> lePs Y Y' -> lePs X X' ->
    lePs (PhiB B eg Y X) (PhiB B' eg Y' X').
  Proof.
    intros B B' eg Y Y' X X' HB HY HX s Hs H. unfold PhiB in *.
    apply orb_true_iff in H. destruct H as [H|H].
    - apply orb_true_iff in H. destruct H as [H|H].
      + rewrite (HB s Hs H). reflexivity.
      + rewrite (EX_mono _ _ HY s H). rewrite orb_true_r. reflexivity.
    - apply andb_true_iff in H. destruct H as [H1 H2].
      rewrite (EX_mono _ _ HX s H1), H2. rewrite orb_true_r. reflexivity.
  Qed.
  Lemma PhiB_mono : forall B eg Y, monoP states (PhiB B eg Y).
  Proof. intros B eg Y P Q H. apply PhiB_le; auto using leP_refl. Qed.
  Lemma nuX_le : forall B B' eg Y Y', lePs B B' -> lePs Y Y' ->
    lePs (nuX B eg Y) (nuX B' eg Y').
  Proof.
    intros. apply nu_mono; auto using PhiB_mono. intros P.
    apply PhiB_le; auto using leP_refl.
  Qed.
  Lemma nuX_unfold : forall B eg Y s, In s states -> nuX B eg Y s = true ->
    PhiB B eg Y (nuX B eg Y) s = true.
  Proof.
    intros. apply (proj1 (nu_gfp states _ (PhiB_mono B eg Y))); auto.
  Qed.
  Lemma nuX_coind : forall B eg Y P, lePs P (PhiB B eg Y P) -> lePs P (nuX B eg Y).
  Proof. intros. apply (proj2 (nu_gfp states _ (PhiB_mono B eg Y))); auto. Qed.

  Lemma stepY_le : forall B B' Y Y', lePs B B' -> lePs Y Y' ->
    lePs (stepY B Y) (stepY B' Y').
  Proof.
    intros B B' Y Y' HB HY s Hs H. unfold stepY in *. apply existsb_exists in H.
    destruct H as (eg & Hin & H). apply existsb_exists. exists eg. split; auto.
    eapply nuX_le; eauto.
  Qed.
  Lemma stepY_mono : forall B, monoP states (stepY B).
  Proof. intros B P Q H. apply stepY_le; auto using leP_refl. Qed.
  Lemma muY_le : forall B B', lePs B B' -> lePs (muY B) (muY B').
  Proof.
    intros. apply mu_mono; auto using stepY_mono. intros P.
    apply stepY_le; auto using leP_refl.
  Qed.
  Lemma muY_pre : forall B, lePs (stepY B (muY B)) (muY B).
  Proof. intros. apply (proj1 (mu_lfp states _ (stepY_mono B))). Qed.
  Lemma muY_post : forall B, lePs (muY B) (stepY B (muY B)).
  Proof.
    intros B. apply eqP_leP. apply (lfp_fix states (stepY B) (muY B)).
    - apply stepY_mono.
    - apply mu_lfp, stepY_mono.
  Qed.
  Lemma muY_ind : forall B P, lePs (stepY B P) P -> lePs (muY B) P.
  Proof. intros. apply (proj2 (mu_lfp states _ (stepY_mono B))); auto. Qed.
  Lemma nuX_in_muY : forall B eg, In eg egoals -> lePs (nuX B eg (muY B)) (muY B).
  Proof.
    intros B eg Hin. eapply leP_trans; [|apply muY_pre].
    intros s Hs H. unfold stepY. apply existsb_exists. eauto.
  Qed.

  (** ** The outer fixpoint, on pairs (goal index, state). *)
  Definition ngoals := length sgoals.
  Definition sgoal (i : nat) : S -> bool := nth i sgoals (fun _ => false).
  Definition nxt (i : nat) : nat := if i =? ngoals - 1 then 0 else i + 1.
  Definition domZ : list (nat * S) := list_prod (seq 0 ngoals) states.
  Definition Bz (i : nat) (Zn : S -> bool) : S -> bool :=
    fun s => sgoal i s && EX Zn s.
  Definition Zop (Z : nat * S -> bool) : nat * S -> bool :=
    fun p => muY (Bz (fst p) (fun s => Z (nxt (fst p), s))) (snd p).
  Definition Zstar := nu domZ Zop.
  Definition Wset (s : S) : bool := Zstar (0, s).

  Lemma in_domZ : forall i s, In (i, s) domZ <-> i < ngoals /\ In s states.
  Proof.
    intros. unfold domZ. rewrite in_prod_iff, in_seq. intuition lia.
  Qed.

  Lemma nxt_lt : forall i, i < ngoals -> nxt i < ngoals.
  Proof.
    intros i H. unfold nxt. destruct (i =? ngoals - 1) eqn:Ei; [lia|].
    apply Nat.eqb_neq in Ei. lia.
  Qed.

  Lemma Bz_le : forall i Z Z', lePs Z Z' -> lePs (Bz i Z) (Bz i Z').
  Proof.
    intros i Z Z' H s Hs HB. unfold Bz in *. apply andb_true_iff in HB.
    destruct HB as [H1 H2]. rewrite H1, (EX_mono _ _ H s H2). reflexivity.
  Qed.

  Lemma Zop_mono : monoP domZ Zop.
  Proof.
    intros P Q H [i s] Hin HP. unfold Zop in *. simpl in *.
    apply in_domZ in Hin. destruct Hin as [Hi Hs].
    eapply muY_le; [|exact Hs|exact HP].
    apply Bz_le. intros s' Hs' H'. apply H; auto.
    apply in_domZ. split; auto using nxt_lt.
  Qed.

  Lemma Zstar_unfold : forall i s, i < ngoals -> In s states ->
    Zstar (i, s) = muY (Bz i (fun s' => Zstar (nxt i, s'))) s.
  Proof.
    intros i s Hi Hs.
    apply (gfp_fix domZ Zop Zstar Zop_mono (nu_gfp domZ Zop Zop_mono)).
    apply in_domZ; auto.
  Qed.

  (** ** All components of the outer fixpoint coincide. *)
  Definition Usome (s : S) : bool := existsb (fun i => Zstar (i, s)) (seq 0 ngoals).

  Lemma Z_in_U : forall i, i < ngoals -> lePs (fun s => Zstar (i, s)) Usome.
  Proof.
    intros i Hi s Hs H. unfold Usome. apply existsb_exists. exists i. split; auto.
    apply in_seq. lia.
  Qed.

  (** if component [nxt j] is inside [muY (Bz i U)] so is component [j] *)
  Lemma Z_back : forall i j, i < ngoals -> j < ngoals ->
    lePs (fun s => Zstar (nxt j, s)) (muY (Bz i Usome)) ->
    lePs (fun s => Zstar (j, s)) (muY (Bz i Usome)).
  Proof.
    intros i j Hi Hj H. set (Y0 := muY (Bz i Usome)) in *.
    intros s Hs HZ. rewrite Zstar_unfold in HZ; auto.
    revert s Hs HZ. change (lePs (muY (Bz j (fun s' => Zstar (nxt j, s')))) Y0).
    apply muY_ind. intros s Hs Hst. unfold stepY in Hst.
    apply existsb_exists in Hst. destruct Hst as (eg & Heg & Hx).
    apply (nuX_in_muY (Bz i Usome) eg Heg s Hs).
    revert s Hs Hx. apply nuX_coind.
    intros s Hs Hx. apply nuX_unfold in Hx; auto. unfold PhiB in *.
    apply orb_true_iff in Hx. destruct Hx as [Hx|Hx].
    - apply orb_true_iff in Hx. destruct Hx as [Hx|Hx].
      + unfold Bz in Hx. apply andb_true_iff in Hx. destruct Hx as [_ Hx].
        fold Y0. rewrite (EX_mono _ _ H s Hx). rewrite orb_true_r. reflexivity.
      + fold Y0. rewrite Hx. rewrite orb_true_r. reflexivity.
    - rewrite Hx. rewrite orb_true_r. reflexivity.
  Qed.

  Lemma iter_nxt_lt : forall d i, i < ngoals -> iter d nxt i < ngoals.
  Proof. induction d; simpl; intros; auto using nxt_lt. Qed.

  Lemma nxt_reach_up : forall d i, i + d < ngoals -> iter d nxt i = i + d.
  Proof.
    induction d; intros i H; simpl; [lia|]. rewrite IHd by lia. unfold nxt.
    destruct (i + d =? ngoals - 1) eqn:Ei; [apply Nat.eqb_eq in Ei; lia|lia].
  Qed.

  Lemma iter_add : forall A (f : A -> A) a b x, iter (a + b) f x = iter a f (iter b f x).
  Proof. induction a; simpl; intros; auto. rewrite IHa. reflexivity. Qed.

  Lemma nxt_reach : forall i j, i < ngoals -> j < ngoals ->
    exists d, iter d nxt i = j.
  Proof.
    intros i j Hi Hj. exists (j + (1 + (ngoals - 1 - i))).
    rewrite iter_add. rewrite (iter_add _ nxt 1). rewrite (nxt_reach_up (ngoals - 1 - i) i) by lia.
    replace (i + (ngoals - 1 - i)) with (ngoals - 1) by lia.
    assert (H1 : iter 1 nxt (ngoals - 1) = 0).
    { simpl. unfold nxt. rewrite Nat.eqb_refl. reflexivity. }
    rewrite H1. rewrite nxt_reach_up by lia. lia.
  Qed.

  Lemma Z_all_back : forall i, i < ngoals -> forall d j, j < ngoals ->
    iter d nxt j = i -> lePs (fun s => Zstar (j, s)) (muY (Bz i Usome)).
  Proof.
    intros i Hi. induction d; intros j Hj Hd.
    - simpl in Hd. subst j. intros s Hs HZ. rewrite Zstar_unfold in HZ; auto.
      eapply muY_le; [|exact Hs|exact HZ]. apply Bz_le. apply Z_in_U.
      apply nxt_lt; auto.
    - rewrite iter_succ_r in Hd. apply Z_back; auto. apply IHd; auto using nxt_lt.
  Qed.

  Lemma U_in_Z : forall i, i < ngoals -> lePs Usome (fun s => Zstar (i, s)).
  Proof.
    assert (H : leP domZ (fun p => Usome (snd p)) Zstar).
    { apply (proj2 (nu_gfp domZ Zop Zop_mono)). intros [i s] Hin HU.
      apply in_domZ in Hin. destruct Hin as [Hi Hs]. unfold Zop. simpl in *.
      unfold Usome in HU. apply existsb_exists in HU. destruct HU as (j & Hj & HZ).
      apply in_seq in Hj. destruct (nxt_reach j i) as (d & Hd); try lia; auto.
      change (muY (Bz i Usome) s = true).
      eapply (Z_all_back i Hi d j); eauto. lia. }
    intros i Hi s Hs HU. apply (H (i, s)); auto. apply in_domZ; auto.
  Qed.

  Lemma Z_eq_W : forall i s, i < ngoals -> In s states -> Zstar (i, s) = Wset s.
  Proof.
    intros i s Hi Hs. unfold Wset. apply eq_true_iff_eq. split; intros H.
    - apply (U_in_Z 0); auto; [lia|]. apply (Z_in_U i); auto.
    - apply (U_in_Z i); auto. apply (Z_in_U 0); auto. lia.
  Qed.

  (** ** Consequences used by strategy extraction. *)
  Lemma Bz_ext : forall i Z Z', eqPs Z Z' -> eqPs (Bz i Z) (Bz i Z').
  Proof.
    intros. apply leP_antisym; apply Bz_le; apply eqP_leP; auto using eqP_sym.
  Qed.
  Lemma muY_ext : forall B B', eqPs B B' -> eqPs (muY B) (muY B').
  Proof.
    intros. apply leP_antisym; apply muY_le; apply eqP_leP; auto using eqP_sym.
  Qed.

  Lemma W_unfold : forall i, i < ngoals -> eqPs Wset (muY (Bz i Wset)).
  Proof.
    intros i Hi s Hs. rewrite <- (Z_eq_W i); auto. rewrite Zstar_unfold; auto.
    apply muY_ext; auto. apply Bz_ext. intros s' Hs'.
    apply Z_eq_W; auto using nxt_lt.
  Qed.

  Lemma muY_below_EX : forall B T, (forall s, In s states -> B s = true -> EX T s = true) ->
    lePs (muY B) T -> lePs (muY B) (EX T).
  Proof.
    intros B T HB HT s Hs H. apply muY_post in H; auto. unfold stepY in H.
    apply existsb_exists in H. destruct H as (eg & Heg & Hx).
    assert (HXT : lePs (nuX B eg (muY B)) T).
    { eapply leP_trans; [apply nuX_in_muY; auto|auto]. }
    apply nuX_unfold in Hx; auto. unfold PhiB in Hx.
    apply orb_true_iff in Hx. destruct Hx as [Hx|Hx].
    - apply orb_true_iff in Hx. destruct Hx as [Hx|Hx]; [auto|].
      eapply EX_mono; [exact HT|exact Hx].
    - apply andb_true_iff in Hx. eapply EX_mono; [exact HXT|exact (proj1 Hx)].
  Qed.

  Lemma W_EX : 0 < ngoals -> lePs Wset (EX Wset).
  Proof.
    intros Hk s Hs H. pose proof (W_unfold 0 Hk) as HW.
    rewrite (HW s Hs) in H. revert s Hs H.
    apply muY_below_EX.
    - intros s Hs H. unfold Bz in H. apply andb_true_iff in H. tauto.
    - apply eqP_leP, eqP_sym. exact HW.
  Qed.

  Definition Bw (i : nat) : S -> bool := fun s => sgoal i s && Wset s.

  (** the sublevel fixpoint with base [goal /\ W] is [W] *)
  Lemma sub_eq_W : forall i, i < ngoals -> eqPs (muY (Bw i)) Wset.
  Proof.
    intros i Hi.
    assert (Hle : lePs (muY (Bw i)) Wset).
    { eapply leP_trans; [|apply eqP_leP, eqP_sym, (W_unfold i Hi)].
      apply muY_le. intros s Hs H. unfold Bw, Bz in *. apply andb_true_iff in H.
      destruct H as [H1 H2]. rewrite H1. simpl. apply W_EX; auto. lia. }
    apply leP_antisym; auto.
    eapply leP_trans; [apply eqP_leP, (W_unfold i Hi)|].
    apply muY_ind. intros s Hs Hst. unfold stepY in Hst.
    apply existsb_exists in Hst. destruct Hst as (eg & Heg & Hx).
    apply (nuX_in_muY (Bw i) eg Heg s Hs).
    assert (HXW : lePs (nuX (Bz i Wset) eg (muY (Bw i))) Wset).
    { intros s' Hs' Hx'. rewrite (W_unfold i Hi s' Hs').
      apply (nuX_in_muY (Bz i Wset) eg Heg s' Hs').
      eapply nuX_le; [apply leP_refl| |exact Hs'|exact Hx'].
      eapply leP_trans; [exact Hle|]. apply eqP_leP, W_unfold; auto. }
    revert s Hs Hx. apply nuX_coind. intros s Hs Hx.
    assert (HWs := HXW s Hs Hx).
    apply nuX_unfold in Hx; auto. unfold PhiB in *.
    apply orb_true_iff in Hx. destruct Hx as [Hx|Hx].
    - apply orb_true_iff in Hx. destruct Hx as [Hx|Hx].
      + unfold Bz in Hx. apply andb_true_iff in Hx. destruct Hx as [Hx _].
        unfold Bw at 1. rewrite Hx, HWs. reflexivity.
      + rewrite Hx. rewrite orb_true_r. reflexivity.
    - rewrite Hx. rewrite orb_true_r. reflexivity.
  Qed.
End Theory.
