(** Proofs about distance bounds (Metric.v). *)
From Coq Require Import List ZArith Bool Arith String Ascii Lia.
From Verif Require Import Base Game Bdd Support SupportProofs EnumProofs BGame Ops OpsProofs Strs Ptree
  Form Solve FSpec SolveProofs RealProofs Levels LevelProofs Nonbool RSpec NonboolProofs EncProofs NbStateProofs
  Metric MetricSpec.
Import ListNotations.
Open Scope list_scope.
Open Scope Z_scope.

(** ** Fields *)
Lemma zsum_shift : forall k l,
  zsum (map (fun i => nth i l 0 * 2 ^ Z.of_nat i) (seq 0 k)) = unbits (firstn k l ++ zeros (k - List.length l)).
Proof.
  assert (M : forall k j l, zsum (map (fun i => nth i l 0 * 2 ^ Z.of_nat (j + i)) (seq 0 k)) =
              2 ^ Z.of_nat j * unbits (firstn k l ++ zeros (k - List.length l))).
  { induction k as [|k IH]; intros j l.
    - cbn. lia.
    - destruct l as [|b l].
      + cbn [List.length firstn app Nat.sub]. cbn [seq map zsum fold_right]. fold (zsum).
        rewrite <- seq_shift, map_map.
        change (fold_right Z.add 0) with zsum.
        rewrite (map_ext _ (fun i => nth i [] 0 * 2 ^ Z.of_nat (S j + i))).
        2:{ intros i. rewrite <- plus_n_Sm. cbn [Nat.add]. destruct i; cbn; lia. }
        rewrite IH. cbn [List.length firstn app]. rewrite Nat.sub_0_r. cbn [zeros repeat unbits nth].
        unfold zeros. rewrite Nat2Z.inj_succ, Z.pow_succ_r by lia.
        destruct k; cbn [firstn app]; ring.
      + cbn [List.length firstn app Nat.sub]. cbn [seq map zsum fold_right].
        rewrite <- seq_shift, map_map.
        change (fold_right Z.add 0) with zsum.
        rewrite (map_ext _ (fun i => nth i l 0 * 2 ^ Z.of_nat (S j + i))).
        2:{ intros i. rewrite <- plus_n_Sm. reflexivity. }
        rewrite IH. cbn [unbits nth]. rewrite Nat2Z.inj_succ, Z.pow_succ_r, Nat.add_0_r by lia. ring. }
  intros k l. rewrite <- (Z.mul_1_l (unbits _)). exact (M k 0%nat l).
Qed.
Lemma field_unbits : forall s o w, (Z.to_nat o + Z.to_nat w <= List.length s)%nat ->
  field s (o, w) = unbits (slice (Z.to_nat o) (Z.to_nat w) s).
Proof.
  intros s o w H. unfold field, slice. cbn [fst snd].
  assert (E : forall i, nth (Z.to_nat o + i) s 0 = nth i (skipn (Z.to_nat o) s) 0).
  { intros i. generalize (Z.to_nat o). intros k. clear H. revert s i. induction k as [|k IH]; intros s i; auto.
    destruct s as [|b s]; cbn; [destruct i; auto|]. apply IH. }
  rewrite (map_ext _ (fun i => nth i (skipn (Z.to_nat o) s) 0 * 2 ^ Z.of_nat i)) by (intros i; rewrite E; reflexivity).
  rewrite zsum_shift. rewrite skipn_length.
  replace (Z.to_nat w - (List.length s - Z.to_nat o))%nat with 0%nat by lia. cbn [zeros repeat].
  rewrite app_nil_r. reflexivity.
Qed.
Lemma is_bit_isbit : forall l, Forall isbit l -> Forall is_bit l.
Proof. intros l H. exact H. Qed.
Lemma Forall_slice : forall A (P : A -> Prop) lo k l, Forall P l -> Forall P (slice lo k l).
Proof.
  intros A P lo k l H. unfold slice. apply Forall_forall. intros x Hx. rewrite Forall_forall in H. apply H.
  rewrite <- (firstn_skipn lo l). apply in_or_app. right.
  rewrite <- (firstn_skipn k (skipn lo l)). apply in_or_app. auto.
Qed.
Lemma field_at_ok : forall n s f, bitvec n s -> fields_in n [f] -> field_at s f = Ok (field s f).
Proof.
  intros n s [o w] [Hl Hb] Hf. destruct (Hf o w (or_introl eq_refl)) as (H1 & H2 & H3).
  unfold field_at. cbn [fst snd].
  destruct (Z.ltb_spec o 0) as [?|_]; [lia|]. destruct (Z.ltb_spec (Z.of_nat (List.length s)) (o + w)) as [?|_]; [lia|].
  cbn [orb]. rewrite field_unbits by lia. apply bitvec_to_int_ok.
  - apply is_bit_isbit. apply Forall_slice. auto.
  - unfold slice. rewrite firstn_length, skipn_length. lia.
Qed.
Lemma map_out_ok : forall A B (f : A -> out B) g l, (forall x, In x l -> f x = Ok (g x)) ->
  map_out f l = Ok (map g l).
Proof.
  induction l as [|x l IH]; intros H; auto. cbn [map_out map]. rewrite H by (left; auto). cbn [bind].
  rewrite IH by (intros; apply H; right; auto). reflexivity.
Qed.
Lemma mapped_ok : forall n fs s, bitvec n s -> fields_in n fs -> mapped fs s = Ok (map (field s) fs).
Proof.
  intros n fs s Hs Hf. apply map_out_ok. intros f Hin. apply (field_at_ok n); auto.
  intros o w [E|[]]. subst f. apply Hf. auto.
Qed.
Lemma norm1_dist : forall fs s r d, norm1 (map (field s) fs) (map (field r) fs) d = d + dist fs s r.
Proof.
  induction fs as [|f fs IH]; intros s r d; [cbn; lia|]. cbn [map norm1]. rewrite IH. unfold dist.
  cbn [map zsum fold_right]. change (fold_right Z.add 0) with zsum. lia.
Qed.
Lemma dist_nonneg : forall fs s r, 0 <= dist fs s r.
Proof.
  intros fs s r. unfold dist. induction fs as [|f fs IH]; cbn [map zsum fold_right]; [lia|].
  change (fold_right Z.add 0) with zsum. lia.
Qed.

(** ** Folding *)
Lemma fold_bounds : forall ds mn mx, 0 <= mn <= mx -> Forall (fun d => 0 <= d) ds ->
  exists mn' mx', fold_left bound_step ds (mn, mx) = (mn', mx') /\
    In mn' (mn :: ds) /\ In mx' (mx :: ds) /\ mn' <= mn /\ mx <= mx' /\
    forall d, In d ds -> mn' <= d <= mx'.
Proof.
  induction ds as [|d ds IH]; intros mn mx Hm Hd.
  - exists mn, mx. cbn. repeat split; auto; try lia; destruct H.
  - inversion Hd as [|? ? Hd0 Hds]; subst. cbn [fold_left bound_step].
    destruct (Z.eqb_spec mn (-1)) as [?|_]; [lia|]. destruct (Z.eqb_spec mx (-1)) as [?|_]; [lia|].
    cbn [orb]. rewrite Z.gtb_ltb.
    edestruct (IH (if d <? mn then d else mn) (if mx <? d then d else mx)) as (mn' & mx' & E & I1 & I2 & L1 & L2 & B); auto.
    { destruct (Z.ltb_spec d mn), (Z.ltb_spec mx d); lia. }
    exists mn', mx'. split; auto.
    destruct (Z.ltb_spec d mn), (Z.ltb_spec mx d); cbn [In] in *;
      (split; [tauto|]); (split; [tauto|]); (split; [lia|]); (split; [lia|]);
      intros d' [<-|Hin]; auto; lia.
Qed.
Lemma fold_bounds_first : forall d ds, Forall (fun d => 0 <= d) (d :: ds) ->
  exists mn mx, fold_left bound_step (d :: ds) (-1, -1) = (mn, mx) /\
    In mn (d :: ds) /\ In mx (d :: ds) /\ forall x, In x (d :: ds) -> mn <= x <= mx.
Proof.
  intros d ds H. inversion H as [|? ? Hd Hds]; subst. cbn [fold_left bound_step]. cbn [Z.eqb orb].
  change (-1 =? -1) with true. cbn [orb].
  destruct (fold_bounds ds d d ltac:(lia) Hds) as (mn & mx & E & I1 & I2 & L1 & L2 & B).
  exists mn, mx. split; auto. split; auto. split; auto. intros x [<-|Hx]; auto.
Qed.

(** ** States *)
Section St.
  Variables (n : nat) (orc : oracle).
  Hypothesis Horc : oracle_ok (2 * n) orc.

  Lemma states_of_ok : forall T, wf (2 * n) T -> unprimed n T ->
    forall t fuel, (2 ^ n <= fuel)%nat -> exists l, states_of n fuel orc t T = Ok l /\ NoDup l /\
      forall s, In s l <-> in_set n T s.
  Proof.
    intros T HT HU t fuel Hf. pose proof (Horc t T HT) as Hc.
    exists (List.concat (map (fun c => completions (slice 0 n c)) (orc t T))).
    assert (L : forall c, In c (orc t T) -> List.length (slice 0 n c) = n).
    { intros c Hin. destruct Hc as [Hs _]. rewrite Forall_forall in Hs. destruct (Hs c Hin) as (H & _).
      unfold slice. rewrite firstn_length, skipn_length. lia. }
    split.
    - unfold states_of. clear Hc. revert L. induction (orc t T) as [|c cs IH]; intros L; auto.
      cbn [concat_out map List.concat].
      rewrite enum_cube_ok by (rewrite L by (left; auto); auto). cbn [bind].
      rewrite IH by (intros; apply L; right; auto). reflexivity.
    - destruct (enum_slices (2 * n) 0 n T (orc t T)) as [H1 H2]; auto; [lia| |].
      { intros i Hi Hd. apply (depends_slice (2 * n) 0 n T (evS n T)); auto; [lia|].
        intros v Hv. unfold slice. cbn [skipn].
        replace (2 * n)%nat with (n + n)%nat in Hv by lia.
        assert (A : bitvec n (firstn n v) /\ bitvec n (skipn n v)).
        { destruct Hv as [Hl Hb]. rewrite <- (firstn_skipn n v) in Hb. apply Forall_app in Hb.
          split; split; try tauto; [rewrite firstn_length|rewrite skipn_length]; lia. }
        rewrite <- (firstn_skipn n v) at 1. apply HU; try tauto. apply bitvec_zeros. }
      split; auto. intros s. rewrite H2. unfold in_set, evS.
      replace (2 * n - 0 - n)%nat with n by lia. reflexivity.
  Qed.

  (** ** One reference state *)
  Lemma bounds_state_set : forall T l fs r, wf (2 * n) T -> unprimed n T -> fields_in n fs -> bitvec n r ->
    (forall s, In s l <-> in_set n T s) ->
    (exists s, in_set n T s) ->
    forall t fuel, states_of n fuel orc t T = Ok l ->
    exists mn mx, bounds_state n fuel orc t T r fs = Ok (mn, mx) /\
      least (in_set n T) (fun s => dist fs s r) mn /\ greatest (in_set n T) (fun s => dist fs s r) mx.
  Proof.
    intros T l fs r HT HU Hf Hr Hl [s0 Hs0] t fuel E. unfold bounds_state.
    rewrite (mapped_ok n) by auto. cbn [bind]. rewrite E. cbn [bind].
    rewrite (map_out_ok _ _ _ (fun s => dist fs s r)).
    2:{ intros s Hs. apply Hl in Hs. destruct Hs as [Hs _]. rewrite (mapped_ok n) by auto. cbn [bind].
        rewrite norm1_dist. f_equal. }
    cbn [bind].
    destruct l as [|s l]; [apply Hl in Hs0; destruct Hs0|]. cbn [map].
    destruct (fold_bounds_first (dist fs s r) (map (fun s => dist fs s r) l)) as (mn & mx & E' & I1 & I2 & B).
    { constructor; [apply dist_nonneg|]. apply Forall_forall. intros d Hd. apply in_map_iff in Hd.
      destruct Hd as (? & <- & _). apply dist_nonneg. }
    exists mn, mx. rewrite E'. split; auto.
    change (dist fs s r :: map (fun s => dist fs s r) l) with (map (fun s => dist fs s r) (s :: l)) in *.
    apply in_map_iff in I1. destruct I1 as (s1 & D1 & I1).
    apply in_map_iff in I2. destruct I2 as (s2 & D2 & I2).
    assert (B' : forall x, in_set n T x -> mn <= dist fs x r <= mx).
    { intros x Hx. apply B. apply in_map_iff. exists x. split; auto. apply Hl. auto. }
    split; (split; [|intros x Hx; apply B'; auto]).
    - exists s1. split; auto. apply Hl; auto.
    - exists s2. split; auto. apply Hl; auto.
  Qed.
  Lemma bounds_state_ok : forall T fs r, wf (2 * n) T -> unprimed n T -> fields_in n fs -> bitvec n r ->
    (exists s, in_set n T s) ->
    forall t fuel, (2 ^ n <= fuel)%nat ->
    exists mn mx, bounds_state n fuel orc t T r fs = Ok (mn, mx) /\
      least (in_set n T) (fun s => dist fs s r) mn /\ greatest (in_set n T) (fun s => dist fs s r) mx.
  Proof.
    intros T fs r HT HU Hf Hr Hne t fuel Hfu.
    destruct (states_of_ok T HT HU t fuel Hfu) as (l & E & _ & Hl). eapply bounds_state_set; eauto.
  Qed.
  Lemma bounds_state_empty : forall T fs r, wf (2 * n) T -> unprimed n T -> fields_in n fs -> bitvec n r ->
    (forall s, ~ in_set n T s) ->
    forall t fuel, (2 ^ n <= fuel)%nat -> bounds_state n fuel orc t T r fs = Ok (-1, -1).
  Proof.
    intros T fs r HT HU Hf Hr Hne t fuel Hfu.
    destruct (states_of_ok T HT HU t fuel Hfu) as (l & E & _ & Hl). unfold bounds_state.
    rewrite (mapped_ok n) by auto. cbn [bind]. rewrite E. cbn [bind].
    destruct l as [|s l]; auto. exfalso. apply (Hne s). apply Hl. left. auto.
  Qed.

  (** ** Two sets *)
  Lemma least_unique : forall A (P : A -> Prop) d x y, least P d x -> least P d y -> x = y.
  Proof.
    intros A P d x y [(s & Hs & <-) H1] [(s' & Hs' & <-) H2]. specialize (H1 s' Hs'). specialize (H2 s Hs). lia.
  Qed.
  Lemma set_dist_nonneg : forall fs P s x, set_dist fs P s x -> 0 <= x.
  Proof. intros fs P s x [(g & _ & <-) _]. apply dist_nonneg. Qed.

  Lemma bounds_loop_ok : forall G fs, wf (2 * n) G -> unprimed n G -> fields_in n fs ->
    (exists s, in_set n G s) ->
    forall fuel, (2 ^ n <= fuel)%nat ->
    forall l t mm, (forall s, In s l -> bitvec n s) ->
    exists ds, bounds_loop n fuel orc t G fs l mm = Ok (fold_left bound_step ds mm) /\
      Forall2 (set_dist fs (in_set n G)) l ds.
  Proof.
    intros G fs HG HU Hf Hne fuel Hfu. induction l as [|s l IH]; intros t mm Hl.
    - exists []. split; auto.
    - destruct (bounds_state_ok G fs s HG HU Hf (Hl s (or_introl eq_refl)) Hne t fuel Hfu)
        as (mn & mx & E & Hmn & _).
      cbn [bounds_loop]. rewrite E. cbn [bind fst].
      destruct (IH (S t) (bound_step mm mn) (fun x Hx => Hl x (or_intror Hx))) as (ds & E' & F2).
      exists (mn :: ds). split; [exact E'|]. constructor; auto.
  Qed.
  Lemma Forall2_in_l : forall A B (R : A -> B -> Prop) l r x, Forall2 R l r -> In x l -> exists y, In y r /\ R x y.
  Proof.
    induction 1 as [|a b l r Hab H IH]; intros Hin; [destruct Hin|]. destruct Hin as [<-|Hin].
    - exists b. split; [left|]; auto.
    - destruct (IH Hin) as (y & H1 & H2). exists y. split; [right|]; auto.
  Qed.
  Lemma Forall2_in_r : forall A B (R : A -> B -> Prop) l r y, Forall2 R l r -> In y r -> exists x, In x l /\ R x y.
  Proof.
    induction 1 as [|a b l r Hab H IH]; intros Hin; [destruct Hin|]. destruct Hin as [<-|Hin].
    - exists a. split; [left|]; auto.
    - destruct (IH Hin) as (x & H1 & H2). exists x. split; [right|]; auto.
  Qed.
  Lemma bounds_DDset_ok : forall T G fs, wf (2 * n) T -> unprimed n T -> wf (2 * n) G -> unprimed n G ->
    fields_in n fs -> (exists s, in_set n T s) -> (exists s, in_set n G s) ->
    forall t fuel, (2 ^ n <= fuel)%nat ->
    exists mn mx t', bounds_DDset n fuel orc t T G fs = Ok ((mn, mx), t') /\
      set_bounds fs (in_set n T) (in_set n G) mn mx.
  Proof.
    intros T G fs HT HTu HG HGu Hf [s0 Hs0] HneG t fuel Hfu. unfold bounds_DDset.
    destruct (states_of_ok T HT HTu t fuel Hfu) as (l & E & _ & Hl). rewrite E. cbn [bind].
    destruct (bounds_loop_ok G fs HG HGu Hf HneG fuel Hfu l (S t) (-1, -1)) as (ds & E' & F2).
    { intros s Hs. apply Hl in Hs. apply Hs. }
    rewrite E'. cbn [bind].
    assert (Hds : ds <> []).
    { intros ->. inversion F2; subst. apply Hl in Hs0. destruct Hs0. }
    destruct ds as [|d ds]; [congruence|].
    destruct (fold_bounds_first d ds) as (mn & mx & Ef & I1 & I2 & B).
    { apply Forall_forall. intros x Hx. destruct (Forall2_in_r _ _ _ _ _ _ F2 Hx) as (s & _ & Hs).
      eapply set_dist_nonneg; eauto. }
    rewrite Ef. exists mn, mx. eexists. split; [reflexivity|]. split; [|split].
    - destruct (Forall2_in_r _ _ _ _ _ _ F2 I1) as (s & Hs & D). exists s. split; auto. apply Hl; auto.
    - destruct (Forall2_in_r _ _ _ _ _ _ F2 I2) as (s & Hs & D). exists s. split; auto. apply Hl; auto.
    - intros s Hs. apply Hl in Hs. destruct (Forall2_in_l _ _ _ _ _ _ F2 Hs) as (x & Hx & D).
      exists x. split; auto.
  Qed.
  Lemma bounds_loop_empty : forall G fs, wf (2 * n) G -> unprimed n G -> fields_in n fs ->
    (forall s, ~ in_set n G s) -> forall fuel, (2 ^ n <= fuel)%nat ->
    forall l t, (forall s, In s l -> bitvec n s) ->
    bounds_loop n fuel orc t G fs l (-1, -1) = Ok (-1, -1).
  Proof.
    intros G fs HG HU Hf Hne fuel Hfu. induction l as [|s l IH]; intros t Hl; auto.
    cbn [bounds_loop]. rewrite bounds_state_empty by (auto; apply Hl; left; auto). cbn [bind fst].
    apply (IH (S t)). intros x Hx. apply Hl. right. auto.
  Qed.
  (** without a state in one of the sets both bounds are -1 *)
  Lemma bounds_DDset_empty : forall T G fs, wf (2 * n) T -> unprimed n T -> wf (2 * n) G -> unprimed n G ->
    fields_in n fs -> (forall s, ~ in_set n T s) \/ (forall s, ~ in_set n G s) ->
    forall t fuel, (2 ^ n <= fuel)%nat ->
    exists t', bounds_DDset n fuel orc t T G fs = Ok ((-1, -1), t').
  Proof.
    intros T G fs HT HTu HG HGu Hf He t fuel Hfu. unfold bounds_DDset.
    destruct (states_of_ok T HT HTu t fuel Hfu) as (l & E & _ & Hl). rewrite E. cbn [bind].
    destruct He as [He|He].
    - destruct l as [|s l]; [eexists; reflexivity|]. exfalso. apply (He s). apply Hl. left; auto.
    - rewrite bounds_loop_empty; auto; [eexists; reflexivity|]. intros s Hs. apply Hl in Hs. apply Hs.
  Qed.
End St.
