(** Infinite sequences in a finite graph: what no cycle allows happens only for a
    bounded time. *)
From Coq Require Import List ZArith Lia Bool Arith.
From Verif Require Import Base Game Automaton.
Import ListNotations.
Open Scope nat_scope.

Lemma anode_dec : forall x y : anode, {x = y} + {x <> y}.
Proof.
  decide equality; try apply Z.eq_dec; try apply Nat.eq_dec; try apply Bool.bool_dec; apply list_eq_dec;
    auto using Z.eq_dec, Nat.eq_dec.
Qed.
Lemma repeats : forall (X : Type) (dec : forall x y : X, {x = y} + {x <> y}) (A : list X) (f : nat -> X) N,
  length A < N -> (forall i, i < N -> In (f i) A) -> exists i j, i < j < N /\ f i = f j.
Proof.
  intros X dec A f N HN Hf. assert (Hd : ~ NoDup (map f (seq 0 N))).
  { intros H. apply (NoDup_incl_length (l' := A)) in H.
    - rewrite map_length, seq_length in H. lia.
    - intros x Hx. apply in_map_iff in Hx. destruct Hx as (i & <- & Hi). apply in_seq in Hi. apply Hf. lia. }
  assert (Hind : forall n s, (exists i j, s <= i < j /\ j < s + n /\ f i = f j) \/ NoDup (map f (seq s n))).
  { induction n as [|n IH]; intros s; [right; constructor|]. destruct (IH (S s)) as [(i & j & H1 & H2 & H3)|H].
    - left. exists i, j. repeat split; auto; lia.
    - cbn. destruct (in_dec dec (f s) (map f (seq (S s) n))) as [Hi|Hi].
      + left. apply in_map_iff in Hi. destruct Hi as (j & E & Hj). apply in_seq in Hj. exists s, j. repeat split; auto; lia.
      + right. constructor; auto. }
  destruct (Hind N 0) as [(i & j & H1 & H2 & H3)|H]; [|tauto]. exists i, j. repeat split; auto; lia.
Qed.
Lemma find_time : forall (hit : nat -> bool) N, (exists t, t <= N /\ hit t = true) \/ forall t, t <= N -> hit t = false.
Proof.
  induction N as [|N [(t & Ht & E)|H]].
  - destruct (hit 0) eqn:E; [left; eauto|]. right. intros t Ht. replace t with 0 by lia. auto.
  - left. eauto.
  - destruct (hit (S N)) eqn:E; [left; eauto|]. right. intros t Ht. destruct (Nat.eq_dec t (S N)) as [->|]; auto. apply H. lia.
Qed.

Section Lasso.
  Variables (A : aut) (R : anode -> anode -> Prop) (G : list (vec -> bool)) (bad : anode -> Prop).
  Hypothesis Hno : forall p : nat -> anode, (forall t, In (p t) A /\ R (p t) (p (S t)) /\ bad (p t)) ->
    (forall g, In g G -> infinitely_often g (fun t => astate (p t))) -> False.
  Variables (q : nat -> anode) (hit : nat -> bool).
  Hypothesis Hq : forall t, (forall u, u <= t -> hit u = false) -> In (q t) A /\ R (q t) (q (S t)) /\ bad (q t).
  Hypothesis HG : forall g, In g G -> infinitely_often g (fun t => astate (q t)).

  (** all goals within a stretch *)
  Lemma round : forall t, exists t', t < t' /\ forall g, In g G -> exists u, t <= u < t' /\ g (astate (q u)) = true.
  Proof.
    intros t. clear Hno. induction G as [|g l IH].
    - exists (S t). split; [lia|]. intros g [].
    - destruct IH as (t1 & H1 & H2); [intros h Hh; apply HG; right; auto|].
      destruct (HG g (or_introl eq_refl) t) as (u & Hu & E). exists (S (t1 + u)). split; [lia|].
      intros h [<-|Hh]; [exists u; split; auto; lia|]. destruct (H2 h Hh) as (v & Hv & E'). exists v. split; auto. lia.
  Qed.
  Lemma rounds : forall N, exists ts : nat -> nat, forall i, i < N -> ts i < ts (S i) /\
    forall g, In g G -> exists u, ts i <= u < ts (S i) /\ g (astate (q u)) = true.
  Proof.
    induction N as [|N (ts & H)]; [exists (fun _ => 0); lia|].
    destruct (round (ts N)) as (t' & H1 & H2). exists (fun i => if i <=? N then ts i else t'). intros i Hi.
    destruct (Nat.eq_dec i N) as [->|Hn].
    - rewrite Nat.leb_refl. replace (S N <=? N) with false by (symmetry; apply Nat.leb_gt; lia). auto.
    - replace (i <=? N) with true by (symmetry; apply Nat.leb_le; lia).
      replace (S i <=? N) with true by (symmetry; apply Nat.leb_le; lia). apply H. lia.
  Qed.
  (** going round a cycle for ever *)
  Lemma cycle : forall a b, a < b -> q a = q b -> (forall u, u <= b -> hit u = false) ->
    (forall g, In g G -> exists u, a <= u < b /\ g (astate (q u)) = true) -> False.
  Proof.
    intros a b Hab E Hh Hg. set (c := b - a). assert (Hc : 0 < c /\ a + c = b) by (unfold c; lia).
    clearbody c. destruct Hc as (Hc & Hcb).
    apply (Hno (fun t => q (a + t mod c))).
    - intros t. pose proof (Nat.mod_upper_bound t c ltac:(lia)) as Hm.
      destruct (Hq (a + t mod c)) as (H1 & H2 & H3); [intros u Hu; apply Hh; lia|].
      split; auto. split; auto. destruct (Nat.eq_dec (S (t mod c)) c) as [Ec|Ec].
      + replace (S t mod c) with 0.
        * rewrite Nat.add_0_r, E. replace b with (S (a + t mod c)) by lia. auto.
        * symmetry. rewrite <- Nat.add_1_r, <- Nat.add_mod_idemp_l by lia. replace (t mod c + 1) with c by lia.
          apply Nat.mod_same. lia.
      + assert (Es : S t mod c = S (t mod c)).
        { replace (S t) with (t + 1) by lia. rewrite <- Nat.add_mod_idemp_l by lia. rewrite Nat.mod_small by lia. lia. }
        rewrite Es, Nat.add_succ_r. auto.
    - intros g Hgi t. destruct (Hg g Hgi) as (u & Hu & Eg). exists ((u - a) + t * c). split; [nia|].
      rewrite Nat.mod_add, Nat.mod_small by lia.
      replace (a + (u - a)) with u by lia. auto.
  Qed.
  Theorem lasso : exists t, hit t = true.
  Proof.
    set (N := S (length A)). destruct (rounds N) as (ts & Hts).
    destruct (find_time hit (ts N)) as [(t & _ & E)|Hh]; [eauto|]. exfalso.
    assert (Hmono : forall i j, i <= j -> j <= N -> ts i <= ts j).
    { intros i j Hij. induction Hij as [|j Hij IH]; intros Hj; auto. destruct (Hts j); lia. }
    destruct (repeats anode anode_dec A (fun i => q (ts i)) N) as (i & j & Hij & E).
    - unfold N. lia.
    - intros i Hi. apply Hq. intros u Hu. apply Hh. pose proof (Hmono i N ltac:(lia) (le_n _)). lia.
    - destruct (Hts i ltac:(lia)) as (H1 & H2).
      assert (H3 : ts (S i) <= ts j) by (apply Hmono; lia). assert (H4 : ts j <= ts N) by (apply Hmono; lia).
      apply (cycle (ts i) (ts j)); auto; [lia|intros u Hu; apply Hh; lia|].
      intros g Hg. destruct (H2 g Hg) as (u & Hu & Eg). exists u. split; auto. lia.
  Qed.
End Lasso.
