(** The strategies that synthesize returns are of the form rm_sysgoal expects; its null
    results. *)
From Coq Require Import List ZArith Lia Bool Arith.
From Verif Require Import Base Game Bdd Support EnumProofs Strs Ptree Form Solve FSpec Automaton AutProofs Synth SynthSpec SynthFindings Reach AutIO AutIOSpec
  Nonbool Hotswap HotSpec HotLoad.
Import ListNotations.
Open Scope nat_scope.

Section Made.
  Variable F : fspec.
  Hypothesis Hws : well_scoped F.
  Hypothesis Hbool : all_boolean F.
  Hypothesis Hne : fs_sgoals F <> [].
  Variables (orc : oracle) (alloc : nat -> aut -> nat).
  Hypothesis Htools : tools_ok F orc alloc.
  Variables (fuel : nat) (flags : init_flags_t) (A : aut).
  Hypothesis HA : synthesize (spec_of F) orc alloc fuel flags = Ok A.
  Lemma made_correct : correct F A.
  Proof.
    destruct Htools as [H4 H5]. constructor.
    - exact (r_ids F Hws Hbool Hne orc alloc H4 H5 fuel flags A HA).
    - exact (r_closed F Hws Hbool Hne orc alloc H4 H5 fuel flags A HA).
    - intros x Hx. apply (r_wf F Hws Hbool Hne orc alloc H4 H5 fuel flags A HA x Hx).
    - exact (r_safe F Hws Hbool Hne orc alloc H4 H5 fuel flags A HA).
    - exact (r_answer F Hws Hbool Hne orc alloc H4 H5 fuel flags A HA).
    - intros p Hp Hd. exact (gr1_forms F _ (r_live F Hws Hbool Hne orc alloc H4 H5 fuel flags A HA p Hp Hd)).
  Qed.
  Lemma made_order : in_order F A.
  Proof.
    destruct Htools as [H4 H5]. split.
    - intros x Hx. apply (r_wf F Hws Hbool Hne orc alloc H4 H5 fuel flags A HA x Hx).
    - intros x y Hx Hy Ht. destruct (r_mode F Hws Hbool Hne orc alloc H4 H5 fuel flags A HA x y Hx Hy Ht)
        as (i & c & K1 & K2 & K3 & K4 & _). exists i, c. auto.
  Qed.
  Lemma made_seeks : seeks F A.
  Proof.
    destruct Htools as [H4 H5]. split.
    - intros x Hx. apply (r_wf F Hws Hbool Hne orc alloc H4 H5 fuel flags A HA x Hx).
    - intros x y Hx Hy Ht. destruct (r_mode F Hws Hbool Hne orc alloc H4 H5 fuel flags A HA x y Hx Hy Ht)
        as (i & c & K1 & K2 & K3 & K4 & K5). exists i, c. auto.
  Qed.
End Made.

Lemma order_not_skipped : forall F A d, 3 <= length (fs_sgoals F) -> d < length (fs_sgoals F) ->
  (forall x, In x A -> In (astate x) (fs_states F)) -> in_order F A ->
  (forall j, j < length (fs_sgoals F) -> after F j = d -> apart F j d) -> not_skipped F d A.
Proof.
  intros F A d Hk Hd Hst (_ & Hord) Hap x y Hx Hy Ht Em.
  set (k := length (fs_sgoals F)) in *.
  destruct (Hord x y Hx Hy Ht) as (i & c & Hi & Ex & Ey & Hg).
  fold k in Hi, Ey, Hg. rewrite Em in Ey. apply Nat2Z.inj in Ey. unfold after in *. fold k in Ey, Hap |- *.
  destruct c as [|[|c]].
  - right. rewrite Nat.add_0_r, (Nat.mod_small i) in Ey by auto. congruence.
  - left. rewrite Ex. f_equal. replace (i + 1) with (S i) in Ey by lia.
    destruct (Nat.eq_dec (S d) k) as [E1|E1]; destruct (Nat.eq_dec (S i) k) as [E2|E2];
      rewrite ?E1, ?E2, ?Nat.mod_same, ?(Nat.mod_small (S d)), ?(Nat.mod_small (S i)) in Ey by lia; lia.
  - exfalso. assert (Ed : (i + S c) mod k = d).
    { replace (i + S (S c)) with (S (i + S c)) in Ey by lia.
      rewrite <- (Nat.add_1_r (i + S c)), <- Nat.add_mod_idemp_l in Ey by lia.
      assert (Hlt : (i + S c) mod k < k) by (apply Nat.mod_upper_bound; lia).
      set (u := (i + S c) mod k) in *. replace (u + 1) with (S u) in Ey by lia.
      destruct (Nat.eq_dec (S d) k) as [E1|E1]; destruct (Nat.eq_dec (S u) k) as [E2|E2];
        rewrite ?E1, ?E2, ?Nat.mod_same, ?(Nat.mod_small (S d)), ?(Nat.mod_small (S u)) in Ey by lia; lia. }
    apply (Hap ((i + c) mod k)) with (s := astate y).
    + apply Nat.mod_upper_bound. lia.
    + rewrite <- Ed. rewrite <- Nat.add_1_r, Nat.add_mod_idemp_l by lia. f_equal. lia.
    + auto.
    + apply Hg. lia.
    + rewrite <- Ed. apply Hg. lia.
Qed.

(** what synthesize returns and aut_aut_dump writes can be patched *)
Lemma rm_made : forall F, well_scoped F -> all_boolean F ->
  forall orc alloc, tools_ok F orc alloc ->
  forall d, d < length (fs_sgoals F) -> 3 <= length (fs_sgoals F) ->
  (forall j, j < length (fs_sgoals F) -> after F j = d -> apart F j d) ->
  forall fuel fuel' flags n A text B, synthesize (spec_of F) orc alloc fuel flags = Ok A ->
  writable n A -> aut_aut_dump A n = Ok text -> short_lines text ->
  rm_sysgoal (spec_of F) NULL orc alloc fuel' n text (Z.of_nat d) = Ok B -> B <> [] ->
  correct (without d F) B /\ keeps F d A B.
Proof.
  intros F Hws Hb orc alloc HT d Hd Hk Hap fuel fuel' flags n A text B HA.
  assert (Hne : fs_sgoals F <> []) by (destruct (fs_sgoals F); [cbn in Hk; lia|discriminate]).
  pose proof (made_correct F Hws Hb Hne orc alloc HT fuel flags A HA) as Hco.
  pose proof (made_order F Hws Hb Hne orc alloc HT fuel flags A HA) as Hor.
  apply (rm_ok F Hws Hb orc alloc HT d Hd Hk); auto. apply order_not_skipped; auto. apply (co_states _ _ Hco).
Qed.
Lemma rm_range : forall F orc alloc fuel n text d,
  (d < 0)%Z \/ (Z.of_nat (length (fs_sgoals F)) <= d)%Z \/ length (fs_sgoals F) < 3 ->
  rm_sysgoal (spec_of F) NULL orc alloc fuel n text d = Ok [].
Proof.
  intros F orc alloc fuel n text d H. unfold rm_sysgoal. rewrite sp_goals.
  destruct ((d <? 0)%Z || (Z.of_nat (length (fs_sgoals F)) <=? d)%Z) eqn:E; auto.
  replace (Z.of_nat (length (fs_sgoals F)) <? 3)%Z with true by lia. reflexivity.
Qed.
(** when the patch succeeds *)
Lemma rm_made_total : forall F, well_scoped F -> all_boolean F ->
  forall orc alloc, tools_ok F orc alloc ->
  forall d, d < length (fs_sgoals F) -> 3 <= length (fs_sgoals F) ->
  (forall j, j < length (fs_sgoals F) -> after F j = d -> apart F j d) ->
  apart F (after F d) (after F (after F d)) -> env_moves F ->
  forall fuel flags n A text, synthesize (spec_of F) orc alloc fuel flags = Ok A ->
  writable n A -> aut_aut_dump A n = Ok text -> short_lines text ->
  exits_fit F d A -> taken_up F d A ->
  exists N, forall fuel', N <= fuel' -> exists B,
    rm_sysgoal (spec_of F) NULL orc alloc fuel' n text (Z.of_nat d) = Ok B /\ B <> [] /\
    correct (without d F) B /\ keeps F d A B.
Proof.
  intros F Hws Hb orc alloc HT d Hd Hk Hap Hap' Hmov fuel flags n A text HA Hw Hdu Hsh Hfit Htk.
  assert (Hne : fs_sgoals F <> []) by (destruct (fs_sgoals F); [cbn in Hk; lia|discriminate]).
  pose proof (made_correct F Hws Hb Hne orc alloc HT fuel flags A HA) as Hco.
  pose proof (made_seeks F Hws Hb Hne orc alloc HT fuel flags A HA) as Hse.
  destruct (rm_total F Hws Hb orc alloc HT d Hd Hk n A text Hco Hw Hdu Hsh Hmov Hse Hap' Hfit) as (N & HN).
  exists N. intros fuel' Hf. destruct (HN fuel' Hf) as (B & HB & Hiff). exists B.
  assert (HB' : B <> []) by (apply Hiff; auto). split; auto. split; auto.
  exact (rm_made F Hws Hb orc alloc HT d Hd Hk Hap fuel fuel' flags n A text B HA Hw Hdu Hsh HB HB').
Qed.
