(** The strategies that synthesize returns can be patched. *)
From Coq Require Import List ZArith Lia Bool Arith String.
From Verif Require Import Base Game Bdd BGame Support SupportProofs EnumProofs Ops OpsProofs Strs Ptree Form Solve FSpec
  SolveProofs Automaton AutProofs Synth SynthCert SynthSpec Reach ReadState Nonbool AutIO AutIOSpec
  Hotswap HotSpec HotLoad HotSynth Interactive InteractSpec Patch PatchSpec PatchLoad.
Import ListNotations.
Open Scope list_scope.
Open Scope nat_scope.

Section Made.
  Variable F : fspec.
  Hypothesis Hws : well_scoped F.
  Hypothesis Hbool : all_boolean F.
  Hypothesis Hne : fs_sgoals F <> [].
  Variables (orc : oracle) (alloc : nat -> aut -> nat).
  Hypothesis Htools : tools_ok F orc alloc.
  Variables (fuel : nat) (flags : init_flags_t) (A : aut).
  Hypothesis HA : synthesize (spec_of F) orc alloc fuel flags = Ok A.
  Lemma made_rgrad : forall x, In x A -> (0 <= argrad x)%Z.
  Proof.
    destruct Htools as [H4 H5]. destruct (out_cases F Hws Hbool Hne orc alloc H4 H5 fuel flags A HA)
      as [->|(et & st & eg & sg & ei & si & W & L & K & Y & X & ss & HD & HG & HSt & HI & HGr)]; [intros x []|].
    assert (P1 : 0 < List.length sg).
    { rewrite (bd_lsg _ _ _ _ _ _ _ HD). destruct (fs_sgoals F); [congruence|simpl; lia]. }
    intros x Hx. destruct (c_node _ _ _ _ _ _ P1 (bd_leg _ _ _ _ _ _ _ HD) W L K Y X ss A HG HI x Hx)
      as (i & j & mv & _ & _ & Ej & _). lia.
  Qed.
  Lemma made_patchable : forall N l, (forall s g, In s N -> In g (fs_sgoals F) -> holds F g s = false) -> patchable F N l A.
  Proof.
    intros N l HN. destruct Htools as [H4 H5]. constructor.
    - exact (r_key F Hws Hbool Hne orc alloc H4 H5 fuel flags A HA).
    - exact made_rgrad.
    - intros x y Hx Hy Ht Em. destruct (r_rgrad F Hws Hbool Hne orc alloc H4 H5 fuel flags A HA x y Hx Hy Ht) as (K1 & K2).
      destruct (Z.eq_dec (argrad x) 0) as [E|E]; [right|left; apply K2; [auto|lia]].
      assert (Hg : forall g, In g (fs_sgoals F) -> holds F g (astate x) = true).
      { intros g Hg. apply (In_nth _ _ FTrue) in Hg. destruct Hg as (i & Hi & <-).
        apply (r_rgrad0 F Hws Hbool Hne orc alloc H4 H5 fuel flags A HA x Hx E i Hi). }
      split; auto. intros (K & _). destruct (fs_sgoals F) as [|g r]; [congruence|].
      specialize (Hg g (or_introl eq_refl)). rewrite (HN _ g K (or_introl eq_refl)) in Hg. discriminate.
    - intros x y Hx Hy Ht Em HyN _. exfalso.
      destruct (r_mode F Hws Hbool Hne orc alloc H4 H5 fuel flags A HA x y Hx Hy Ht) as (i & c & Hi & Ex & Ey & Hg & Hc).
      assert (Hi' : 0 < c).
      { destruct c as [|c]; [|lia]. rewrite Nat.add_0_r, Nat.mod_small in Ey by auto. congruence. }
      apply Hc in Hi'. unfold sgoal in Hi'. rewrite (HN _ _ HyN) in Hi'; [discriminate|]. apply nth_In. auto.
  Qed.
End Made.

Lemma patch_made : forall F, well_scoped F -> all_boolean F -> fs_svars F <> [] -> fs_sgoals F <> [] ->
  forall orc alloc, tools_ok F orc alloc ->
  forall ep sq, parts_of (fs_etrans F) ep -> parts_of (fs_strans F) sq ->
  forall N l, (forall s, In s N -> In s (fs_states F)) -> Forall (valid F) l -> forallb is_change l = true ->
  (forall s g, In s N -> In g (fs_sgoals F) -> holds F g s = false) ->
  env_moves_in F (changed F l) -> (fs_evars F = [] -> forall s e, ~ In (RelaxEnv s e) l) ->
  forall fuel' flags A text changes fuel B, synthesize (spec_of F) orc alloc fuel' flags = Ok A ->
  let n := Z.of_nat (List.length (fs_evars F) + List.length (fs_svars F)) in
  writable n A -> aut_aut_dump A n = Ok text -> short_lines text -> change_file N l changes ->
  patch_localfixpoint (spec_of F) (map tree_of ep) (map tree_of sq) orc alloc fuel text changes = Ok B -> B <> [] ->
  serves F (changed F l) B /\ in_order F B /\ starts_kept F N l A B.
Proof.
  intros F Hws Hb Hsv Hgo orc alloc HT ep sq Hep Hsq N l HN Hv Hc Hg Hmv Hre fuel' flags A text changes fuel B HA n Hw Hd Hsh Hch HB Hne.
  refine (patch_sound F Hws Hb Hsv Hgo orc alloc ep sq Hep Hsq N l HN Hv Hc A text changes _ _ Hw Hd Hsh Hch HT fuel B _ Hmv Hre HB Hne).
  - exact (made_correct F Hws Hb Hgo orc alloc HT fuel' flags A HA).
  - exact (made_order F Hws Hb Hgo orc alloc HT fuel' flags A HA).
  - apply (made_patchable F Hws Hb Hgo orc alloc HT fuel' flags A HA). auto.
Qed.

(** the hypotheses of [patch_made] that hold of all runs shown in PatchExamples.v *)
Definition patch_case (F : fspec) (orc : oracle) (alloc : nat -> aut -> nat) (N : list vec) (l : list command)
  (fuel : nat) (A : aut) (text changes : string) : Prop :=
  let n := Z.of_nat (List.length (fs_evars F) + List.length (fs_svars F)) in
  well_scoped F /\ all_boolean F /\ fs_svars F <> [] /\ fs_sgoals F <> [] /\ tools_ok F orc alloc /\
  (forall s, In s N -> In s (fs_states F)) /\ Forall (valid F) l /\ forallb is_change l = true /\
  env_moves_in F (changed F l) /\ (fs_evars F = [] -> forall s e, ~ In (RelaxEnv s e) l) /\
  synthesize (spec_of F) orc alloc fuel ALL_INIT = Ok A /\
  writable n A /\ aut_aut_dump A n = Ok text /\ short_lines text /\ change_file N l changes.
(** patching when each of ENVTRANS and SYSTRANS is one formula *)
Definition patched_of (F : fspec) (orc : oracle) (alloc : nat -> aut -> nat) (fuel : nat) (text changes : string) : out aut :=
  patch_localfixpoint (spec_of F) [tree_of (fs_etrans F)] [tree_of (fs_strans F)] orc alloc fuel text changes.
