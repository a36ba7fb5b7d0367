(** Proofs about pprint_state (Pprint.v). *)
From Coq Require Import List ZArith Bool Ascii String Lia.
From Verif Require Import Base Strs Ptree Form PtreeProofs PrintProofs TextProofs LogProofs Pprint PprintSpec.
Import ListNotations.
Open Scope string_scope.
Open Scope list_scope.
Open Scope Z_scope.

Definition shown_names (l : list string) : string := String.concat "" (map (fun x => String.append " " x) l).
Lemma vars_ok : forall vs s i, (i + List.length vs <= List.length s)%nat ->
  pprint_vars (vlist vs) s i (List.length vs) = Ok (shown_names (nonzero (names vs) (skipn i s)), List.length (nonzero (names vs) (skipn i s))).
Proof.
  induction vs as [|[x d] vs IH]; intros s i H; [reflexivity|]. cbn [List.length] in H. cbn [pprint_vars vlist List.length names map fst].
  assert (X : exists b r, skipn i s = b :: r /\ nth_error s i = Some b /\ skipn (S i) s = r).
  { clear IH. revert s H. induction i as [|i IH]; intros [|b s] H; cbn in H; try lia; [exists b, s; auto|]. destruct (IH s) as (c & r & E); [lia|]. exists c, r. exact E. }
  destruct X as (b & r & E1 & E2 & E3). rewrite E2, E1. rewrite IH by lia. rewrite E3. unfold nonzero. cbn [List.combine filter snd].
  destruct (b =? 0); cbn [bind negb map fst snd List.length Nat.add]; [reflexivity|]. unfold shown_names. cbn [map]. rewrite cat_cons. reflexivity.
Qed.
Lemma vars_short : forall vs s i, vs <> [] -> (List.length s < i + List.length vs)%nat -> pprint_vars (vlist vs) s i (List.length vs) = Crash.
Proof.
  induction vs as [|[x d] vs IH]; intros s i N H; [congruence|]. cbn [pprint_vars vlist List.length]. destruct (nth_error s i) as [b|] eqn:E; [|reflexivity].
  assert (L : (i < List.length s)%nat) by (apply nth_error_Some; congruence).
  assert (X : pprint_vars (vlist vs) s (S i) (List.length vs) = Crash).
  { apply IH; [|cbn in H; lia]. intros ->. cbn in H. lia. }
  destruct (b =? 0); cbn [bind]; rewrite X; reflexivity.
Qed.
Lemma nonzero_app : forall xs ys s, (List.length xs <= List.length s)%nat ->
  nonzero (xs ++ ys) s = nonzero xs s ++ nonzero ys (skipn (List.length xs) s).
Proof.
  induction xs as [|x xs IH]; intros ys s H; [reflexivity|]. destruct s as [|b s]; [cbn in H; lia|]. cbn [List.length skipn app].
  unfold nonzero in *. cbn [List.combine filter snd]. cbn in H. specialize (IH ys s ltac:(lia)). destruct (b =? 0); cbn [negb map fst app]; rewrite IH; reflexivity.
Qed.
Lemma nil_form : forall xs s, nil_if_none (shown_names (nonzero xs s), List.length (nonzero xs s)) = short_form xs s.
Proof. intros xs s. unfold nil_if_none, short_form. cbn [snd fst]. destruct (nonzero xs s) as [|x l]; reflexivity. Qed.
Lemma shown_app : forall a b, (shown_names a ++ shown_names b)%string = shown_names (a ++ b).
Proof. intros a b. unfold shown_names. rewrite map_app, cat_app. reflexivity. Qed.

Lemma pprint_all : forall E S s, (List.length E + List.length S <= List.length s)%nat ->
  pprint_state (vlist E) (vlist S) s (Z.of_nat (List.length E)) (Z.of_nat (List.length S)) = Ok (short_form (names (E ++ S)) s).
Proof.
  intros E S s H. unfold pprint_state. rewrite !Nat2Z.id, vars_ok by lia. cbn [bind skipn].
  destruct (Z.eqb_spec (Z.of_nat (List.length S)) (-1)) as [X|_]; [lia|]. destruct (Z.eqb_spec (Z.of_nat (List.length E)) (-1)) as [X|_]; [lia|].
  rewrite Nat2Z.id, vars_ok by lia. cbn [bind fst snd]. unfold names. rewrite map_app, <- nil_form, nonzero_app by (rewrite map_length; lia).
  rewrite map_length, <- shown_app, app_length. reflexivity.
Qed.
Lemma pprint_env : forall E S s, (List.length E <= List.length s)%nat ->
  pprint_state (vlist E) S s (Z.of_nat (List.length E)) (-1) = Ok (short_form (names E) s).
Proof. intros E S s H. unfold pprint_state. rewrite Nat2Z.id, vars_ok by lia. cbn [bind skipn]. change (-1 =? -1) with true. cbv iota. rewrite nil_form. reflexivity. Qed.
Lemma pprint_env0 : forall E S s, (List.length E <= List.length s)%nat ->
  pprint_state (vlist E) (vlist S) s (Z.of_nat (List.length E)) 0 = Ok (short_form (names E) s).
Proof.
  intros E S s H. unfold pprint_state. rewrite Nat2Z.id, vars_ok by lia. cbn [bind skipn]. change (0 =? -1) with false. cbv iota zeta. change (Z.to_nat 0) with 0%nat. cbn [pprint_vars bind fst snd]. rewrite str_nil_r, Nat.add_0_r, nil_form. reflexivity.
Qed.
Lemma pprint_sys : forall E S s, (List.length E + List.length S <= List.length s)%nat ->
  pprint_state (vlist E) (vlist S) s (-1) (Z.of_nat (List.length S)) = Ok (short_form (names S) (skipn (List.length E) s)).
Proof.
  intros E S s H. unfold pprint_state. cbn [Z.to_nat pprint_vars bind]. destruct (Z.eqb_spec (Z.of_nat (List.length S)) (-1)) as [X|_]; [lia|].
  change (-1 =? -1) with true. cbv iota zeta. rewrite tree_size_vlist, !Nat2Z.id, vars_ok by lia. cbn [bind fst snd String.append Nat.add]. rewrite nil_form. reflexivity.
Qed.
Lemma edge_ok : forall E S s, List.length s = (2 * (List.length E + List.length S))%nat ->
  pprint_edge (vlist E) (vlist S) s (List.length E) (List.length S) (Z.of_nat (List.length s)) =
    Ok (short_form (names (E ++ S)) (firstn (List.length E + List.length S) s) ++ " to" ++ short_form (names (E ++ S)) (skipn (List.length E + List.length S) s))%string.
Proof.
  intros E S s H. unfold pprint_edge. rewrite pprint_all by lia. cbn [bind].
  replace (Z.of_nat (List.length s) - (2 * Z.of_nat (List.length E) + Z.of_nat (List.length S))) with (Z.of_nat (List.length S)) by lia.
  rewrite pprint_all by (rewrite skipn_length; lia). cbn [bind]. do 2 f_equal. unfold short_form. replace (nonzero (names (E ++ S)) (firstn _ s)) with (nonzero (names (E ++ S)) s); [reflexivity|].
  unfold nonzero. do 2 f_equal. replace (List.length E + List.length S)%nat with (List.length (names (E ++ S))) by (unfold names; rewrite map_length, app_length; reflexivity).
  apply combine_firstn_l.
Qed.
Lemma edge_env : forall E S s, List.length s = (2 * List.length E + List.length S)%nat ->
  pprint_edge (vlist E) (vlist S) s (List.length E) (List.length S) (Z.of_nat (List.length s)) =
    Ok (short_form (names (E ++ S)) (firstn (List.length E + List.length S) s) ++ " to" ++ short_form (names E) (skipn (List.length E + List.length S) s))%string.
Proof.
  intros E S s H. unfold pprint_edge. rewrite pprint_all by lia. cbn [bind].
  replace (Z.of_nat (List.length s) - (2 * Z.of_nat (List.length E) + Z.of_nat (List.length S))) with 0 by lia.
  rewrite pprint_env0 by (rewrite skipn_length; lia). cbn [bind]. do 2 f_equal. unfold short_form. replace (nonzero (names (E ++ S)) (firstn _ s)) with (nonzero (names (E ++ S)) s); [reflexivity|].
  unfold nonzero. do 2 f_equal. replace (List.length E + List.length S)%nat with (List.length (names (E ++ S))) by (unfold names; rewrite map_length, app_length; reflexivity).
  apply combine_firstn_l.
Qed.
Lemma edge_few : forall E S s num_read, List.length s = (2 * (List.length E + List.length S))%nat -> num_read <= 2 * Z.of_nat (List.length E) + Z.of_nat (List.length S) ->
  pprint_edge (vlist E) (vlist S) s (List.length E) (List.length S) num_read =
    Ok (short_form (names (E ++ S)) (firstn (List.length E + List.length S) s) ++ " to" ++ short_form (names E) (skipn (List.length E + List.length S) s))%string.
Proof.
  intros E S s num_read H HN. unfold pprint_edge. rewrite pprint_all by lia. cbn [bind].
  assert (X : pprint_state (vlist E) (vlist S) (skipn (List.length E + List.length S) s) (Z.of_nat (List.length E)) (num_read - (2 * Z.of_nat (List.length E) + Z.of_nat (List.length S))) =
    Ok (short_form (names E) (skipn (List.length E + List.length S) s))).
  { set (k := num_read - _). assert (K : k <= 0) by lia. clearbody k. unfold pprint_state. rewrite Nat2Z.id, vars_ok by (rewrite skipn_length; lia). cbn [bind].
    change (skipn 0 (skipn (List.length E + List.length S) s)) with (skipn (List.length E + List.length S) s).
    destruct (k =? -1); [rewrite nil_form; reflexivity|]. cbv zeta. replace (Z.to_nat k) with 0%nat by lia. cbn [pprint_vars bind fst snd]. rewrite str_nil_r, Nat.add_0_r, nil_form. reflexivity. }
  rewrite X. cbn [bind]. do 2 f_equal. unfold short_form. replace (nonzero (names (E ++ S)) (firstn _ s)) with (nonzero (names (E ++ S)) s); [reflexivity|].
  unfold nonzero. do 2 f_equal. replace (List.length E + List.length S)%nat with (List.length (names (E ++ S))) by (unfold names; rewrite map_length, app_length; reflexivity).
  apply combine_firstn_l.
Qed.
Lemma block_bad : forall E S s, E <> [] -> S <> [] -> List.length s = List.length S -> pprint_block (vlist E) (vlist S) s (List.length S) = Crash.
Proof.
  intros E S s HE HS H. unfold pprint_block, pprint_state. cbn [Z.to_nat pprint_vars bind]. destruct (Z.eqb_spec (Z.of_nat (List.length S)) (-1)) as [X|_]; [lia|].
  change (-1 =? -1) with true. cbv iota zeta. rewrite tree_size_vlist, !Nat2Z.id, vars_short; [reflexivity|exact HS|]. destruct E; [congruence|]. cbn. lia.
Qed.
Lemma block_noenv : forall S s, List.length s = List.length S -> pprint_block (vlist []) (vlist S) s (List.length S) = Ok (short_form (names S) s).
Proof. intros S s H. unfold pprint_block. rewrite (pprint_sys [] S s); [reflexivity|cbn; lia]. Qed.

(** ** Reading it *)
Lemma word_cut : forall x y a b, blank_free x -> blank_free y -> (a = "" \/ exists r, a = String " " r)%string -> (b = "" \/ exists r, b = String " " r)%string ->
  (x ++ a)%string = (y ++ b)%string -> x = y /\ a = b.
Proof.
  induction x as [|c x IH]; intros [|c' y] a b Hx Hy Ha Hb E; cbn [String.append] in E.
  - auto.
  - destruct Ha as [->|(r & ->)]; [discriminate E|]. injection E as E _. destruct Hy as [Hy _]. congruence.
  - destruct Hb as [->|(r & ->)]; [discriminate E|]. injection E as E _. destruct Hx as [Hx _]. congruence.
  - injection E as <- E. destruct Hx as [_ Hx], Hy as [_ Hy]. destruct (IH y a b Hx Hy Ha Hb E) as [-> ->]. auto.
Qed.
Lemma shown_start : forall l, (shown_names l = "" \/ exists r, shown_names l = String " " r)%string.
Proof. intros [|x l]; [left; reflexivity|]. right. unfold shown_names. cbn [map]. rewrite cat_cons. cbn. eauto. Qed.
Lemma shown_inj : forall l l', (forall x, In x l -> blank_free x) -> (forall x, In x l' -> blank_free x) -> shown_names l = shown_names l' -> l = l'.
Proof.
  assert (C : forall x l, shown_names (x :: l) = String " " (x ++ shown_names l)) by (intros; unfold shown_names; cbn [map]; rewrite cat_cons; reflexivity).
  induction l as [|x l IH]; intros [|y l'] H H' E; [reflexivity|rewrite C in E; discriminate E|rewrite C in E; discriminate E|].
  rewrite !C in E. injection E as E. destruct (word_cut x y _ _ (H x (or_introl eq_refl)) (H' y (or_introl eq_refl)) (shown_start l) (shown_start l') E) as [-> E'].
  f_equal. apply IH; auto; intros z Hz; [apply H|apply H']; right; exact Hz.
Qed.
Lemma nonzero_in : forall xs s x, In x (nonzero xs s) -> In x xs.
Proof. intros xs s x H. unfold nonzero in H. apply in_map_iff in H. destruct H as ([y b] & <- & H). apply filter_In in H. destruct H as [H _]. apply in_combine_l in H. exact H. Qed.
Lemma nonzero_inj : forall xs s s', NoDup xs -> bitvec (List.length xs) s -> bitvec (List.length xs) s' -> nonzero xs s = nonzero xs s' -> s = s'.
Proof.
  induction xs as [|x xs IH]; intros s s' N [L B] [L' B'] E.
  - destruct s, s'; cbn in *; try lia; reflexivity.
  - destruct s as [|b s], s' as [|b' s']; cbn in L, L'; try lia. inversion N as [|? ? N1 N2]; subst. inversion B as [|? ? Bb Bs]; inversion B' as [|? ? Bb' Bs']; subst.
    assert (R : nonzero xs s = nonzero xs s' -> s = s') by (intros R; apply IH; auto; split; auto; lia).
    unfold nonzero in E. cbn [List.combine filter snd] in E. destruct Bb as [->| ->], Bb' as [->| ->]; cbn in E.
    + f_equal. apply R. exact E.
    + exfalso. apply N1. apply (nonzero_in xs s). unfold nonzero. rewrite E. left. reflexivity.
    + exfalso. apply N1. apply (nonzero_in xs s'). unfold nonzero. rewrite <- E. left. reflexivity.
    + injection E as E. f_equal. apply R. exact E.
Qed.
Lemma form_read : forall xs s s', words xs -> bitvec (List.length xs) s -> bitvec (List.length xs) s' -> short_form xs s = short_form xs s' -> s = s'.
Proof.
  intros xs s s' [N W] B B' E. apply (nonzero_inj xs); auto. unfold short_form in E.
  assert (F : forall t x, In x (nonzero xs t) -> blank_free x) by (intros t x H; apply W; eapply nonzero_in; eauto).
  assert (G : forall t, shown_names (nonzero xs t) <> " (nil)").
  { intros t G. change " (nil)" with (shown_names ["(nil)"]) in G. apply shown_inj in G; [|apply F|intros x [<-|[]]; cbn; repeat split; discriminate].
    assert (I : In "(nil)" (nonzero xs t)) by (rewrite G; left; reflexivity). apply nonzero_in in I. apply W in I. destruct I as [_ I]. apply I. reflexivity. }
  pose proof (F s) as F1. pose proof (F s') as F2. pose proof (G s) as G1. pose proof (G s') as G2.
  destruct (nonzero xs s) as [|x l], (nonzero xs s') as [|y l']; [reflexivity|exfalso; apply G2; symmetry; exact E|exfalso; apply G1; exact E|].
  apply shown_inj; auto.
Qed.
Lemma pprint_example : let E := [("a", -1); ("b", -1)] in let S := [("c", -1)] in
  words (names (E ++ S)) /\ pprint_state (vlist E) (vlist S) [1; 0; 1] 2 1 = Ok " a c" /\ pprint_state (vlist E) (vlist S) [0; 0; 0] 2 1 = Ok " (nil)" /\
  pprint_state (vlist E) (vlist S) [1; 0; 1] (-1) 1 = Ok " c" /\ pprint_state (vlist E) (vlist S) [1; 1; 0] 2 (-1) = Ok " a b" /\
  pprint_edge (vlist E) (vlist S) [1; 0; 1; 0; 1] 2 1 5 = Ok " a c to b" /\ pprint_block (vlist E) (vlist S) [1] 1 = Crash.
Proof.
  intros E S. split; [|repeat (match goal with |- _ /\ _ => split end); reflexivity]. split.
  - repeat constructor; cbn; intuition discriminate.
  - intros x H. cbn in H. destruct H as [<-|[<-|[<-|[]]]]; (split; [cbn; repeat split; discriminate|discriminate]).
Qed.
Lemma expanded_example : exists S s, List.length s = (2 * List.length S)%nat /\ words (names S) /\ Forall isbit s /\
  pprint_edge (vlist []) (vlist S) s 0 (List.length S) 2 <>
    Ok (short_form (names S) (firstn (List.length S) s) ++ " to" ++ short_form (names S) (skipn (List.length S) s))%string.
Proof.
  exists [("x0", -1); ("x1", -1)], [0; 0; 1; 1]. split; [reflexivity|]. split; [|split].
  - split; [repeat constructor; cbn; intuition discriminate|]. intros x H. cbn in H. destruct H as [<-|[<-|[]]]; (split; [cbn; repeat split; discriminate|discriminate]).
  - unfold isbit. repeat (constructor; [auto|]). constructor.
  - vm_compute. discriminate.
Qed.
