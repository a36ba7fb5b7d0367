(** Proofs: the runs of the model for Spin follow the paths of the strategy. *)
From Coq Require Import List ZArith Bool Arith Ascii String Lia.
From Verif Require Import Base Game Strs Ptree Form Solve FSpec RSpec Automaton AutProofs AutProofs2
  SolveProofs EncProofs SynthSpec PromelaSpec SpinSpec SpinForm SpinText SpinDump.
Import ListNotations.
Open Scope string_scope.
Open Scope list_scope.

Lemma nodup_split : forall A (a b : list A), NoDup (a ++ b) -> NoDup a /\ NoDup b /\ forall x, In x a -> In x b -> False.
Proof.
  induction a as [|x a IH]; intros b H; cbn in *.
  - split; [constructor|]. split; auto.
  - inversion H as [|? ? Hx Hn]; subst. destruct (IH b Hn) as (H1 & H2 & H3). split; [|split; auto].
    + constructor; auto. intros Hi. apply Hx. apply in_or_app. auto.
    + intros y [<-|Hy] Hb; [apply Hx; apply in_or_app; auto|]. apply (H3 y); auto.
Qed.
(** ** Stores *)
Lemma put_same : forall x v s, put x v s x = v.
Proof. intros. unfold put. rewrite String.eqb_refl. reflexivity. Qed.
Lemma put_other : forall x v s y, y <> x -> put x v s y = s y.
Proof. intros. unfold put. apply String.eqb_neq in H. rewrite H. reflexivity. Qed.
Lemma put_all_out : forall l s y, ~ In y (map fst l) -> put_all l s y = s y.
Proof.
  induction l as [|a l IH]; intros s y H; auto. unfold put_all in *. cbn [fold_left]. rewrite IH.
  - apply put_other. intros E. apply H. left. auto.
  - intros E. apply H. right. auto.
Qed.
Lemma put_all_in : forall l s y c, NoDup (map fst l) -> In (y, c) l -> put_all l s y = cval c.
Proof.
  induction l as [|a l IH]; intros s y c Hn H; [destruct H|]. inversion Hn as [|? ? Hx Hn']; subst.
  unfold put_all. cbn [fold_left]. fold (put_all l (put (fst a) (cval (snd a)) s)). destruct H as [->|H].
  - rewrite put_all_out by auto. apply put_same.
  - apply IH; auto.
Qed.
Lemma put_all_app : forall a b s, put_all (a ++ b) s = put_all b (put_all a s).
Proof. intros. apply fold_left_app. Qed.
Lemma copy_all_out : forall l s y, ~ In y (map fst l) -> copy_all l s y = s y.
Proof.
  induction l as [|a l IH]; intros s y H; auto. unfold copy_all in *. cbn [fold_left]. rewrite IH.
  - apply put_other. intros E. apply H. left. auto.
  - intros E. apply H. right. auto.
Qed.
Lemma copy_all_in : forall l s y z, NoDup (map fst l) -> (forall y z, In (y, z) l -> ~ In z (map fst l)) -> In (y, z) l ->
  copy_all l s y = s z.
Proof.
  induction l as [|a l IH]; intros s y z Hn Hd H; [destruct H|]. inversion Hn as [|? ? Hx Hn']; subst.
  unfold copy_all. cbn [fold_left]. fold (copy_all l (put (fst a) (s (snd a)) s)). destruct H as [->|H].
  - rewrite copy_all_out by auto. apply put_same.
  - rewrite (IH _ y z); auto.
    + apply put_other. intros E. apply (Hd y z); [right; auto|]. left. auto.
    + intros y' z' H' E. apply (Hd y' z'); [right; auto|]. right. auto.
Qed.
Lemma lookup_map_self : forall (s : memory) xs y, In y xs -> lookup xs (map s xs) y = s y.
Proof.
  induction xs as [|x xs IH]; intros y H; [destruct H|]. cbn [map lookup].
  destruct (String.eqb_spec x y) as [->|N]; auto. apply IH. destruct H; congruence.
Qed.
Lemma map_agree : forall (s s' : memory) xs, (forall y, In y xs -> s' y = s y) -> map s' xs = map s xs.
Proof. intros. apply map_ext_in. auto. Qed.

(** ** Assigning the values of a state *)
Lemma kst_val : forall d z, (-1 <= snd d)%Z -> In z (dom (snd d)) -> cval (kst d z) = z.
Proof.
  intros d z Hd Hz. unfold kst. destruct (Z.eqb_spec (snd d) (-1)) as [E|E]; [|reflexivity].
  apply dom_bool in Hz; [|lia]. destruct Hz as [->| ->]; reflexivity.
Qed.
Lemma sets_fst : forall f vs s, List.length s = List.length vs -> map fst (sets_of f vs s) = map f (names vs).
Proof.
  intros f. unfold sets_of, names. induction vs as [|d vs IH]; intros [|z s] H; try discriminate; auto.
  cbn [List.combine map fst snd]. f_equal. apply IH. cbn in H. lia.
Qed.
Lemma sets_values : forall f vs e s, (forall x d, In (x, d) vs -> (-1 <= d)%Z) -> NoDup (map f (names vs)) -> in_doms (doms vs) e ->
  map (put_all (sets_of f vs e) s) (map f (names vs)) = e.
Proof.
  intros f vs e s Hd Hn He.
  assert (L : List.length e = List.length vs) by (apply in_doms_len in He; rewrite He; apply map_length).
  assert (G : forall ws t, (forall p, In p (List.combine ws t) -> In p (List.combine vs e)) -> List.length t = List.length ws ->
     in_doms (doms ws) t -> (forall x d, In (x, d) ws -> (-1 <= d)%Z) ->
     map (put_all (sets_of f vs e) s) (map f (names ws)) = t).
  { induction ws as [|[x d] ws IH]; intros [|z t] Hin Hl Ht Hd'; try discriminate; auto.
    inversion Ht; subst. cbn [names map fst]. f_equal.
    - rewrite (put_all_in _ _ _ (kst (x, d) z)).
      + apply kst_val; auto. cbn. apply (Hd' x). left. auto.
      + rewrite sets_fst; auto.
      + unfold sets_of. apply in_map_iff. exists ((x, d), z). split; auto. apply Hin. left. auto.
    - apply IH; auto. intros p Hp. apply Hin. right. auto. intros; eapply Hd'; right; eauto. }
  apply G; auto.
Qed.
Lemma doms_app : forall a b, doms (a ++ b) = doms a ++ doms b.
Proof. intros. apply map_app. Qed.
Lemma doms_len : forall a, List.length (doms a) = List.length a.
Proof. intros. apply map_length. Qed.
Lemma indoms_split : forall a b s, in_doms (doms (a ++ b)) s ->
  in_doms (doms a) (firstn (List.length a) s) /\ in_doms (doms b) (skipn (List.length a) s).
Proof.
  intros a b s H. unfold in_doms in *. rewrite doms_app in H. apply Forall2_app_inv_l in H.
  destruct H as (l1 & l2 & H1 & H2 & ->). assert (L : List.length l1 = List.length a).
  { apply Forall2_len in H1. rewrite doms_len in H1. auto. }
  rewrite <- L, firstn_app, skipn_app, Nat.sub_diag, firstn_all, skipn_all, app_nil_r. auto.
Qed.

(** ** Straight pieces of a run *)
Section Det.
  Variable P : program.
  Definition det (w : nat -> config) : Prop :=
    (forall n x v r s, w n = (Assign x v :: r, s) -> w (S n) = (or_loop P r, put x (cval v) s)) /\
    (forall n l r s, w n = (Copies l :: r, s) -> w (S n) = (or_loop P r, copy_all l s)).
  Lemma run_det : forall w, is_run P w -> det w.
  Proof.
    intros w [_ H]. split.
    - intros n x v r s E. destruct (H n) as (i & r' & b & E1 & E2 & E3). rewrite E in *. cbn [fst snd] in *.
      injection E1 as <- <-. inversion E2; subst. cbn [app] in E3. rewrite (surjective_pairing (w (S n))), E3. congruence.
    - intros n l r s E. destruct (H n) as (i & r' & b & E1 & E2 & E3). rewrite E in *. cbn [fst snd] in *.
      injection E1 as <- <-. inversion E2; subst. cbn [app] in E3. rewrite (surjective_pairing (w (S n))), E3. congruence.
  Qed.
  Lemma det_assign_step : forall w n x v r s, det w -> w n = (Assign x v :: r, s) -> pstep P (w n) (w (S n)).
  Proof.
    intros w n x v r s [H _] E. rewrite (H _ _ _ _ _ E), E. exists (Assign x v), r, []. cbn [fst snd app].
    split; auto. split; auto. constructor.
  Qed.
  Lemma det_copies_step : forall w n l r s, det w -> w n = (Copies l :: r, s) -> pstep P (w n) (w (S n)).
  Proof.
    intros w n l r s [_ H] E. rewrite (H _ _ _ _ E), E. exists (Copies l), r, []. cbn [fst snd app].
    split; auto. split; auto. constructor.
  Qed.
  Lemma or_loop_app : forall a k, k <> [] -> or_loop P (a ++ k) = a ++ k.
  Proof. intros a k H. destruct a; [destruct k; [congruence|reflexivity]|reflexivity]. Qed.
  Lemma det_sets : forall w k, det w -> k <> [] -> forall l n s, w n = (sets l ++ k, s) ->
    forall j, (j <= List.length l)%nat -> w (n + j)%nat = (sets (skipn j l) ++ k, put_all (firstn j l) s).
  Proof.
    intros w k Hd Hk. induction l as [|a l IH]; intros n s E j Hj.
    - replace j with O by (cbn in Hj; lia). rewrite Nat.add_0_r. exact E.
    - destruct j as [|j]; [rewrite Nat.add_0_r; exact E|].
      cbn [sets map app] in E. apply (proj1 Hd) in E. change (map (fun a => Assign (fst a) (snd a)) l) with (sets l) in E.
      rewrite or_loop_app in E by auto. rewrite Nat.add_succ_r. cbn [List.length] in Hj.
      change (S (n + j)) with (S n + j)%nat. rewrite (IH _ _ E j) by lia. reflexivity.
  Qed.
  (** assignments, then a flag is raised and lowered *)
  Definition raised (l : assigns) (c : string) : assigns := l ++ [(c, CBool true); (c, CBool false)].
  Lemma raised_len : forall l c, List.length (raised l c) = S (S (List.length l)).
  Proof. intros. unfold raised. rewrite app_length. cbn. lia. Qed.
  Lemma firstn_raised : forall l c j, (j <= S (S (List.length l)))%nat ->
    (firstn j (raised l c) = firstn j l /\ (j <= List.length l)%nat) \/
    (firstn j (raised l c) = l ++ [(c, CBool true)] /\ j = S (List.length l)) \/
    (firstn j (raised l c) = raised l c /\ j = S (S (List.length l))).
  Proof.
    intros l c j Hj. unfold raised. rewrite firstn_app.
    destruct (le_lt_dec j (List.length l)) as [H|H].
    - left. replace (j - List.length l)%nat with O by lia. rewrite firstn_O, app_nil_r. auto.
    - right. rewrite firstn_all2 by lia. destruct (Nat.eq_dec j (S (List.length l))) as [E|E].
      + left. replace (j - List.length l)%nat with 1%nat by lia. auto.
      + right. replace (j - List.length l)%nat with 2%nat by lia. split; auto. lia.
  Qed.
  Lemma in_firstn : forall A (l : list A) j x, In x (firstn j l) -> In x l.
  Proof. intros A l j x H. rewrite <- (firstn_skipn j l). apply in_or_app. auto. Qed.
  Lemma block : forall w n l c k s, det w -> k <> [] -> w n = (sets (raised l c) ++ k, s) -> s c = 0%Z -> ~ In c (map fst l) ->
    (forall j, (j <= List.length (raised l c))%nat ->
       (forall y, ~ In y (c :: map fst l) -> snd (w (n + j)%nat) y = s y) /\
       (snd (w (n + j)%nat) c <> 0%Z -> forall y, y <> c -> snd (w (n + j)%nat) y = put_all l s y)) /\
    snd (w (n + S (List.length l))%nat) c = 1%Z /\
    (exists s2, w (n + List.length (raised l c))%nat = (k, s2) /\ s2 c = 0%Z /\ forall y, y <> c -> s2 y = put_all l s y) /\
    (forall j, (j < List.length (raised l c))%nat -> pstep P (w (n + j)%nat) (w (S (n + j)))).
  Proof.
    intros w n l c k s Hd Hk E Hc Hl. assert (D := det_sets w k Hd Hk _ _ _ E).
    assert (Top : forall y, y <> c -> put_all (l ++ [(c, CBool true)]) s y = put_all l s y).
    { intros y Hy. rewrite put_all_app. cbn. apply put_other. auto. }
    split; [|split; [|split]].
    - intros j Hj. rewrite (D j Hj). cbn [snd]. rewrite raised_len in Hj. split.
      + intros y Hy. apply put_all_out. intros H. apply Hy. apply in_map_iff in H. destruct H as (a & <- & Ha).
        apply in_firstn in Ha. unfold raised in Ha. apply in_app_or in Ha. destruct Ha as [Ha|[<-|[<-|[]]]]; [right|left|left]; auto.
        apply in_map. auto.
      + intros Hne y Hy. destruct (firstn_raised l c j Hj) as [[E1 _]|[[E1 _]|[E1 _]]]; rewrite E1 in *.
        * exfalso. apply Hne. rewrite put_all_out; auto. intros H. apply Hl. apply in_map_iff in H. destruct H as (a & <- & Ha).
          apply in_map. apply in_firstn in Ha. auto.
        * apply Top. auto.
        * exfalso. apply Hne. unfold raised. rewrite put_all_app. cbn. apply put_same.
    - rewrite D by (rewrite raised_len; lia). cbn [snd].
      destruct (firstn_raised l c (S (List.length l))) as [[_ E1]|[[E1 _]|[_ E1]]]; try lia. rewrite E1, put_all_app. cbn. apply put_same.
    - rewrite D by lia. rewrite skipn_all, firstn_all. cbn [sets map app]. eexists. split; [reflexivity|].
      unfold raised. rewrite put_all_app. cbn. split; [apply put_same|]. intros y Hy. rewrite put_other by auto. apply put_other. auto.
    - intros j Hj. assert (D1 := D j (Nat.lt_le_incl _ _ Hj)). destruct (skipn j (raised l c)) as [|a r] eqn:Es.
      + apply (f_equal (@List.length _)) in Es. rewrite skipn_length in Es. cbn in Es. lia.
      + cbn [sets map app] in D1. eapply det_assign_step; eauto.
  Qed.
End Det.

Section Runs.
  Variable R : rspec.
  Variable A : aut.
  Hypothesis Ht : well_typed R.
  Hypothesis Hn : spin_names R.
  Hypothesis Hf : formed R A.

  Local Notation V := (rs_vars R).
  Local Notation E := (rs_evars R).
  Local Notation S_ := (rs_svars R).
  Local Notation ne := (List.length (rs_evars R)).
  Local Notation G := (game_of (fspec_of R)).
  Definition prog : program := model_program (file_of R A).
  Definition moves : list assigns := map (sets_of nx E) (counts (doms E)).
  Definition alts : list (list test * list stmt) :=
    map (fun b => let '(n, g, m, l) := b in (IsValue "current_node" n :: g, sets (("current_node", CInt m) :: l)))
      (edges_of A E S_ A 0).
  Definition copies : stmt := Copies (map (fun d => (fst d, nx (fst d))) (map (fun d => (fst d, snd d =? -1)%Z) V)).
  Definition sys_code : list stmt := If alts (Some [Assign "pmlfault" (CBool true)]) :: flash "checkstrans" ++ [copies].
  Definition env_code : list stmt := If (map (fun b => ([], sets b)) moves) None :: flash "checketrans".
  Lemma loop_eq : pg_loop prog = (if no_env R then [] else env_code) ++ sys_code.
  Proof. unfold prog, model_program, env_code, sys_code, alts, moves, copies. cbn [file_of f_moves f_edges f_types pg_loop]. unfold moves_of. destruct (no_env R); reflexivity. Qed.

  (** names *)
  Lemma name_V : NoDup (names V).
  Proof. assert (H := sn_distinct R Hn). apply nodup_split in H. tauto. Qed.
  Lemma name_nx : NoDup (map nx (names V)).
  Proof. assert (H := sn_distinct R Hn). apply nodup_split in H. tauto. Qed.
  Lemma name_apart : forall y, In y (names V) -> ~ In y (map nx (names V)).
  Proof. assert (H := sn_distinct R Hn). apply nodup_split in H. intros y H1 H2. destruct H as (_ & _ & H). apply (H y); auto. Qed.
  Lemma name_free : forall y r, In y (names V) \/ In y (map nx (names V)) -> In r (reserved R) -> y <> r.
  Proof. intros y r Hy Hr E1. subst r. apply (sn_fresh R Hn y); auto. apply in_or_app. auto. Qed.
  Lemma res_in : In "current_node" (reserved R) /\ In "checketrans" (reserved R) /\ In "checkstrans" (reserved R) /\ In "pmlfault" (reserved R).
  Proof. unfold reserved. cbn. tauto. Qed.
  Lemma names_E : forall y, In y (map nx (names E)) -> In y (map nx (names V)).
  Proof. intros y H. unfold names, rs_vars. rewrite !map_app, in_app_iff. auto. Qed.
  Lemma names_S : forall y, In y (map nx (names S_)) -> In y (map nx (names V)).
  Proof. intros y H. unfold names, rs_vars. rewrite !map_app, in_app_iff. auto. Qed.
  Lemma nx_ES : NoDup (map nx (names E)) /\ NoDup (map nx (names S_)) /\ forall y, In y (map nx (names E)) -> ~ In y (map nx (names S_)).
  Proof.
    assert (H := name_nx). unfold names, rs_vars in H. rewrite !map_app in H. apply nodup_split in H.
    unfold names. destruct H as (H1 & H2 & H3). repeat split; auto.
  Qed.
  Lemma state_doms : forall x, In x A -> in_doms (doms V) (astate x).
  Proof. intros x Hx. apply dvecs_In. apply (fm_states R A Hf x Hx). Qed.
  Lemma dom_ok : forall x d, In (x, d) V -> (-1 <= d)%Z.
  Proof. destruct Ht as (H & _). exact H. Qed.
  Lemma dom_okE : forall x d, In (x, d) E -> (-1 <= d)%Z.
  Proof. intros x d H. apply (dom_ok x). apply in_or_app. auto. Qed.
  Lemma dom_okS : forall x d, In (x, d) S_ -> (-1 <= d)%Z.
  Proof. intros x d H. apply (dom_ok x). apply in_or_app. auto. Qed.

  (** at the head of the loop, at node number [i] *)
  Record at_node (i : nat) (x : anode) (s : memory) : Prop := {
    an_nth : nth_error A i = Some x;
    an_state : map s (names V) = astate x;
    an_cur : s "current_node" = Z.of_nat i;
    an_ce : s "checketrans" = 0%Z;
    an_cs : s "checkstrans" = 0%Z;
    an_fault : s "pmlfault" = 0%Z
  }.
  Record mid (x : anode) (e : vec) (y : vec) (s : memory) : Prop := {
    md_state : map s (names V) = astate x;
    md_fault : s "pmlfault" = 0%Z;
    md_ce : s "checketrans" <> 0%Z -> map s (map nx (names E)) = e;
    md_cs : s "checkstrans" <> 0%Z -> map s (map nx (names V)) = y
  }.
  Definition L1 : nat := if no_env R then 0 else 3 + ne.
  Definition L2 : nat := 5 + List.length S_.
  Definition L : nat := L1 + L2.

  Lemma env_segment : forall w n i x s e, det prog w -> no_env R = false ->
    w n = (pg_loop prog, s) -> at_node i x s -> In e (counts (doms E)) ->
    w (S n) = (sets (sets_of nx E e) ++ flash "checketrans" ++ sys_code, s) ->
    (forall j y, (j < L1)%nat -> mid x e y (snd (w (n + j)%nat))) /\
    (exists j, (j < L1)%nat /\ snd (w (n + j)%nat) "checketrans" = 1%Z) /\
    (exists s1, w (n + L1)%nat = (sys_code, s1) /\ at_node i x s1 /\ map s1 (map nx (names E)) = e) /\
    (forall j, (0 < j < L1)%nat -> pstep prog (w (n + j)%nat) (w (S (n + j)))).
  Proof.
    intros w n i x s e Hd He0 Hw Hx He Hw1. unfold L1. rewrite He0.
    assert (Hc : in_doms (doms E) e) by (apply dvecs_In, counts_In; auto).
    assert (Hlen : List.length e = ne) by (apply in_doms_len in Hc; rewrite Hc; apply doms_len).
    set (l := sets_of nx E e) in *. assert (Hfst : map fst l = map nx (names E)) by (apply sets_fst; auto).
    assert (Ll : List.length l = ne) by (unfold l, sets_of; rewrite map_length, combine_length; lia).
    destruct res_in as (R1 & R2 & R3 & R4).
    assert (Hnl : ~ In "checketrans" (map fst l)).
    { rewrite Hfst. intros H. apply (name_free "checketrans" "checketrans"); auto. right. apply names_E. auto. }
    assert (Hw1' : w (S n) = (sets (raised l "checketrans") ++ sys_code, s)).
    { rewrite Hw1. unfold raised, sets. rewrite map_app, <- app_assoc. reflexivity. }
    assert (Hk : sys_code <> []) by discriminate.
    destruct (block prog w (S n) l "checketrans" sys_code s Hd Hk Hw1' (an_ce _ _ _ Hx) Hnl) as (B1 & B2 & (s2 & B3 & B4 & B5) & B6).
    rewrite raised_len, Ll in *.
    assert (K : forall y, In y (names V) \/ y = "current_node" \/ y = "checkstrans" \/ y = "pmlfault" -> ~ In y ("checketrans" :: map fst l)).
    { intros y Hy [<-|H].
      - destruct Hy as [Hy|[Hy|[Hy|Hy]]]; try discriminate. apply (name_free "checketrans" "checketrans"); auto.
      - rewrite Hfst in H. apply names_E in H. destruct Hy as [Hy|[->|[->| ->]]].
        + apply (name_apart y); auto.
        + apply (name_free "current_node" "current_node"); auto.
        + apply (name_free "checkstrans" "checkstrans"); auto.
        + apply (name_free "pmlfault" "pmlfault"); auto. }
    assert (NE : forall y, In y (map nx (names E)) -> y <> "checketrans").
    { intros y Hy. apply name_free; auto. right. apply names_E. auto. }
    assert (Val : map (put_all l s) (map nx (names E)) = e).
    { apply sets_values; auto; [apply dom_okE|apply nx_ES]. }
    split; [|split; [|split]].
    - intros j y Hj. destruct j as [|j].
      + rewrite Nat.add_0_r, Hw. cbn [snd]. constructor; try apply Hx; intros H; exfalso; apply H; apply Hx.
      + replace (n + S j)%nat with (S n + j)%nat by lia. destruct (B1 j ltac:(lia)) as [C1 C2]. constructor.
        * rewrite <- (an_state _ _ _ Hx). apply map_agree. intros z Hz. apply (C1 z). apply K. auto.
        * rewrite (C1 "pmlfault"); [apply Hx|apply K; auto].
        * intros H. rewrite <- Val. apply map_agree. intros z Hz. apply C2; auto.
        * intros H. exfalso. apply H. rewrite (C1 "checkstrans"); [apply Hx|apply K; auto].
    - exists (S (S ne)). split; [lia|]. rewrite Nat.add_succ_r. exact B2.
    - exists s2. replace (n + (3 + ne))%nat with (S n + S (S ne))%nat by lia. split; auto.
      assert (Same : forall y, In y (names V) \/ y = "current_node" \/ y = "checkstrans" \/ y = "pmlfault" -> s2 y = s y).
      { intros y Hy. assert (H := K y Hy). rewrite B5 by (intros ->; apply H; left; auto).
        apply put_all_out. intros H'. apply H. right. auto. }
      split.
      + constructor; try (rewrite Same by auto; apply Hx); auto; [apply Hx|].
        rewrite <- (an_state _ _ _ Hx). apply map_agree. intros z Hz. apply Same. auto.
      + rewrite <- Val. apply map_agree. intros z Hz. apply B5. auto.
    - intros j Hj. destruct j as [|j]; [lia|]. rewrite Nat.add_succ_r. apply B6. lia.
  Qed.

  Definition edge_body (m : nat) (y : anode) : assigns := ("current_node", CInt (Z.of_nat m)) :: sets_of nx S_ (skipn ne (astate y)).
  Lemma sys_segment : forall w n i x s m y, det prog w ->
    w n = (sys_code, s) -> at_node i x s -> nth_error A m = Some y ->
    map s (map nx (names E)) = firstn ne (astate y) ->
    w (S n) = (sets (edge_body m y) ++ flash "checkstrans" ++ [copies], s) ->
    (forall j e, (j < L2)%nat -> mid x e (astate y) (snd (w (n + j)%nat))) /\
    (exists j, (j < L2)%nat /\ snd (w (n + j)%nat) "checkstrans" = 1%Z) /\
    (exists s1, w (n + L2)%nat = (pg_loop prog, s1) /\ at_node m y s1) /\
    (forall j, (0 < j < L2)%nat -> pstep prog (w (n + j)%nat) (w (S (n + j)))).
  Proof.
    intros w n i x s m y Hd Hw Hx Hy He Hw1. unfold L2.
    assert (HyA : In y A) by (apply nth_error_In in Hy; auto).
    destruct (indoms_split E S_ (astate y) (state_doms y HyA)) as [D1 D2].
    set (l := edge_body m y) in *.
    assert (Hs2 : List.length (skipn ne (astate y)) = List.length S_) by (apply in_doms_len in D2; rewrite D2; apply doms_len).
    assert (Hfst : map fst l = "current_node" :: map nx (names S_)).
    { unfold l, edge_body. cbn [map fst]. f_equal. apply sets_fst. auto. }
    assert (Ll : List.length l = S (List.length S_)).
    { unfold l, edge_body, sets_of. cbn [List.length]. rewrite map_length, combine_length. lia. }
    destruct res_in as (R1 & R2 & R3 & R4).
    assert (Hnl : ~ In "checkstrans" (map fst l)).
    { rewrite Hfst. intros [H|H]; [discriminate|]. apply (name_free "checkstrans" "checkstrans"); auto. right. apply names_S. auto. }
    assert (Hw1' : w (S n) = (sets (raised l "checkstrans") ++ [copies], s)).
    { rewrite Hw1. unfold raised, sets. rewrite map_app, <- app_assoc. reflexivity. }
    assert (Hk : [copies] <> []) by discriminate.
    destruct (block prog w (S n) l "checkstrans" [copies] s Hd Hk Hw1' (an_cs _ _ _ Hx) Hnl) as (B1 & B2 & (s2 & B3 & B4 & B5) & B6).
    rewrite raised_len, Ll in *.
    assert (K : forall z, In z (names V) \/ z = "checketrans" \/ z = "pmlfault" -> ~ In z ("checkstrans" :: map fst l)).
    { intros z Hz [<-|H].
      - destruct Hz as [Hz|[Hz|Hz]]; try discriminate. apply (name_free "checkstrans" "checkstrans"); auto.
      - rewrite Hfst in H. destruct H as [<-|H].
        + destruct Hz as [Hz|[Hz|Hz]]; try discriminate. apply (name_free "current_node" "current_node"); auto.
        + apply names_S in H. destruct Hz as [Hz|[->| ->]].
          * apply (name_apart z); auto.
          * apply (name_free "checketrans" "checketrans"); auto.
          * apply (name_free "pmlfault" "pmlfault"); auto. }
    assert (NV : forall z, In z (map nx (names V)) -> z <> "checkstrans" /\ z <> "current_node").
    { intros z Hz. split; apply name_free; auto. }
    assert (Nxt : map (put_all l s) (map nx (names V)) = astate y).
    { unfold names, rs_vars. rewrite !map_app. rewrite <- (firstn_skipn ne (astate y)). f_equal.
      - rewrite <- He. apply map_agree. intros z Hz. apply put_all_out. rewrite Hfst. intros [H|H].
        + destruct (NV z); [apply names_E; exact Hz|]. congruence.
        + apply (proj2 (proj2 nx_ES) z); auto.
      - transitivity (map (put_all (sets_of nx S_ (skipn ne (astate y))) s) (map nx (names S_))).
        + apply map_agree. intros z Hz. unfold l, edge_body. change (put_all (("current_node", CInt (Z.of_nat m)) :: sets_of nx S_ (skipn ne (astate y))) s) with
            (put_all (sets_of nx S_ (skipn ne (astate y))) (put "current_node" (Z.of_nat m) s)).
          assert (In z (map fst (sets_of nx S_ (skipn ne (astate y))))) by (rewrite sets_fst; auto).
          apply in_map_iff in H. destruct H as ([z' c] & Ez & Hin). cbn in Ez. subst z'.
          rewrite !(put_all_in _ _ z c); auto; rewrite sets_fst by auto; apply nx_ES.
        + apply sets_values; auto; [apply dom_okS|apply nx_ES]. }
    assert (Cur : put_all l s "current_node" = Z.of_nat m).
    { apply (put_all_in _ _ _ (CInt (Z.of_nat m))); [|left; reflexivity]. rewrite Hfst. constructor; [|apply nx_ES].
      intros H. destruct (NV "current_node"); [apply names_S; auto|]. congruence. }
    assert (Keep : forall z, In z (names V) \/ z = "checketrans" \/ z = "pmlfault" -> s2 z = s z).
    { intros z Hz. assert (H := K z Hz). rewrite B5 by (intros ->; apply H; left; auto).
      apply put_all_out. intros H'. apply H. right. auto. }
    assert (W3 : w (n + (4 + List.length S_))%nat = ([copies], s2)).
    { replace (n + (4 + List.length S_))%nat with (S n + S (S (S (List.length S_))))%nat by lia. exact B3. }
    split; [|split; [|split]].
    - intros j e Hj. destruct j as [|j].
      + rewrite Nat.add_0_r, Hw. cbn [snd]. constructor; try apply Hx; intros H; exfalso; apply H; apply Hx.
      + replace (n + S j)%nat with (S n + j)%nat by lia. destruct (B1 j ltac:(lia)) as [C1 C2]. constructor.
        * rewrite <- (an_state _ _ _ Hx). apply map_agree. intros z Hz. apply (C1 z). apply K. auto.
        * rewrite (C1 "pmlfault"); [apply Hx|apply K; auto].
        * intros H. exfalso. apply H. rewrite (C1 "checketrans"); [apply Hx|apply K; auto].
        * intros H. rewrite <- Nxt. apply map_agree. intros z Hz. apply C2; auto. apply NV. auto.
    - exists (S (S (S (List.length S_)))). split; [lia|]. rewrite Nat.add_succ_r. exact B2.
    - replace (n + (5 + List.length S_))%nat with (S (n + (4 + List.length S_))) by lia.
      unfold copies in W3. rewrite map_map in W3. cbn [fst] in W3.
      set (cp := map (fun d : vdecl => (fst d, nx (fst d))) V) in *.
      assert (F1 : map fst cp = names V) by (unfold cp; rewrite map_map; reflexivity).
      rewrite (proj2 Hd _ _ _ _ W3). eexists. split; [reflexivity|].
      assert (O1 : forall z, ~ In z (names V) -> copy_all cp s2 z = s2 z).
      { intros z Hz. apply copy_all_out. rewrite F1. auto. }
      assert (O2 : forall r, In r (reserved R) -> ~ In r (names V)).
      { intros r Hr Hin. apply (name_free r r); auto. }
      constructor.
      + exact Hy.
      + rewrite <- Nxt. transitivity (map s2 (map nx (names V))).
        * rewrite map_map. apply map_ext_in. intros z Hz. apply (copy_all_in cp s2 z (nx z)).
          -- rewrite F1. apply name_V.
          -- intros y' z' Hin. rewrite F1. unfold cp in Hin. apply in_map_iff in Hin. destruct Hin as (d & Ed & Hd').
             injection Ed as <- <-. intros Hbad. apply (name_apart _ Hbad). apply in_map. apply in_map. auto.
          -- unfold cp. apply in_map_iff in Hz. destruct Hz as (d & <- & Hd'). apply in_map_iff. exists d. auto.
        * apply map_agree. intros z Hz. apply B5. apply NV. auto.
      + rewrite O1 by auto. rewrite B5 by discriminate. exact Cur.
      + rewrite O1, Keep by auto. apply Hx.
      + rewrite O1 by auto. exact B4.
      + rewrite O1, Keep by auto. apply Hx.
    - intros j Hj. destruct j as [|j]; [lia|]. rewrite Nat.add_succ_r.
      destruct (Nat.eq_dec j (3 + List.length S_)) as [->|Ej].
      + replace (S (n + (3 + List.length S_))) with (n + (4 + List.length S_))%nat by lia. eapply det_copies_step; eauto.
      + apply B6. lia.
  Qed.

  (** ** Choices *)
  Lemma start_in : forall vs node c a, In a (start_nodes vs node c) <->
    exists i x, nth_error node i = Some x /\ ainit x = true /\ a = ((c + Z.of_nat i)%Z, sets_of (fun y => y) vs (astate x)).
  Proof.
    induction node as [|x node IH]; intros c a; cbn [start_nodes].
    - split; [intros []|]. intros ([|i] & x & H & _); discriminate.
    - rewrite in_app_iff, IH. split.
      + intros [H|(i & y & H1 & H2 & ->)].
        * destruct (ainit x) eqn:Ei; [|destruct H]. destruct H as [<-|[]]. exists O, x. rewrite Z.add_0_r. auto.
        * exists (S i), y. split; auto. split; auto. f_equal. lia.
      + intros ([|i] & y & H1 & H2 & ->).
        * left. injection H1 as ->. rewrite H2. left. f_equal. lia.
        * right. exists i, y. split; auto. split; auto. f_equal. lia.
  Qed.
  Lemma edges_in : forall node c a, In a (edges_of A E S_ node c) <->
    exists i x t, nth_error node i = Some x /\ In t (atrans x) /\ In a (edge_to A E S_ (c + Z.of_nat i) t).
  Proof.
    induction node as [|x node IH]; intros c a; cbn [edges_of].
    - split; [intros []|]. intros ([|i] & x & t & H & _); discriminate.
    - rewrite in_app_iff, IH, in_flat_map. split.
      + intros [(t & H1 & H2)|(i & y & t & H1 & H2 & H3)].
        * exists O, x, t. rewrite Z.add_0_r. auto.
        * exists (S i), y, t. split; auto. split; auto. replace (c + Z.of_nat (S i))%Z with (c + 1 + Z.of_nat i)%Z by lia. auto.
      + intros ([|i] & y & t & H1 & H2 & H3).
        * left. injection H1 as ->. exists t. rewrite Z.add_0_r in H3. auto.
        * right. exists i, y, t. split; auto. split; auto. replace (c + 1 + Z.of_nat i)%Z with (c + Z.of_nat (S i))%Z by lia. auto.
  Qed.
  Definition alt_of (i m : nat) (y : anode) : list test * list stmt :=
    (IsValue "current_node" (Z.of_nat i) :: guard_of E (astate y), sets (edge_body m y)).
  Lemma alts_in : forall a, In a alts <->
    exists i x m y, nth_error A i = Some x /\ nth_error A m = Some y /\ In (aid y) (atrans x) /\ a = alt_of i m y.
  Proof.
    intros a. unfold alts. rewrite in_map_iff. split.
    - intros (b & Eb & Hb). apply edges_in in Hb. destruct Hb as (i & x & t & H1 & H2 & H3). unfold edge_to in H3.
      destruct (deref A t) as [y|] eqn:Ey; [|destruct H3]. destruct H3 as [<-|[]].
      apply deref_In in Ey. destruct Ey as [Hy <-]. apply In_nth_error in Hy. destruct Hy as [m Hm].
      rewrite (proj1 (anode_index_spec A (aid y) (fm_ids R A Hf)) m y Hm) in Eb.
      exists i, x, m, y. repeat split; auto.
    - intros (i & x & m & y & H1 & H2 & H3 & ->). eexists. split; [|apply edges_in; exists i, x, (aid y); split; [exact H1|]; split; [exact H3|]].
      2: { unfold edge_to. rewrite (deref_unique A y (fm_ids R A Hf)) by (apply nth_error_In in H2; auto). left. reflexivity. }
      cbn [fst]. rewrite (proj1 (anode_index_spec A (aid y) (fm_ids R A Hf)) m y H2). reflexivity.
  Qed.
  Lemma guard_passes : forall es a s, (forall x d, In (x, d) es -> (-1 <= d)%Z) ->
    in_doms (doms es) (map s (map nx (names es))) -> in_doms (doms es) (firstn (List.length es) a) ->
    (forallb (passes s) (guard_of es a) = true <-> map s (map nx (names es)) = firstn (List.length es) a).
  Proof.
    unfold guard_of. induction es as [|[x d] es IH]; intros a s Hd H1 H2; [cbn; tauto|].
    destruct a as [|z a]; [cbn in H2; inversion H2|]. cbn [List.length firstn names map List.combine forallb fst] in *.
    inversion H1 as [|? ? ? ? Da Db]; subst. inversion H2 as [|? ? ? ? Dc Dd]; subst.
    rewrite andb_true_iff. fold (names es) in *. rewrite (IH a s); auto; [|intros; eapply Hd; right; eauto].
    assert (Q : passes s (test_of ((x, d), z)) = true <-> s (nx x) = z).
    { unfold test_of. cbn [fst snd]. assert (D0 := Hd x d (or_introl eq_refl)).
      destruct (Z.eqb_spec d (-1)) as [Ed|Ed].
      - subst d. apply dom_bool in Da; [|lia]. apply dom_bool in Dc; [|lia].
        destruct Da as [Ea|Ea], Dc as [->| ->]; cbn [passes Z.eqb]; rewrite Ea; cbn; split; intros; congruence || lia || reflexivity.
      - cbn [passes]. apply Z.eqb_eq. }
    rewrite Q. split; [intros [-> ->]; reflexivity|]. intros Eq. injection Eq as E1 E2. auto.
  Qed.

  (** ** Reading the formula *)
  Lemma meaning_in : forall defs x e, NoDup (map fst defs) -> In (x, e) defs -> meaning defs x = e.
  Proof.
    induction defs as [|[y e'] defs IH]; intros x e Hnd H; [destruct H|]. inversion Hnd as [|? ? Hy Hnd']; subst. cbn [meaning].
    destruct H as [H|H].
    - injection H as -> ->. rewrite String.eqb_refl. reflexivity.
    - destruct (String.eqb_spec y x) as [->|_]; [|auto]. exfalso. apply Hy. apply (in_map fst) in H. exact H.
  Qed.
  Lemma meaning_out : forall defs x, ~ In x (map fst defs) -> meaning defs x = PVar x.
  Proof.
    induction defs as [|[y e'] defs IH]; intros x H; auto. cbn [meaning]. destruct (String.eqb_spec y x) as [->|_].
    - exfalso. apply H. left. auto.
    - apply IH. intros H'. apply H. right. auto.
  Qed.
  Lemma goal_defs_fst : forall X (h : form -> X) name l k, map fst (goal_defs name h l k) = map (numbered name) (seq k (List.length l)).
  Proof. intros X h name. induction l as [|f l IH]; intros k; cbn; auto. f_equal. apply IH. Qed.
  Lemma goal_defs_in : forall X (h : form -> X) name l k i f, nth_error l i = Some f -> In (numbered name (k + i), h f) (goal_defs name h l k).
  Proof.
    intros X h name. induction l as [|g l IH]; intros k [|i] f H; try discriminate; cbn [goal_defs].
    - injection H as ->. rewrite Nat.add_0_r. left. auto.
    - right. replace (k + S i)%nat with (S k + i)%nat by lia. apply IH. auto.
  Qed.
End Runs.

(** ** The names of the goals are different *)
Lemma digit0_value : forall s, JsonSpec.decimal_value 0 (String "0" s) = JsonSpec.decimal_value 0 s.
Proof. reflexivity. Qed.
Lemma number4_value : forall i, JsonSpec.decimal_value 0 (number4 (Z.of_nat i)) = Z.of_nat i.
Proof.
  intros i. assert (H : JsonSpec.decimal_value 0 (zdec (Z.of_nat i)) = Z.of_nat i).
  { unfold zdec. rewrite (proj2 (Z.ltb_ge _ _)) by lia. unfold dec_pos.
    destruct (JsonWrite.dec_value (S (Z.to_nat (Z.log2 (Z.of_nat i)))) (Z.of_nat i) "") as [D _]; [|congruence|].
    - split; [lia|]. apply log2_bound. lia.
    - exact D. }
  unfold number4. destruct (String.length (zdec (Z.of_nat i))) as [|[|[|[|n]]]]; cbn [append]; rewrite ?digit0_value; auto.
Qed.
Lemma numbered_inj : forall name i j, numbered name i = numbered name j -> i = j.
Proof.
  intros name i j H. unfold numbered in H. assert (E : number4 (Z.of_nat i) = number4 (Z.of_nat j)).
  { induction name; cbn in H; [auto|]. injection H. auto. }
  apply (f_equal (JsonSpec.decimal_value 0)) in E. rewrite !number4_value in E. lia.
Qed.
Lemma numbered_nodup : forall name n, NoDup (map (numbered name) (seq 0 n)).
Proof.
  intros name n. apply FinFun.Injective_map_NoDup; [|apply seq_NoDup]. intros i j. apply numbered_inj.
Qed.
