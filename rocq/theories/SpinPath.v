(** Proofs: the model for Spin obeys its formula when the paths of the strategy are right,
    and only then. *)
From Coq Require Import List ZArith Bool Arith Ascii String Lia.
From Verif Require Import Base Game Strs Ptree Form Solve FSpec RSpec Automaton AutProofs AutProofs2
  SolveProofs EncProofs SynthSpec PromelaSpec SpinSpec SpinForm SpinText SpinDump SpinRuns.
Import ListNotations.
Open Scope string_scope.
Open Scope list_scope.

Section Names.
  Lemma side_names : forall X (h : form -> X) name1 name2 name3 (t : X) o l,
    String.get 3 name1 = Some "i"%char -> String.get 3 name2 = Some "t"%char ->
    (forall i, String.get 3 (numbered name3 i) = Some "g"%char) ->
    NoDup (map fst (init_defs name1 h o ++ (name2, t) :: goal_defs name3 h l 0)).
  Proof.
    intros X h n1 n2 n3 t o l H1 H2 H3. rewrite map_app. apply NoDup_app.
    - destruct o; cbn; repeat constructor. auto.
    - cbn [map fst]. rewrite goal_defs_fst. constructor; [|apply numbered_nodup]. intros Hi. apply in_map_iff in Hi.
      destruct Hi as (i & Ei & _). rewrite <- Ei, H3 in H2. discriminate.
    - intros x Hx Hy. assert (Ex : x = n1) by (destruct o; cbn in Hx; [destruct Hx as [<-|[]]; auto|destruct Hx]). subst x.
      cbn [map fst] in Hy. rewrite goal_defs_fst in Hy. destruct Hy as [Hy|Hy]; [congruence|].
      apply in_map_iff in Hy. destruct Hy as (i & Ei & _). rewrite <- Ei, H3 in H1. discriminate.
  Qed.
  Lemma side_head : forall X (h : form -> X) name1 name2 name3 (t : X) o l c,
    String.get 0 name1 = Some c -> String.get 0 name2 = Some c -> (forall i, String.get 0 (numbered name3 i) = Some c) ->
    forall x, In x (map fst (init_defs name1 h o ++ (name2, t) :: goal_defs name3 h l 0)) ->
      (x = name1 \/ x = name2 \/ exists i, x = numbered name3 i) /\ String.get 0 x = Some c.
  Proof.
    intros X h n1 n2 n3 t o l c H1 H2 H3 x Hx. rewrite map_app in Hx. apply in_app_or in Hx. destruct Hx as [Hx|Hx].
    - destruct o; cbn in Hx; [|destruct Hx]. destruct Hx as [<-|[]]. auto.
    - cbn [map fst] in Hx. rewrite goal_defs_fst in Hx. destruct Hx as [<-|Hx]; auto.
      apply in_map_iff in Hx. destruct Hx as (i & <- & _). split; auto. right. right. exists i. auto.
  Qed.
  Lemma defs_nodup : forall R, NoDup (map fst (exps_of R)).
  Proof.
    intros R. unfold exps_of, defs_of. rewrite map_app. apply NoDup_app.
    - destruct (no_env R); [constructor|]. apply side_names; reflexivity.
    - apply side_names; reflexivity.
    - intros x H1 H2. apply (side_head _ _ _ _ _ _ _ _ "s"%char) in H2; try reflexivity. destruct H2 as [_ H2].
      destruct (no_env R); [destruct H1|]. apply (side_head _ _ _ _ _ _ _ _ "e"%char) in H1; try reflexivity.
      destruct H1 as [_ H1]. congruence.
  Qed.
  Lemma defs_free : forall R x, String.get 0 x <> Some "e"%char -> String.get 0 x <> Some "s"%char -> meaning (exps_of R) x = PVar x.
  Proof.
    intros R x He Hs. apply meaning_out. unfold exps_of, defs_of. rewrite map_app. intros H. apply in_app_or in H. destruct H as [H|H].
    - destruct (no_env R); [destruct H|]. apply (side_head _ _ _ _ _ _ _ _ "e"%char) in H; try reflexivity. tauto.
    - apply (side_head _ _ _ _ _ _ _ _ "s"%char) in H; try reflexivity. tauto.
  Qed.
  Lemma mean_env : forall R x e, no_env R = false ->
    In (x, e) (init_defs "envinit" sexp (rs_einit R) ++ ("envtrans", trans_exp (rs_etrans R)) :: goal_defs "envgoal" sexp (rs_egoals R) 0) ->
    meaning (exps_of R) x = e.
  Proof.
    intros R x e H Hin. apply meaning_in; [apply defs_nodup|]. unfold exps_of, defs_of. rewrite H. apply in_or_app. left. exact Hin.
  Qed.
  Lemma mean_sys : forall R x e,
    In (x, e) (init_defs "sysinit" sexp (rs_sinit R) ++ ("systrans", trans_exp (rs_strans R)) :: goal_defs "sysgoal" sexp (rs_sgoals R) 0) ->
    meaning (exps_of R) x = e.
  Proof.
    intros R x e Hin. apply meaning_in; [apply defs_nodup|]. unfold exps_of, defs_of. apply in_or_app. right. exact Hin.
  Qed.
End Names.

Lemma sat_ands : forall defs w n l, l <> [] -> (sat defs w n (ands l) <-> forall f, In f l -> sat defs w n f).
Proof.
  intros defs w n [|f l] H; [congruence|]. clear H. cbn [ands]. revert f. induction l as [|g l IH]; intros f; cbn [fold_left].
  - split; [intros H g [<-|[]]; auto|]. intros H. apply H. left. auto.
  - rewrite IH. split.
    + intros H h Hh. assert (F := H (LAnd f g) (or_introl eq_refl)). destruct F as [F1 F2].
      destruct Hh as [<-|[<-|Hh]]; auto. apply H. right. auto.
    + intros H h [<-|Hh]; [split; apply H; cbn; auto|]. apply H. right. right. auto.
Qed.

Section Path.
  Variable R : rspec.
  Variable A : aut.
  Hypothesis Ht : well_typed R.
  Hypothesis Hn : spin_names R.
  Hypothesis Hf : formed R A.
  Local Notation V := (rs_vars R).
  Local Notation E := (rs_evars R).
  Local Notation S_ := (rs_svars R).
  Local Notation ne := (List.length (rs_evars R)).
  Local Notation F := (fspec_of R).
  Local Notation G := (game_of (fspec_of R)).
  Local Notation prg := (prog R A).
  Local Notation len := (L R).

  Lemma no_env_spec : no_env R = true <-> E = [].
  Proof. unfold no_env. destruct E; split; intros; auto; discriminate. Qed.

  (** ** Formulas in stores *)
  Lemma bool_val : forall vs s y, NoDup (names vs) -> in_doms (doms vs) (map s (names vs)) -> In (y, -1)%Z vs -> is_bool (s y).
  Proof.
    intros vs s y _. unfold doms, names. induction vs as [|[x d] vs IH]; intros Hd H; [destruct H|].
    cbn [map fst snd] in Hd. inversion Hd; subst. destruct H as [H|H].
    - injection H as -> ->. apply dom_bool in H3; [|lia]. exact H3.
    - apply IH; auto.
  Qed.
  Lemma reads_cur : forall s x f, In x A -> map s (names V) = astate x -> uses V false f ->
    (forall y, In y (bares false f) -> s y = val F (astate x) y /\ is_bool (val F (astate x) y)) /\
    (forall y, In y (cmps false f) -> s y = val F (astate x) y).
  Proof.
    intros s x f Hx Hs [U1 U2]. assert (Q : forall y, In y (names V) -> val F (astate x) y = s y).
    { intros y Hy. unfold val. rewrite <- Hs. apply lookup_map_self. exact Hy. }
    split.
    - intros y Hy. apply U1 in Hy. rewrite Q by (apply (in_map fst) in Hy; exact Hy). split; auto.
      apply (bool_val V s y); auto; [apply name_V; auto|]. rewrite Hs. apply (state_doms R A Hf). auto.
    - intros y Hy. apply U2 in Hy. destruct Hy as (d & _ & Hy). rewrite Q; auto. apply (in_map fst) in Hy. exact Hy.
  Qed.
  Lemma store_state : forall s x f, In x A -> map s (names V) = astate x -> state_typed R f ->
    true_at (peval s (sexp f)) = holds F f (astate x).
  Proof.
    intros s x f Hx Hs (U & B & C). destruct (reads_cur s x f Hx Hs U) as [P1 P2].
    apply sexp_sem; auto; rewrite ?B, ?C; intros y [].
  Qed.
  Lemma nx_inj : forall a b, nx a = nx b -> a = b.
  Proof.
    intros a b H. unfold nx in H. revert b H. induction a as [|c a IH]; intros [|d b] H; auto.
    - exfalso. apply (f_equal String.length) in H. cbn [append] in H. cbn [String.length] in H.
      assert (X : forall s, String.length (s ++ "_next") = (String.length s + 5)%nat) by (clear; induction s; cbn; auto).
      rewrite X in H. lia.
    - exfalso. apply (f_equal String.length) in H. cbn [append] in H. cbn [String.length] in H.
      assert (X : forall s, String.length (s ++ "_next") = (String.length s + 5)%nat) by (clear; induction s; cbn; auto).
      rewrite X in H. lia.
    - cbn in H. injection H as -> H. f_equal. apply IH. auto.
  Qed.
  Lemma lookup_nx : forall (s : memory) xs y, In y xs -> lookup xs (map s (map nx xs)) y = s (nx y).
  Proof.
    induction xs as [|x xs IH]; intros y H; [destruct H|]. cbn [map lookup].
    destruct (String.eqb_spec x y) as [->|N]; auto. apply IH. destruct H; congruence.
  Qed.
  Lemma bool_next : forall vs s y, in_doms (doms vs) (map s (map nx (names vs))) -> In (y, -1)%Z vs -> is_bool (s (nx y)).
  Proof.
    intros vs s y. unfold doms, names. induction vs as [|[x d] vs IH]; intros Hd H; [destruct H|].
    cbn [map fst snd] in Hd. inversion Hd; subst. destruct H as [H|H].
    - injection H as -> ->. apply dom_bool in H3; [|lia]. exact H3.
    - apply IH; auto.
  Qed.
  Lemma store_strans : forall s x y, In x A -> In y A -> map s (names V) = astate x -> map s (map nx (names V)) = astate y ->
    true_at (peval s (trans_exp (rs_strans R))) = g_str G (astate x) (astate y).
  Proof.
    intros s x y Hx Hy Hs Hsn. rewrite trans_sem. cbn [game_of g_str fspec_of fs_strans]. rewrite conj_sem.
    assert (X : forall f, In f (rs_strans R) -> true_at (peval s (sexp f)) = sem (val F (astate x)) (val F (astate y)) f).
    { intros f Hin. destruct Ht as (_ & _ & _ & Hst & _). destruct (Hst f Hin) as [U0 [U1 U2]].
      destruct (reads_cur s x f Hx Hs U0) as [P1 P2].
      assert (Q : forall z, In z (names V) -> val F (astate y) z = s (nx z)).
      { intros z Hz. unfold val. rewrite <- Hsn. apply lookup_nx. exact Hz. }
      apply sexp_sem; auto.
      - intros z Hz. apply U1 in Hz. rewrite Q by (apply (in_map fst) in Hz; exact Hz). split; auto.
        apply (bool_next V s z); auto. rewrite Hsn. apply (state_doms R A Hf). auto.
      - intros z Hz. apply U2 in Hz. destruct Hz as (d & _ & Hz). rewrite Q; auto. apply (in_map fst) in Hz. exact Hz. }
    revert X. generalize (rs_strans R). induction l as [|f l IH]; intros X; auto. cbn [forallb].
    rewrite (X f) by (left; auto). f_equal. apply IH. intros; apply X; right; auto.
  Qed.
  Lemma store_etrans : forall s x e, In x A -> map s (names V) = astate x -> map s (map nx (names E)) = e -> in_doms (doms E) e ->
    true_at (peval s (trans_exp (rs_etrans R))) = g_etr G (astate x) e.
  Proof.
    intros s x e Hx Hs Hsn He. rewrite trans_sem. cbn [game_of g_etr fspec_of fs_etrans]. rewrite conj_sem.
    assert (X : forall f, In f (rs_etrans R) -> true_at (peval s (sexp f)) = sem (val F (astate x)) (eval F e) f).
    { intros f Hin. destruct Ht as (_ & _ & Het & _). destruct (Het f Hin) as [U0 [U1 U2]].
      destruct (reads_cur s x f Hx Hs U0) as [P1 P2].
      assert (Q : forall z, In z (names E) -> eval F e z = s (nx z)).
      { intros z Hz. unfold eval. rewrite <- Hsn. apply lookup_nx. exact Hz. }
      apply sexp_sem; auto.
      - intros z Hz. apply U1 in Hz. rewrite Q by (apply (in_map fst) in Hz; exact Hz). split; auto.
        apply (bool_next E s z); auto. rewrite Hsn. auto.
      - intros z Hz. apply U2 in Hz. destruct Hz as (d & _ & Hz). rewrite Q; auto. apply (in_map fst) in Hz. exact Hz. }
    revert X. generalize (rs_etrans R). induction l as [|f l IH]; intros X; auto. cbn [forallb].
    rewrite (X f) by (left; auto). f_equal. apply IH. intros; apply X; right; auto.
  Qed.

  (** ** A run along a path *)
  Record along (w : nat -> config) (p : nat -> anode) : Prop := {
    al_zero : forall y, snd (w 0%nat) y = 0%Z;
    al_mid : forall k j, (j < len)%nat -> mid R (p k) (firstn ne (astate (p (S k)))) (astate (p (S k))) (snd (w (S (k * len + j))));
    al_ce : no_env R = false -> forall k, exists j, (j < len)%nat /\ snd (w (S (k * len + j))) "checketrans" = 1%Z;
    al_cs : forall k, exists j, (j < len)%nat /\ snd (w (S (k * len + j))) "checkstrans" = 1%Z
  }.
  Lemma len_pos : (0 < len)%nat.
  Proof. unfold L, L2. lia. Qed.
  Lemma time_split : forall m, exists k j, (j < len)%nat /\ m = (k * len + j)%nat.
  Proof.
    intros m. exists (m / len)%nat, (m mod len)%nat. assert (P := len_pos). split; [apply Nat.mod_upper_bound; lia|].
    rewrite Nat.mul_comm. apply Nat.div_mod. lia.
  Qed.
  Lemma along_inf : forall w p name g, along w p -> (forall k, In (p k) A) -> state_typed R g -> meaning (exps_of R) name = sexp g ->
    (sat (exps_of R) (fun n => snd (w n)) 0 (LAlways (LEventually (LProp name))) <->
     infinitely_often (holds F g) (fun t => astate (p t))).
  Proof.
    intros w p name g Ha Hp Hg Hm. cbn [sat]. rewrite Hm. split.
    - intros H t. destruct (H (S (t * len))) as (m & Hm1 & Hm2); [lia|]. destruct m as [|m]; [lia|].
      destruct (time_split m) as (k & j & Hj & ->). exists k. split.
      + assert (P := len_pos). destruct (le_lt_dec t k); auto. exfalso. assert (S k * len <= t * len)%nat by (apply Nat.mul_le_mono_r; lia).
        cbn in H0. lia.
      + rewrite <- Hm2. symmetry. apply store_state; auto. apply (md_state _ _ _ _ _ (al_mid w p Ha k j Hj)).
    - intros H n _. destruct (H n) as (k & Hk & Hh). exists (S (k * len + 0)). assert (P := len_pos). split.
      + assert (k * 1 <= k * len)%nat by (apply Nat.mul_le_mono_l; lia). lia.
      + rewrite <- Hh. apply store_state; auto. apply (md_state _ _ _ _ _ (al_mid w p Ha k 0 P)).
  Qed.
  Lemma along_init : forall w p name o, along w p -> (forall k, In (p k) A) -> opt_all (state_typed R) o ->
    (forall g, o = Some g -> meaning (exps_of R) name = sexp g) ->
    ((forall f, In f (map snd (init_part name o)) -> sat (exps_of R) (fun n => snd (w n)) 0 f) <-> holds_opt F o (astate (p 0%nat)) = true).
  Proof.
    intros w p name o Ha Hp Ho Hm. destruct o as [g|]; cbn [init_part map snd]; [|split; [reflexivity|intros _ f []]].
    assert (Q : sat (exps_of R) (fun n => snd (w n)) 0 (LNext (LProp name)) <-> holds F g (astate (p 0%nat)) = true).
    { cbn [sat]. rewrite (Hm g) by auto. rewrite (store_state _ (p 0%nat)); auto; [tauto|].
      assert (M := al_mid w p Ha 0 0 len_pos). apply (md_state _ _ _ _ _ M). }
    split; [intros H; apply Q; apply H; left; auto|]. intros H f [<-|[]]. apply Q. auto.
  Qed.
  Lemma flag_var : forall s x, String.get 0 x <> Some "e"%char -> String.get 0 x <> Some "s"%char ->
    true_at (peval s (meaning (exps_of R) x)) = true <-> s x <> 0%Z.
  Proof.
    intros s x H1 H2. rewrite defs_free by auto. cbn [peval]. unfold true_at. rewrite negb_true_iff. apply Z.eqb_neq.
  Qed.
  Lemma part_in : forall (P : ltl -> Prop) name o t (l : list (string * ltl)) (rest : list (string * ltl)),
    (forall f, In f (map snd (init_part name o ++ t :: l ++ rest)) -> P f) <->
    (forall f, In f (map snd (init_part name o)) -> P f) /\ P (snd t) /\ (forall f, In f (map snd l) -> P f) /\ (forall f, In f (map snd rest) -> P f).
  Proof.
    intros P name o t l rest. rewrite map_app. cbn [map]. rewrite map_app. split.
    - intros H. repeat split; intros; apply H; rewrite in_app_iff; cbn [In]; rewrite in_app_iff; auto.
    - intros (H1 & H2 & H3 & H4) f H. rewrite in_app_iff in H. cbn [In] in H. rewrite in_app_iff in H.
      destruct H as [H|[<-|[H|H]]]; auto.
  Qed.
  Lemma goals_iff : forall name (P : ltl -> Prop) (Q : form -> Prop) (l : list form),
    (forall i g, nth_error l i = Some g -> (P (LAlways (LEventually (LProp (numbered name i)))) <-> Q g)) ->
    ((forall f, In f (map snd (map (goal_part name) (seq 0 (List.length l)))) -> P f) <-> (forall g, In g l -> Q g)).
  Proof.
    intros name P Q l H. rewrite map_map. split.
    - intros H1 g Hg. apply In_nth_error in Hg. destruct Hg as [i Hi]. apply (H i g Hi). apply H1.
      apply in_map_iff. exists i. split; auto. apply in_seq. apply nth_lt in Hi. lia.
    - intros H1 f Hin. apply in_map_iff in Hin. destruct Hin as (i & <- & Hi). apply in_seq in Hi. cbn [goal_part snd].
      destruct (nth_error l i) as [g|] eqn:Eg; [|apply nth_error_None in Eg; lia]. apply (H i g Eg). apply H1.
      apply nth_error_In in Eg. auto.
  Qed.
  Lemma along_sys : forall w p, along w p -> (forall k, In (p k) A) ->
    (sat (exps_of R) (fun n => snd (w n)) 0 (ands (map snd (sys_parts R))) <-> asked R p).
  Proof.
    intros w p Ha Hp. rewrite sat_ands by (intros E0; apply map_eq_nil in E0; apply (sys_parts_ne R E0)).
    unfold sys_parts. rewrite part_in. unfold asked.
    assert (Hw := Ht). destruct Hw as (_ & (_ & Hsi) & _ & _ & _ & Hsg & _).
    rewrite (along_init w p "sysinit" (rs_sinit R) Ha Hp Hsi).
    2: { intros g Eg. apply mean_sys. rewrite Eg. left. reflexivity. }
    rewrite (goals_iff "sysgoal" _ (fun g => infinitely_often (holds F g) (fun t => astate (p t)))).
    2: { intros i g Eg. apply along_inf; auto; [apply Hsg; apply nth_error_In in Eg; auto|].
         apply mean_sys. apply in_or_app. right. right. apply (goal_defs_in _ sexp "sysgoal" _ 0 i g Eg). }
    assert (Q : sat (exps_of R) (fun n => snd (w n)) 0 (snd (trans_part "checkstrans" "systrans")) <->
      forall t, g_str G (astate (p t)) (astate (p (S t))) = true).
    { cbn [trans_part snd sat]. rewrite (mean_sys R "systrans" (trans_exp (rs_strans R))) by (apply in_or_app; right; left; reflexivity).
      split.
      - intros H t. destruct (al_cs w p Ha t) as (j & Hj & Hc). destruct (H (S (t * len + j)) (Nat.le_0_l _)) as [H1|H1].
        + exfalso. apply H1. apply flag_var; try discriminate. rewrite Hc. discriminate.
        + assert (M := al_mid w p Ha t j Hj). rewrite <- H1. symmetry. apply store_strans; auto; [apply M|].
          apply (md_cs _ _ _ _ _ M). rewrite Hc. discriminate.
      - intros H m _. destruct (Z.eq_dec (snd (w m) "checkstrans") 0) as [Z0|Z0].
        + left. intros H1. apply flag_var in H1; try discriminate. auto.
        + right. destruct m as [|m]; [exfalso; apply Z0; apply (al_zero w p Ha)|].
          destruct (time_split m) as (k & j & Hj & ->). assert (M := al_mid w p Ha k j Hj).
          rewrite (store_strans _ (p k) (p (S k))); auto; [apply M|]. apply (md_cs _ _ _ _ _ M). auto. }
    rewrite Q. split; [tauto|]. intros (H1 & H2 & H3). repeat split; auto.
    intros f [<-|[]]. cbn [snd sat]. intros m _ H. apply flag_var in H; try discriminate. apply H.
    destruct m as [|m]; [apply (al_zero w p Ha)|]. destruct (time_split m) as (k & j & Hj & ->).
    apply (md_fault _ _ _ _ _ (al_mid w p Ha k j Hj)).
  Qed.
  Lemma env_doms : forall x, In x A -> in_doms (doms E) (firstn ne (astate x)).
  Proof. intros x Hx. apply (indoms_split E S_). apply (state_doms R A Hf). auto. Qed.
  Lemma along_env : forall w p, along w p -> (forall k, In (p k) A) -> no_env R = false ->
    (sat (exps_of R) (fun n => snd (w n)) 0 (ands (map snd (env_parts R))) <-> assumed R p).
  Proof.
    intros w p Ha Hp Hne. rewrite sat_ands by (intros E0; apply map_eq_nil in E0; apply (env_parts_ne R E0)).
    unfold env_parts. rewrite <- (app_nil_r (map (goal_part "envgoal") _)). rewrite part_in. unfold assumed.
    assert (Hw := Ht). destruct Hw as (_ & (Hei & _) & _ & _ & Heg & _).
    rewrite (along_init w p "envinit" (rs_einit R) Ha Hp Hei).
    2: { intros g Eg. apply mean_env; auto. rewrite Eg. left. reflexivity. }
    rewrite (goals_iff "envgoal" _ (fun g => infinitely_often (holds F g) (fun t => astate (p t)))).
    2: { intros i g Eg. apply along_inf; auto; [apply Heg; apply nth_error_In in Eg; auto|].
         apply mean_env; auto. apply in_or_app. right. right. apply (goal_defs_in _ sexp "envgoal" _ 0 i g Eg). }
    assert (Q : sat (exps_of R) (fun n => snd (w n)) 0 (snd (trans_part "checketrans" "envtrans")) <->
      forall t, g_etr G (astate (p t)) (g_env G (astate (p (S t)))) = true).
    { cbn [trans_part snd sat]. rewrite (mean_env R "envtrans" (trans_exp (rs_etrans R))) by (auto; apply in_or_app; right; left; reflexivity).
      split.
      - intros H t. destruct (al_ce w p Ha Hne t) as (j & Hj & Hc). destruct (H (S (t * len + j)) (Nat.le_0_l _)) as [H1|H1].
        + exfalso. apply H1. apply flag_var; try discriminate. rewrite Hc. discriminate.
        + assert (M := al_mid w p Ha t j Hj). rewrite <- H1. symmetry. apply store_etrans; auto; [apply M| |apply env_doms; auto].
          apply (md_ce _ _ _ _ _ M). rewrite Hc. discriminate.
      - intros H m _. destruct (Z.eq_dec (snd (w m) "checketrans") 0) as [Z0|Z0].
        + left. intros H1. apply flag_var in H1; try discriminate. auto.
        + right. destruct m as [|m]; [exfalso; apply Z0; apply (al_zero w p Ha)|].
          destruct (time_split m) as (k & j & Hj & ->). assert (M := al_mid w p Ha k j Hj).
          rewrite (store_etrans _ (p k) (firstn ne (astate (p (S k))))); auto; [apply H|apply M| |apply env_doms; auto].
          apply (md_ce _ _ _ _ _ M). auto. }
    rewrite Q. assert (NE : E <> []) by (intros E0; apply no_env_spec in E0; congruence).
    split; [tauto|]. intros H. destruct (H NE) as (H1 & H2 & H3). repeat split; auto. intros f [].
  Qed.

  (** ** One lap *)
  Local Notation sysc := (sys_code R A).
  Lemma lap : forall w n i x s m y, det prg w -> w n = (pg_loop prg, s) -> at_node R A i x s -> nth_error A m = Some y ->
    (no_env R = false -> w (S n) = (sets (sets_of nx E (firstn ne (astate y))) ++ flash "checketrans" ++ sysc, s)) ->
    (forall s1, w (n + L1 R)%nat = (sysc, s1) -> w (S (n + L1 R)) = (sets (edge_body R m y) ++ flash "checkstrans" ++ [copies R], s1)) ->
    (forall j, (j < len)%nat -> mid R x (firstn ne (astate y)) (astate y) (snd (w (n + j)%nat))) /\
    (no_env R = false -> exists j, (j < len)%nat /\ snd (w (n + j)%nat) "checketrans" = 1%Z) /\
    (exists j, (j < len)%nat /\ snd (w (n + j)%nat) "checkstrans" = 1%Z) /\
    (exists s2, w (n + len)%nat = (pg_loop prg, s2) /\ at_node R A m y s2) /\
    (exists s1, w (n + L1 R)%nat = (sysc, s1) /\ at_node R A i x s1 /\ map s1 (map nx (names E)) = firstn ne (astate y)) /\
    (forall j, (0 < j < len)%nat -> j <> L1 R -> pstep prg (w (n + j)%nat) (w (S (n + j)))).
  Proof.
    intros w n i x s m y Hd Hw Hx Hy He Hs. assert (HyA : In y A) by (apply nth_error_In in Hy; auto).
    assert (De := env_doms y HyA).
    assert (X : (forall j, (j < L1 R)%nat -> mid R x (firstn ne (astate y)) (astate y) (snd (w (n + j)%nat))) /\
      (no_env R = false -> exists j, (j < L1 R)%nat /\ snd (w (n + j)%nat) "checketrans" = 1%Z) /\
      (exists s1, w (n + L1 R)%nat = (sysc, s1) /\ at_node R A i x s1 /\ map s1 (map nx (names E)) = firstn ne (astate y)) /\
      (forall j, (0 < j < L1 R)%nat -> pstep prg (w (n + j)%nat) (w (S (n + j))))).
    { destruct (no_env R) eqn:En.
      - unfold L1. rewrite En. repeat split; try (intros; lia); try discriminate. exists s. rewrite Nat.add_0_r, Hw, loop_eq, En.
        split; auto. split; auto. apply no_env_spec in En. rewrite En. reflexivity.
      - destruct (env_segment R A Ht Hn w n i x s (firstn ne (astate y)) Hd En Hw Hx) as (B1 & B2 & B3 & B4).
        + apply counts_In, dvecs_In. exact De.
        + apply He. auto.
        + split; [intros; apply B1; auto|]. split; [intros _; exact B2|]. auto. }
    destruct X as (X1 & X2 & (s1 & X3 & X4 & X5) & X6).
    destruct (sys_segment R A Ht Hn Hf w (n + L1 R) i x s1 m y Hd X3 X4 Hy X5 (Hs s1 X3)) as (Y1 & Y2 & (s2 & Y3 & Y4) & Y5).
    unfold L. split; [|split; [|split; [|split; [|split]]]].
    - intros j Hj. destruct (le_lt_dec (L1 R) j) as [Hl|Hl]; [|apply X1; auto].
      replace (n + j)%nat with (n + L1 R + (j - L1 R))%nat by lia. apply Y1. lia.
    - intros H. destruct (X2 H) as (j & Hj & Hc). exists j. split; auto. lia.
    - destruct Y2 as (j & Hj & Hc). exists (L1 R + j)%nat. split; [lia|]. rewrite Nat.add_assoc. exact Hc.
    - exists s2. rewrite Nat.add_assoc. auto.
    - exists s1. auto.
    - intros j Hj Hne. destruct (le_lt_dec (L1 R) j) as [Hl|Hl]; [|apply X6; lia].
      replace (n + j)%nat with (n + L1 R + (j - L1 R))%nat by lia. apply Y5. lia.
  Qed.

  (** ** The start *)
  Lemma start_at : forall i x, nth_error A i = Some x ->
    at_node R A i x (put_all (("current_node", CInt (Z.of_nat i)) :: sets_of (fun y => y) V (astate x)) (fun _ => 0%Z)).
  Proof.
    intros i x Hi. assert (Hx : In x A) by (apply nth_error_In in Hi; auto). assert (D := state_doms R A Hf x Hx).
    assert (Len : List.length (astate x) = List.length V) by (apply in_doms_len in D; rewrite D; apply doms_len).
    assert (Fst : map fst (sets_of (fun y => y) V (astate x)) = names V) by (rewrite sets_fst by auto; apply map_id).
    destruct (res_in R) as (R1 & R2 & R3 & R4).
    assert (O2 : forall r, In r (reserved R) -> ~ In r (names V)).
    { intros r Hr Hin. apply (name_free R Hn r r); auto. }
    assert (Z0 : forall r, In r (reserved R) -> r <> "current_node" ->
      put_all (("current_node", CInt (Z.of_nat i)) :: sets_of (fun y => y) V (astate x)) (fun _ => 0%Z) r = 0%Z).
    { intros r Hr Hc. rewrite put_all_out; auto. cbn [map fst]. rewrite Fst. intros [H|H]; [congruence|]. apply (O2 r); auto. }
    constructor; auto; try (apply Z0; auto; discriminate).
    - change (put_all (("current_node", CInt (Z.of_nat i)) :: sets_of (fun y => y) V (astate x)) (fun _ => 0%Z)) with
        (put_all (sets_of (fun y => y) V (astate x)) (put "current_node" (Z.of_nat i) (fun _ => 0%Z))).
      rewrite <- (map_id (names V)) at 1. apply sets_values; auto; [apply dom_ok; auto|]. rewrite map_id. apply name_V. auto.
    - apply (put_all_in _ _ _ (CInt (Z.of_nat i))); [|left; reflexivity]. cbn [map fst]. rewrite Fst. constructor; [auto|apply name_V; auto].
  Qed.
  Lemma start_code : pg_start prg = [DStepIf (map (fun b => ("current_node", CInt (fst b)) :: snd b) (start_nodes V A 0))].
  Proof. reflexivity. Qed.

  (** ** The model passes *)
  Section Sound.
    Hypothesis Hpaths : forall p, from_start A p -> assumed R p -> asked R p.
    Hypothesis Hans : forall x, In x A -> answered R A x.
    Variable w : nat -> config.
    Hypothesis Hrun : is_run prg w.
    Hypothesis Henv : no_env R = false -> sat (exps_of R) (fun n => snd (w n)) 0 (ands (map snd (env_parts R))).

    Lemma env_rule : no_env R = false -> forall m, snd (w m) "checketrans" <> 0%Z ->
      true_at (peval (snd (w m)) (trans_exp (rs_etrans R))) = true.
    Proof.
      intros En m Hm. specialize (Henv En). rewrite sat_ands in Henv by (intros E0; apply map_eq_nil in E0; apply (env_parts_ne R E0)).
      specialize (Henv (snd (trans_part "checketrans" "envtrans"))). assert (X := Henv ltac:(unfold env_parts; rewrite map_app; apply in_or_app; right; left; reflexivity)).
      cbn [trans_part snd sat] in X. rewrite (mean_env R "envtrans" (trans_exp (rs_etrans R))) in X by (auto; apply in_or_app; right; left; reflexivity).
      destruct (X m (Nat.le_0_l _)) as [X1|X1]; auto. exfalso. apply X1. apply flag_var; try discriminate. auto.
    Qed.
    Lemma run_lap : forall n i x s, w n = (pg_loop prg, s) -> at_node R A i x s ->
      exists m y s2, nth_error A m = Some y /\ In (aid y) (atrans x) /\ w (n + len)%nat = (pg_loop prg, s2) /\ at_node R A m y s2 /\
        (forall j, (j < len)%nat -> mid R x (firstn ne (astate y)) (astate y) (snd (w (n + j)%nat))) /\
        (no_env R = false -> exists j, (j < len)%nat /\ snd (w (n + j)%nat) "checketrans" = 1%Z) /\
        (exists j, (j < len)%nat /\ snd (w (n + j)%nat) "checkstrans" = 1%Z).
    Proof.
      intros n i x s Hw Hx. assert (HxA : In x A) by (assert (H := an_nth _ _ _ _ _ Hx); apply nth_error_In in H; auto).
      assert (Hd := run_det prg w Hrun). assert (ER := env_rule).
      assert (X : exists e, in_doms (doms E) e /\ (no_env R = false -> w (S n) = (sets (sets_of nx E e) ++ flash "checketrans" ++ sysc, s)) /\
        (E <> [] -> g_etr G (astate x) e = true) /\
        exists s1, w (n + L1 R)%nat = (sysc, s1) /\ at_node R A i x s1 /\ map s1 (map nx (names E)) = e).
      { destruct (no_env R) eqn:En.
        - exists []. assert (E0 := En). apply no_env_spec in E0. rewrite E0. split; [constructor|]. split; [discriminate|]. split; [congruence|].
          exists s. unfold L1. rewrite En, Nat.add_0_r, Hw, loop_eq, En. auto.
        - destruct Hrun as [_ Hst]. destruct (Hst n) as (c & r & b & E1 & E2 & E3). rewrite Hw in *. cbn [fst snd] in *.
          rewrite loop_eq, En in E1. unfold env_code in E1. cbn [app] in E1. injection E1 as Ec Er. rewrite <- Ec in E2.
          inversion E2 as [|? ? ? g0 b0 Hin Hp| | |]; subst.
          apply in_map_iff in Hin. destruct Hin as (mv & Em & Hmv). injection Em as <- <-.
          unfold moves in Hmv. apply in_map_iff in Hmv. destruct Hmv as (e & <- & He).
          change (Assign "checketrans" (CBool true) :: Assign "checketrans" (CBool false) :: sys_code R A) with (flash "checketrans" ++ sysc) in E3.
          rewrite or_loop_app in E3 by discriminate.
          assert (W1 : w (S n) = (sets (sets_of nx E e) ++ flash "checketrans" ++ sysc, snd (w (S n)))).
          { rewrite (surjective_pairing (w (S n))) at 1. rewrite E3. reflexivity. }
          assert (He' : in_doms (doms E) e) by (apply dvecs_In, counts_In; auto).
          destruct (env_segment R A Ht Hn w n i x (snd (w (S n))) e Hd En Hw Hx He W1) as (B1 & (j & Bj & B2) & B3 & B4).
          exists e. split; auto. split; auto. split; [|exact B3]. intros _.
          assert (M := B1 j [] Bj). rewrite <- (store_etrans (snd (w (n + j)%nat)) x e); auto; [|apply M|].
          + apply ER; auto. rewrite B2. discriminate.
          + apply (md_ce _ _ _ _ _ M). rewrite B2. discriminate. }
      destruct X as (e & De & We & Le & s1 & Ws & As & Ns).
      assert (Y : exists m y, nth_error A m = Some y /\ In (aid y) (atrans x) /\ firstn ne (astate y) = e /\
        w (S (n + L1 R)) = (sets (edge_body R m y) ++ flash "checkstrans" ++ [copies R], s1)).
      { destruct (Hans x HxA e) as (y0 & Hy0 & Ht0 & Ee0); [apply dvecs_In; exact De|exact Le|].
        apply In_nth_error in Hy0. destruct Hy0 as [m0 Hm0].
        assert (Hm0A : In y0 A) by (apply nth_error_In in Hm0; auto).
        assert (Gp : forall y, In y A -> (forallb (passes s1) (guard_of E (astate y)) = true <-> e = firstn ne (astate y))).
        { intros y Hy. rewrite <- Ns. apply guard_passes; [apply dom_okE; auto|rewrite Ns; exact De|apply env_doms; auto]. }
        destruct Hrun as [_ Hst]. destruct (Hst (n + L1 R)%nat) as (c & r & b & E1 & E2 & E3). rewrite Ws in *. cbn [fst snd] in *.
        unfold sys_code in E1. injection E1 as Ec Er. rewrite <- Ec in E2. inversion E2 as [|? ? ? g0 b0 Hin Hp|? ? ? Hno| |]; subst.
        - apply (alts_in R A Hf) in Hin. destruct Hin as (i' & x' & m & y & N1 & N2 & N3 & Ea). injection Ea as -> ->.
          cbn [forallb passes] in Hp. apply andb_true_iff in Hp. destruct Hp as [P1 P2]. apply Z.eqb_eq in P1.
          rewrite (an_cur _ _ _ _ _ As) in P1. assert (i' = i) by lia. subst i'.
          rewrite (an_nth _ _ _ _ _ As) in N1. injection N1 as <-. apply (Gp y) in P2; [|apply nth_error_In in N2; auto].
          exists m, y. repeat split; auto. rewrite (surjective_pairing (w (S (n + L1 R)))), E3.
          change (flash "checkstrans" ++ [copies R]) with (flash "checkstrans" ++ [copies R]). rewrite or_loop_app by discriminate. reflexivity.
        - exfalso. assert (B : In (alt_of R i m0 y0) (alts R A)).
          { apply (alts_in R A Hf). exists i, x, m0, y0. repeat split; auto. apply As. }
          specialize (Hno _ _ B). cbn [forallb passes] in Hno. rewrite (an_cur _ _ _ _ _ As), Z.eqb_refl in Hno.
          cbn [andb] in Hno. rewrite (proj2 (Gp y0 Hm0A)) in Hno; [discriminate|]. auto. }
      destruct Y as (m & y & Hm & Hty & Hey & Wy). rewrite <- Hey in We.
      destruct (lap w n i x s m y Hd Hw Hx Hm We) as (Z1 & Z2 & Z3 & (s2 & Z4 & Z5) & _).
      { intros s1' Hs1. rewrite Ws in Hs1. injection Hs1 as <-. exact Wy. }
      exists m, y, s2. do 6 (split; [assumption|]). assumption.
    Qed.
    Definition dflt : anode := Automaton.Node 0 false [] 0 0 [].
    Definition node_at (k : nat) : anode := nth (Z.to_nat (snd (w (S (k * len))) "current_node")) A dflt.
    Lemma node_at_ok : forall k i x s, w (S (k * len)) = (pg_loop prg, s) -> at_node R A i x s -> node_at k = x.
    Proof.
      intros k i x s Hw Hx. unfold node_at. rewrite Hw. cbn [snd]. rewrite (an_cur _ _ _ _ _ Hx), Nat2Z.id.
      apply nth_error_nth. apply Hx.
    Qed.
    Lemma run_start : exists i x s, w 1%nat = (pg_loop prg, s) /\ at_node R A i x s /\ ainit x = true.
    Proof.
      destruct Hrun as [H0 Hst]. destruct (Hst 0%nat) as (c & r & b & E1 & E2 & E3). rewrite H0 in *. cbn [fst snd] in *.
      rewrite start_code in E1. injection E1 as Ec Er. rewrite <- Ec in E2. inversion E2 as [| | |? ? a Hin|]; subst.
      apply in_map_iff in Hin. destruct Hin as (z & <- & Hz). apply start_in in Hz. destruct Hz as (i & x & N1 & N2 & ->).
      exists i, x. eexists. split; [rewrite (surjective_pairing (w 1%nat)), E3; reflexivity|]. split; auto.
      match goal with H : put_all _ _ = snd (w 1%nat) |- _ => rewrite <- H end. cbn [fst snd]. apply start_at. auto.
    Qed.
    Lemma run_heads : forall k, exists i s, w (S (k * len)) = (pg_loop prg, s) /\ at_node R A i (node_at k) s.
    Proof.
      induction k as [|k (i & s & Hw & Hx)].
      - destruct run_start as (i & x & s & Hw & Hx & _). exists i, s. change (S (0 * len)) with 1%nat. split; auto.
        rewrite (node_at_ok 0 i x s); auto.
      - destruct (run_lap _ _ _ _ Hw Hx) as (m & y & s2 & H1 & H2 & H3 & H4 & _).
        replace (S (k * len) + len)%nat with (S (S k * len)) in H3 by (cbn; lia).
        exists m, s2. split; auto. rewrite (node_at_ok (S k) m y s2); auto.
    Qed.
    Lemma run_along : along w node_at /\ from_start A node_at.
    Proof.
      assert (Lp : forall k, In (aid (node_at (S k))) (atrans (node_at k)) /\
        (forall j, (j < len)%nat -> mid R (node_at k) (firstn ne (astate (node_at (S k)))) (astate (node_at (S k))) (snd (w (S (k * len + j))))) /\
        (no_env R = false -> exists j, (j < len)%nat /\ snd (w (S (k * len + j))) "checketrans" = 1%Z) /\
        (exists j, (j < len)%nat /\ snd (w (S (k * len + j))) "checkstrans" = 1%Z)).
      { intros k. destruct (run_heads k) as (i & s & Hw & Hx). destruct (run_lap _ _ _ _ Hw Hx) as (m & y & s2 & H1 & H2 & H3 & H4 & H5 & H6 & H7).
        replace (S (k * len) + len)%nat with (S (S k * len)) in H3 by (cbn; lia).
        rewrite (node_at_ok (S k) m y s2); auto. }
      assert (HA : forall k, In (node_at k) A).
      { intros k. destruct (run_heads k) as (i & s & Hw & Hx). assert (H := an_nth _ _ _ _ _ Hx). apply nth_error_In in H. auto. }
      split.
      - constructor.
        + intros y. rewrite (proj1 Hrun). reflexivity.
        + intros k. apply Lp.
        + intros En k. apply (Lp k); auto.
        + intros k. apply (Lp k).
      - split; [intros t; split; [apply HA|apply Lp]|]. destruct run_start as (i & x & s & Hw & Hx & Hi).
        rewrite (node_at_ok 0 i x s); auto.
    Qed.
    Lemma run_asked : sat (exps_of R) (fun n => snd (w n)) 0 (ands (map snd (sys_parts R))).
    Proof.
      destruct run_along as [Ha Hs]. assert (HA : forall k, In (node_at k) A) by (intros k; apply Hs).
      apply (along_sys w node_at Ha HA). apply Hpaths; auto. destruct (no_env R) eqn:En.
      - intros H. apply no_env_spec in En. congruence.
      - apply (along_env w node_at Ha HA En). auto.
    Qed.
  End Sound.
  Lemma model_passes : (forall p, from_start A p -> assumed R p -> asked R p) -> (forall x, In x A -> answered R A x) ->
    obeys prg (exps_of R) (formula_of R).
  Proof.
    intros Hp Ha w Hw. unfold formula_of. destruct (no_env R) eqn:En.
    - apply run_asked; auto. congruence.
    - cbn [sat]. intros He. apply run_asked; auto.
  Qed.

  (** ** The model is adequate *)
  Section Adequate.
    Variable p : nat -> anode.
    Hypothesis Hp : from_start A p.
    Definition idx (x : anode) : nat := Z.to_nat (anode_index A (aid x)).
    Lemma idx_ok : forall x, In x A -> nth_error A (idx x) = Some x.
    Proof.
      intros x Hx. apply In_nth_error in Hx. destruct Hx as [k Hk]. unfold idx.
      rewrite (proj1 (anode_index_spec A (aid x) (fm_ids R A Hf)) k x Hk), Nat2Z.id. auto.
    Qed.
    Definition stepc (y : anode) (c : config) : config :=
      match c with
      | (Assign x v :: r, s) => (or_loop prg r, put x (cval v) s)
      | (Copies l :: r, s) => (or_loop prg r, copy_all l s)
      | (If _ None :: r, s) => (or_loop prg (sets (sets_of nx E (firstn ne (astate y))) ++ r), s)
      | (If _ (Some _) :: r, s) => (or_loop prg (sets (edge_body R (idx y) y) ++ r), s)
      | _ => c
      end.
    Definition first_move : assigns := ("current_node", CInt (Z.of_nat (idx (p 0%nat)))) :: sets_of (fun y => y) V (astate (p 0%nat)).
    Fixpoint after_start (m : nat) : config :=
      match m with
      | O => (pg_loop prg, put_all first_move (fun _ => 0%Z))
      | S m => stepc (p (S (m / len))) (after_start m)
      end.
    Definition path_run (n : nat) : config := match n with O => (pg_start prg, fun _ => 0%Z) | S m => after_start m end.
    Lemma path_det : det prg path_run.
    Proof.
      split.
      - intros [|n] x v r s Hw; [discriminate|]. cbn [path_run] in *. cbn [after_start]. rewrite Hw. reflexivity.
      - intros [|n] l r s Hw; [discriminate|]. cbn [path_run] in *. cbn [after_start]. rewrite Hw. reflexivity.
    Qed.
    Lemma path_next : forall k j, (j < len)%nat -> path_run (S (S (k * len + j))) = stepc (p (S k)) (path_run (S (k * len + j))).
    Proof.
      intros k j Hj. cbn [path_run after_start]. do 3 f_equal. assert (P := len_pos).
      rewrite Nat.add_comm, Nat.div_add by lia. rewrite Nat.div_small by auto. reflexivity.
    Qed.
    Lemma path_lap : forall k s, path_run (S (k * len)) = (pg_loop prg, s) -> at_node R A (idx (p k)) (p k) s ->
      (forall j, (j < len)%nat -> mid R (p k) (firstn ne (astate (p (S k)))) (astate (p (S k))) (snd (path_run (S (k * len) + j)))) /\
      (no_env R = false -> exists j, (j < len)%nat /\ snd (path_run (S (k * len) + j)) "checketrans" = 1%Z) /\
      (exists j, (j < len)%nat /\ snd (path_run (S (k * len) + j)) "checkstrans" = 1%Z) /\
      (exists s2, path_run (S (k * len) + len) = (pg_loop prg, s2) /\ at_node R A (idx (p (S k))) (p (S k)) s2) /\
      (forall j, (j < len)%nat -> pstep prg (path_run (S (k * len) + j)) (path_run (S (S (k * len) + j)))).
    Proof.
      intros k s Hw Hx. assert (PA : forall k, In (p k) A) by (intros; apply Hp). assert (P := len_pos).
      assert (N1 := path_next k 0 P). rewrite Nat.add_0_r in N1.
      assert (Hl1 : (L1 R < len)%nat) by (unfold L, L2; lia).
      assert (N2 := path_next k (L1 R) Hl1).
      assert (We : no_env R = false -> path_run (S (S (k * len))) =
         (sets (sets_of nx E (firstn ne (astate (p (S k))))) ++ flash "checketrans" ++ sysc, s)).
      { intros En. rewrite N1, Hw, loop_eq, En. unfold env_code. cbn [app stepc]. rewrite or_loop_app by discriminate. reflexivity. }
      assert (Ws : forall s1, path_run (S (k * len) + L1 R) = (sysc, s1) -> path_run (S (S (k * len) + L1 R)) =
         (sets (edge_body R (idx (p (S k))) (p (S k))) ++ flash "checkstrans" ++ [copies R], s1)).
      { intros s1 H1. change (S (S (k * len) + L1 R)) with (S (S (k * len + L1 R))). rewrite N2.
        change (path_run (S (k * len + L1 R))) with (path_run (S (k * len) + L1 R)). rewrite H1. unfold sys_code. cbn [stepc].
        rewrite or_loop_app by discriminate. reflexivity. }
      destruct (lap path_run (S (k * len)) (idx (p k)) (p k) s (idx (p (S k))) (p (S k)) path_det Hw Hx (idx_ok _ (PA (S k))) We Ws)
        as (Z1 & Z2 & Z3 & Z4 & (s1 & Z5 & Z6 & Z7) & Z8).
      split; auto. split; auto. split; auto. split; auto.
      assert (Ht' := Ws s1 Z5).
      assert (SysStep : pstep prg (path_run (S (k * len) + L1 R)) (path_run (S (S (k * len) + L1 R)))).
      { rewrite Ht', Z5. exists (If (alts R A) (Some [Assign "pmlfault" (CBool true)])), (flash "checkstrans" ++ [copies R]), (sets (edge_body R (idx (p (S k))) (p (S k)))).
        cbn [fst snd]. split; [reflexivity|]. split.
        - apply (ex_if _ _ _ (fst (alt_of R (idx (p k)) (idx (p (S k))) (p (S k))))).
          + apply (alts_in R A Hf). exists (idx (p k)), (p k), (idx (p (S k))), (p (S k)). repeat split; auto; try (apply idx_ok; auto). apply Hp.
          + cbn [alt_of fst forallb passes]. rewrite (an_cur _ _ _ _ _ Z6), Z.eqb_refl. cbn [andb].
            apply guard_passes; auto; [apply dom_okE; auto| |apply env_doms; auto]. rewrite Z7. apply env_doms; auto.
        - rewrite or_loop_app by discriminate. reflexivity. }
      intros j Hj. destruct (Nat.eq_dec j (L1 R)) as [->|Hne]; [exact SysStep|].
      destruct j as [|j]; [|apply Z8; auto; lia]. rewrite Nat.add_0_r.
      destruct (no_env R) eqn:En; [exfalso; apply Hne; unfold L1; rewrite En; reflexivity|].
      rewrite (We eq_refl), Hw, loop_eq, En. exists (If (map (fun b => ([], sets b)) (moves R)) None), (flash "checketrans" ++ sysc),
        (sets (sets_of nx E (firstn ne (astate (p (S k)))))).
      cbn [fst snd]. split; [reflexivity|]. split.
      - apply (ex_if _ _ _ []); auto. apply in_map_iff. eexists. split; [reflexivity|]. unfold moves. apply in_map.
        apply counts_In, dvecs_In. apply env_doms. auto.
      - rewrite or_loop_app by discriminate. reflexivity.
    Qed.
    Lemma path_heads : forall k, exists s, path_run (S (k * len)) = (pg_loop prg, s) /\ at_node R A (idx (p k)) (p k) s.
    Proof.
      induction k as [|k (s & Hw & Hx)].
      - exists (put_all first_move (fun _ => 0%Z)). split; [reflexivity|]. apply start_at. apply idx_ok. apply Hp.
      - destruct (path_lap k s Hw Hx) as (_ & _ & _ & (s2 & H3 & H4) & _). exists s2. split; auto.
        replace (S (S k * len)) with (S (k * len) + len)%nat by (cbn; lia). exact H3.
    Qed.
    Lemma path_along : is_run prg path_run /\ along path_run p.
    Proof.
      assert (PA : forall k, In (p k) A) by (intros; apply Hp).
      split.
      - split; [reflexivity|]. intros [|m].
        + exists (DStepIf (map (fun b => ("current_node", CInt (fst b)) :: snd b) (start_nodes V A 0))), [], [].
          split; [reflexivity|]. split; [|reflexivity]. cbn [path_run after_start snd].
          apply ex_dstep. apply in_map_iff. exists (Z.of_nat (idx (p 0%nat)), sets_of (fun y => y) V (astate (p 0%nat))). split; [reflexivity|].
          apply start_in. exists (idx (p 0%nat)), (p 0%nat). split; [apply idx_ok; auto|]. split; [apply Hp|reflexivity].
        + destruct (time_split m) as (k & j & Hj & ->). destruct (path_heads k) as (s & Hw & Hx).
          destruct (path_lap k s Hw Hx) as (_ & _ & _ & _ & H5). exact (H5 j Hj).
      - constructor.
        + reflexivity.
        + intros k j Hj. destruct (path_heads k) as (s & Hw & Hx). destruct (path_lap k s Hw Hx) as (H1 & _). exact (H1 j Hj).
        + intros En k. destruct (path_heads k) as (s & Hw & Hx). destruct (path_lap k s Hw Hx) as (_ & H2 & _). exact (H2 En).
        + intros k. destruct (path_heads k) as (s & Hw & Hx). destruct (path_lap k s Hw Hx) as (_ & _ & H3 & _). exact H3.
    Qed.
    Lemma path_asked : obeys prg (exps_of R) (formula_of R) -> assumed R p -> asked R p.
    Proof.
      intros Ho Has. destruct path_along as [Hr Ha]. assert (PA : forall k, In (p k) A) by (intros; apply Hp).
      apply (along_sys path_run p Ha PA). specialize (Ho path_run Hr). unfold formula_of in Ho.
      destruct (no_env R) eqn:En; [exact Ho|]. cbn [sat] in Ho. apply Ho. apply (along_env path_run p Ha PA En). auto.
    Qed.
  End Adequate.
End Path.
