(** Lemmas: the text written by spin_aut_dump. *)
From Coq Require Import List ZArith Bool Arith Ascii String Lia.
From Verif Require Import Base Game Strs Ptree Form Solve FSpec RSpec FormPrint Automaton AutProofs AutProofs2 AutIO AutWrite
  SolveProofs EncProofs JsonWrite LexProofs Spin PromelaSpec SpinSpec SpinForm.
Import ListNotations.
Open Scope string_scope.
Open Scope list_scope.
Open Scope Z_scope.

Ltac strs := repeat (cbn [append]; rewrite ?string_app_assoc, ?string_app_nil).

(** ** Loops *)
Lemma cat_cats : forall l, cat l = cats l.
Proof. reflexivity. Qed.
Lemma print_each : forall A (l : list A) (g : A -> string) (f : nat -> out string) n,
  n = List.length l -> (forall i x, nth_error l i = Some x -> f i = Ok (g x)) ->
  for_print n f = Ok (cats (map g l)).
Proof.
  intros A l g f n -> Hf. unfold for_print.
  assert (L : forall k, (forall i x, nth_error l i = Some x -> f (k + i)%nat = Ok (g x)) ->
    map_out f (seq k (List.length l)) = Ok (map g l)).
  { clear Hf. induction l as [|x l IH]; intros k Hk; cbn [List.length seq map_out map]; auto.
    assert (H0 := Hk 0%nat x eq_refl). rewrite Nat.add_0_r in H0. rewrite H0. cbn [bind]. rewrite (IH (S k)); auto.
    intros i y Hy. specialize (Hk (S i) y Hy). rewrite Nat.add_succ_r in Hk. exact Hk. }
  rewrite (L 0%nat); auto.
Qed.
Lemma print_sep : forall A (l : list A) (g : A -> string) (f : nat -> out string) sep (more : nat -> bool) n,
  n = List.length l -> (forall i, more i = (S i <? n)%nat) ->
  (forall i x, nth_error l i = Some x -> f i = Ok (g x ++ (if more i then sep else ""))%string) ->
  for_print n f = Ok (concat sep (map g l)).
Proof.
  intros A l g f sep more n Hn Hm Hf. unfold for_print.
  assert (L : forall l k, n = (k + List.length l)%nat ->
    (forall i x, nth_error l i = Some x -> f (k + i)%nat = Ok (g x ++ (if (S (k + i) <? n)%nat then sep else ""))%string) ->
    exists ss, map_out f (seq k (List.length l)) = Ok ss /\ cat ss = concat sep (map g l)).
  { clear l Hn Hf. induction l as [|x l IH]; intros k Hn Hk.
    - exists []. split; reflexivity.
    - cbn [List.length seq map_out]. assert (H0 := Hk 0%nat x eq_refl). rewrite Nat.add_0_r in H0. rewrite H0. cbn [bind].
      destruct (IH (S k)) as (ss & E1 & E2); [cbn in Hn; lia| |].
      { intros i y Hy. specialize (Hk (S i) y Hy). rewrite Nat.add_succ_r in Hk. exact Hk. }
      rewrite E1. cbn [bind]. eexists. split; [reflexivity|]. cbn [cat fold_right]. fold (cat ss). rewrite E2.
      destruct l as [|y l].
      + cbn [map concat]. rewrite (proj2 (Nat.ltb_ge _ _)) by (cbn in Hn; lia). rewrite !string_app_nil. reflexivity.
      + cbn [map concat]. rewrite (proj2 (Nat.ltb_lt _ _)) by (cbn in Hn; lia). rewrite string_app_assoc. reflexivity. }
  destruct (L l 0%nat) as (ss & E1 & E2); auto.
  { intros i x Hx. rewrite <- Hm. apply Hf. auto. }
  rewrite Hn, E1. cbn [bind]. rewrite E2. reflexivity.
Qed.
Lemma lines_cats : forall l, lines l = cats (map (fun s => nl ++ s)%string l).
Proof.
  induction l as [|s l IH]; auto. unfold lines, cats in *. cbn [map fold_right]. rewrite IH, string_app_assoc. reflexivity.
Qed.
Lemma cats_app : forall a b, cats (a ++ b) = (cats a ++ cats b)%string.
Proof.
  induction a as [|s a IH]; intros b; auto. unfold cats in *. cbn [app fold_right]. rewrite IH, string_app_assoc. reflexivity.
Qed.
Lemma lines_app : forall a b, lines (a ++ b) = (lines a ++ lines b)%string.
Proof. intros. rewrite !lines_cats, map_app, cats_app. reflexivity. Qed.

(** ** The parts of the file *)
Definition kst (d : vdecl) (z : Z) : const := if snd d =? -1 then CBool (negb (z =? 0)) else CInt z.
Definition sets_of (f : string -> string) (vs : list vdecl) (s : vec) : assigns :=
  map (fun p => (f (fst (fst p)), kst (fst p) (snd p))) (List.combine vs s).
Definition test_of (p : vdecl * Z) : test :=
  let x := nx (fst (fst p)) in
  if snd (fst p) =? -1 then (if snd p =? 0 then IsFalse x else IsTrue x) else IsValue x (snd p).
Definition guard_of (vs : list vdecl) (e : vec) : list test := map test_of (List.combine vs e).
Fixpoint start_nodes (vs : list vdecl) (node : aut) (c : Z) : list (Z * assigns) :=
  match node with
  | [] => []
  | x :: r => (if ainit x then [(c, sets_of (fun y => y) vs (astate x))] else []) ++ start_nodes vs r (c + 1)
  end.
Definition edge_to (A : aut) (es ss : list vdecl) (c : Z) (t : nat) : list (Z * list test * Z * assigns) :=
  match deref A t with
  | Some y => [(c, guard_of es (astate y), anode_index A t, sets_of nx ss (skipn (List.length es) (astate y)))]
  | None => []
  end.
Fixpoint edges_of (A : aut) (es ss : list vdecl) (node : aut) (c : Z) : list (Z * list test * Z * assigns) :=
  match node with
  | [] => []
  | x :: r => flat_map (edge_to A es ss c) (atrans x) ++ edges_of A es ss r (c + 1)
  end.
Fixpoint counts (ds : list Z) : list vec :=
  match ds with
  | [] => [[]]
  | d :: r => flat_map (fun t => map (fun h => h :: t) (dom d)) (counts r)
  end.
Fixpoint goal_defs {X} (name : string) (h : form -> X) (l : list form) (i : nat) : list (string * X) :=
  match l with [] => [] | f :: r => (numbered name i, h f) :: goal_defs name h r (S i) end.
Definition init_defs {X} (name : string) (h : form -> X) (f : option form) : list (string * X) :=
  match f with None => [] | Some f => [(name, h f)] end.
Definition no_env (R : rspec) : bool := match rs_evars R with [] => true | _ => false end.
Definition defs_of {X} (h : form -> X) (tr : list form -> X) (R : rspec) : list (string * X) :=
  (if no_env R then []
   else init_defs "envinit" h (rs_einit R) ++ ("envtrans", tr (rs_etrans R)) :: goal_defs "envgoal" h (rs_egoals R) 0) ++
  init_defs "sysinit" h (rs_sinit R) ++ ("systrans", tr (rs_strans R)) :: goal_defs "sysgoal" h (rs_sgoals R) 0.
Definition moves_of (R : rspec) : option (list assigns) :=
  if no_env R then None else Some (map (sets_of nx (rs_evars R)) (counts (doms (rs_evars R)))).
Definition file_of (R : rspec) (A : aut) : spin_file := {|
  f_types := map (fun d => (fst d, snd d =? -1)) (rs_vars R);
  f_defs := defs_of stext trans_text R;
  f_start := start_nodes (rs_vars R) A 0;
  f_moves := moves_of R;
  f_edges := edges_of A (rs_evars R) (rs_svars R) A 0
|}.

Lemma value_text : forall d z, const_text (kst d z) = spin_value (snd d) z.
Proof. intros d z. unfold kst, spin_value. destruct (snd d =? -1), (z =? 0); reflexivity. Qed.
Lemma at_nth : forall s i z, nth_error s i = Some z -> at_state s i = Ok z.
Proof. intros s i z H. unfold at_state. rewrite H. reflexivity. Qed.
Lemma nth_lt : forall A (l : list A) i a, nth_error l i = Some a -> (i < List.length l)%nat.
Proof. intros. apply nth_error_Some. congruence. Qed.
Lemma zip_nth : forall A B (l : list A) (m : list B) i p, nth_error (List.combine l m) i = Some p ->
  nth_error l i = Some (fst p) /\ nth_error m i = Some (snd p).
Proof.
  induction l as [|a l IH]; intros [|b m] [|i] p H; try discriminate; cbn in *.
  - injection H as <-. auto.
  - apply IH. auto.
Qed.

(** ** Rules and goals *)
Lemma rules_eq : forall l, spin_rules (map tree_of l) = Ok (rules_text l).
Proof.
  induction l as [|f l IH]; auto. cbn [map spin_rules]. rewrite print_stext, IH. cbn [bind].
  destruct l; cbn [map rules_text]; cbn [append]; rewrite ?string_app_nil; reflexivity.
Qed.
Lemma trans_eq : forall l, spin_trans (map tree_of l) = Ok (trans_text l).
Proof. intros [|f l]; auto. unfold spin_trans. cbn [map]. change (tree_of f :: map tree_of l) with (map tree_of (f :: l)). apply rules_eq. Qed.
Lemma dec4_eq : forall i, dec4 (Z.of_nat i) = number4 (Z.of_nat i).
Proof.
  intros i. unfold dec4, number4. destruct (String.length (zdec (Z.of_nat i))) as [|[|[|[|n]]]] eqn:E; auto.
  pose proof (AutIOProofs.zdec_len (Z.of_nat i)). lia.
Qed.
Definition def_line (d : string * string) : string := ("#define " ++ fst d ++ " " ++ snd d)%string.
Lemma goals_eq : forall name l,
  spin_goals name (map tree_of l) = Ok (lines (map def_line (goal_defs name stext l 0))).
Proof.
  intros name l. unfold spin_goals. rewrite map_length.
  assert (E : forall k, map def_line (goal_defs name stext l k) =
    map (fun p => def_line (numbered name (fst p), stext (snd p))) (List.combine (seq k (List.length l)) l)).
  { induction l as [|f l IH]; intros k; cbn; auto. rewrite IH. reflexivity. }
  rewrite E, lines_cats, map_map. apply print_each.
  - rewrite combine_length, seq_length. lia.
  - intros i p Hp. apply zip_nth in Hp. destruct Hp as [H1 H2].
    rewrite (nth_error_nth' _ O) in H1 by (apply nth_error_Some; congruence).
    assert (Hi : (i < List.length l)%nat) by (apply nth_error_Some; congruence).
    rewrite seq_nth in H1 by auto. injection H1 as H1. cbn [Nat.add] in H1.
    assert (N : nth i (map tree_of l) NULL = tree_of (snd p)).
    { apply nth_error_nth. rewrite nth_error_map, H2. reflexivity. }
    rewrite N, print_stext. cbn [bind]. unfold def_line, numbered. cbn [fst snd]. rewrite <- H1, dec4_eq.
    cbn [append]. rewrite !string_app_assoc. reflexivity.
Qed.
Lemma init_eq : forall name f, spin_init name (opt_tree f) = Ok (lines (map def_line (init_defs name stext f))).
Proof.
  intros name [f|]; auto. cbn [opt_tree]. unfold spin_init.
  assert (N : is_NULL (tree_of f) = false) by (destruct f; reflexivity).
  rewrite N, print_stext. cbn [bind init_defs map lines fold_right]. unfold def_line. cbn [fst snd].
  rewrite string_app_nil. reflexivity.
Qed.

(** ** Variables *)
Lemma decls_eq : forall vs, spin_decls (vlist vs) = Ok (cats (map type_text (map (fun d => (fst d, snd d =? -1)) vs))).
Proof.
  intros vs. unfold spin_decls. rewrite map_map. apply print_each; [apply vlist_size|].
  intros i d Hd. destruct (item_name_vlist vs i d Hd) as [-> ->]. cbn [bind]. unfold type_text. cbn [fst snd].
  f_equal. destruct (snd d =? -1); unfold nx; cbn [append]; rewrite !string_app_assoc; reflexivity.
Qed.
Lemma apply_eq : forall vs, spin_apply (vlist vs) =
  Ok (concat "; " (map (fun d => fst d ++ " = " ++ nx (fst d))%string (map (fun d => (fst d, snd d =? -1)) vs))).
Proof.
  intros vs. unfold spin_apply. rewrite map_map.
  apply (print_sep _ _ _ _ _ (fun i => (S i <? tree_size (vlist vs))%nat)); auto; [apply vlist_size|].
  intros i d Hd. destruct (item_name_vlist vs i d Hd) as [-> _]. cbn [bind fst]. unfold nx.
  cbn [append]. rewrite !string_app_assoc. cbn [append]. rewrite ?string_app_assoc. reflexivity.
Qed.

(** ** Initial nodes *)
Lemma initial_eq : forall vs node c, (forall x, In x node -> List.length (astate x) = List.length vs) ->
  spin_initial (vlist vs) (List.length vs) node c = Ok (lines (map start_text (start_nodes vs node c))).
Proof.
  induction node as [|x node IH]; intros c H; auto. cbn [spin_initial start_nodes]. rewrite map_app, lines_app.
  rewrite IH by (intros; apply H; right; auto).
  assert (Hx := H x (or_introl eq_refl)). destruct (ainit x); [|reflexivity].
  erewrite (print_each _ (List.combine vs (astate x)) (fun p => "; " ++ fst (fst p) ++ "=" ++ spin_value (snd (fst p)) (snd p))%string).
  - cbn [bind map lines fold_right]. unfold start_text. cbn [fst snd]. unfold sets_of. rewrite !map_map.
    erewrite (map_ext (fun p : vdecl * Z => "; " ++ set_text (fst (fst p), kst (fst p) (snd p)))%string).
    2: { intros [d z]. unfold set_text. cbn [fst snd]. rewrite value_text. instantiate (1 := fun p => ("; " ++ fst (fst p) ++ "=" ++ spin_value (snd (fst p)) (snd p))%string). reflexivity. }
    f_equal. strs. reflexivity.
  - rewrite combine_length. lia.
  - intros i [d z] Hp. apply zip_nth in Hp. cbn [fst snd] in *. destruct Hp as [H1 H2].
    destruct (item_name_vlist vs i d H1) as [-> ->]. cbn [bind]. rewrite (at_nth _ _ _ H2). reflexivity.
Qed.

(** ** Environment moves *)
Fixpoint succ_env (ds : list Z) (c : vec) : option vec :=
  match ds, c with
  | d :: ds, z :: r =>
      if ((0 <? z) && (d =? -1)) || ((d <=? z) && (0 <=? d))
      then match succ_env ds r with None => None | Some r' => Some (0 :: r') end
      else Some (z + 1 :: r)
  | _, _ => None
  end.
Lemma next_env_eq : forall vs c i, (i + List.length c <= List.length vs)%nat ->
  next_env (vlist vs) i c = Ok (succ_env (firstn (List.length c) (skipn i (doms vs))) c).
Proof.
  intros vs. induction c as [|z c IH]; intros i Hi; [cbn; destruct (skipn i (doms vs)); reflexivity|].
  cbn [next_env List.length] in *.
  destruct (nth_error vs i) as [d|] eqn:E; [|apply nth_error_None in E; lia].
  destruct (item_name_vlist vs i d E) as [_ ->]. cbn [bind].
  assert (S1 : skipn i (doms vs) = snd d :: skipn (S i) (doms vs)).
  { unfold doms. clear - E. revert i E. induction vs as [|v vs IH]; intros [|i] E; try discriminate.
    - injection E as ->. reflexivity.
    - cbn [map skipn]. apply IH. exact E. }
  rewrite S1. cbn [firstn succ_env].
  destruct ((0 <? z) && (snd d =? -1) || (snd d <=? z) && (0 <=? snd d)); auto.
  rewrite IH by lia. reflexivity.
Qed.
Inductive walk (ds : list Z) : vec -> list vec -> Prop :=
| wk_end : forall c, succ_env ds c = None -> walk ds c [c]
| wk_more : forall c c' l, succ_env ds c = Some c' -> walk ds c' l -> walk ds c (c :: l).
Lemma walk_digit : forall d ds c l, -1 <= d -> walk ds c l ->
  walk (d :: ds) (0 :: c) (flat_map (fun t => map (fun h => h :: t) (dom d)) l).
Proof.
  intros d ds c l Hd W.
  assert (top : forall z t, ((0 <? z) && (d =? -1) || (d <=? z) && (0 <=? d)) = true ->
    succ_env (d :: ds) (z :: t) = match succ_env ds t with None => None | Some r' => Some (0 :: r') end).
  { intros z t E. cbn [succ_env]. rewrite E. reflexivity. }
  assert (low : forall z t, ((0 <? z) && (d =? -1) || (d <=? z) && (0 <=? d)) = false ->
    succ_env (d :: ds) (z :: t) = Some (z + 1 :: t)).
  { intros z t E. cbn [succ_env]. rewrite E. reflexivity. }
  (* the values from [z] up, then whatever follows [t] *)
  assert (up : forall t rest, (forall z, In z (dom d) -> ((0 <? z) && (d =? -1) || (d <=? z) && (0 <=? d)) = true ->
      walk (d :: ds) (z :: t) ((z :: t) :: rest)) ->
    walk (d :: ds) (0 :: t) (map (fun h => h :: t) (dom d) ++ rest)).
  { intros t rest Htop. destruct (Z.eq_dec d (-1)) as [E|E].
    - subst d. cbn [dom map app]. change (dom (-1)) with [0; 1]. cbn [map app].
      eapply wk_more; [apply low; reflexivity|]. apply Htop; [right; left; reflexivity|reflexivity].
    - assert (D : dom d = zseq 0 d) by (unfold dom; rewrite (proj2 (Z.ltb_ge d 0)) by lia; reflexivity).
      assert (G : forall n z, z = d - Z.of_nat n -> 0 <= z -> walk (d :: ds) (z :: t) (map (fun h => h :: t) (zseq z d) ++ rest)).
      { induction n as [|n IH]; intros z Hz H0.
        - replace z with d by lia. replace (zseq d d) with [d]
            by (unfold zseq; replace (Z.to_nat (d - d + 1)) with 1%nat by lia; reflexivity).
          apply Htop; [apply dom_int; lia|].
          rewrite (proj2 (Z.leb_le d d)), (proj2 (Z.leb_le 0 d)) by lia. cbn. apply orb_true_r.
        - assert (Q : zseq z d = z :: zseq (z + 1) d).
          { unfold zseq. replace (Z.to_nat (d - z + 1)) with (S (Z.to_nat (d - (z + 1) + 1))) by lia.
            reflexivity. }
          rewrite Q. cbn [map app]. eapply wk_more; [apply low|].
          + rewrite (proj2 (Z.eqb_neq d (-1))), (proj2 (Z.leb_gt d z)) by lia. rewrite andb_false_r. reflexivity.
          + apply IH; lia. }
      rewrite D. apply (G (Z.to_nat d)); lia. }
  induction W as [c E|c c' l E W IH]; cbn [flat_map].
  - apply up. intros z Hz Et. apply wk_end. rewrite top, E; auto.
  - apply up. intros z Hz Et. eapply wk_more; [rewrite top, E; auto|]. exact IH.
Qed.
Lemma walk_counts : forall ds, (forall d, In d ds -> -1 <= d) -> walk ds (repeat 0 (List.length ds)) (counts ds).
Proof.
  induction ds as [|d ds IH]; intros H; [apply wk_end; reflexivity|]. cbn [List.length repeat counts].
  apply walk_digit; [apply H; left; auto|]. apply IH. intros; apply H; right; auto.
Qed.
Lemma counts_In : forall ds e, In e (counts ds) <-> In e (dvecs ds).
Proof.
  intros ds e. rewrite dvecs_In. unfold in_doms. revert e. induction ds as [|d ds IH]; intros e; cbn [counts].
  - split; [intros [<-|[]]; constructor|]. inversion 1. left. auto.
  - rewrite in_flat_map. split.
    + intros (t & Ht & He). apply in_map_iff in He. destruct He as (h & <- & Hh). constructor; auto. apply IH; auto.
    + inversion 1 as [|? z ? t Hz Ht]; subst. exists t. split; [apply IH; auto|]. apply in_map_iff. exists z. auto.
Qed.
Lemma moves_eq : forall vs es ws c l fuel, vs = es ++ ws -> es <> [] -> walk (doms es) c l ->
  (forall e, In e l -> List.length e = List.length es) ->
  (List.length l <= fuel)%nat ->
  spin_moves fuel (vlist vs) (List.length es) c = Ok (lines (map move_text (map (sets_of nx es) l))).
Proof.
  intros vs es ws c l fuel Hv Hne W Hl Hf. revert fuel Hf.
  assert (One : forall c, List.length c = List.length es -> for_print (List.length es) (fun i =>
        name <- item_name (vlist vs) i ;;
        value <- item_value (vlist vs) i ;;
        z <- at_state c i ;;
        Ok (" " ++ name ++ "_next=" ++ spin_value value z ++
            (if (Z.of_nat i <? Z.of_nat (List.length es) - 1)%Z then ";" else ""))%string) =
      Ok (concat ";" (map (fun a => (" " ++ set_text a)%string) (sets_of nx es c)))).
  { intros e He. unfold sets_of. rewrite map_map.
    apply (print_sep _ _ _ _ _ (fun i => (Z.of_nat i <? Z.of_nat (List.length es) - 1)%Z)).
    - rewrite combine_length. lia.
    - intros i. destruct (Z.of_nat i <? Z.of_nat (List.length es) - 1)%Z eqn:E; symmetry.
      + apply Nat.ltb_lt. apply Z.ltb_lt in E. lia.
      + apply Nat.ltb_ge. apply Z.ltb_ge in E. lia.
    - intros i [d z] Hp. apply zip_nth in Hp. cbn [fst snd] in *. destruct Hp as [H1 H2].
      assert (H1' : nth_error vs i = Some d).
      { subst vs. rewrite nth_error_app1; auto. apply (nth_lt _ _ _ _ H1). }
      destruct (item_name_vlist vs i d H1') as [-> ->]. cbn [bind]. rewrite (at_nth _ _ _ H2). cbn [bind].
      unfold set_text, nx. cbn [fst snd]. rewrite value_text. f_equal. strs. reflexivity. }
  assert (Cat : forall a, a <> [] -> (":: (1) ->" ++ concat ";" (map (fun x => (" " ++ set_text x)%string) a))%string = move_text a).
  { intros a Ha. unfold move_text. change (":: (1) -> ")%string with (":: (1) ->" ++ " ")%string. rewrite string_app_assoc. f_equal.
    destruct a as [|x a]; [congruence|]. clear Ha One. revert x. induction a as [|y a IH]; intros x; [reflexivity|].
    change (concat ";" (map (fun x => (" " ++ set_text x)%string) (x :: y :: a))) with
      ((" " ++ set_text x) ++ ";" ++ concat ";" (map (fun x => (" " ++ set_text x)%string) (y :: a)))%string.
    rewrite IH. change (concat "; " (map set_text (x :: y :: a))) with (set_text x ++ "; " ++ concat "; " (map set_text (y :: a)))%string.
    strs. reflexivity. }
  assert (NE : forall c, List.length c = List.length es -> sets_of nx es c <> []).
  { intros e He. destruct es as [|d es]; [congruence|]. destruct e; discriminate. }
  assert (D : forall c, List.length c = List.length es -> next_env (vlist vs) 0 c = Ok (succ_env (doms es) c)).
  { intros e He. rewrite next_env_eq by (subst vs; rewrite app_length; lia). f_equal. f_equal. cbn [skipn]. rewrite He.
    subst vs. unfold doms. rewrite map_app, firstn_app, map_length, Nat.sub_diag.
    rewrite firstn_O, app_nil_r. rewrite <- (map_length snd es) at 1. apply firstn_all. }
  induction W as [c E|c c' l E W IH]; intros [|fuel] Hf; cbn [List.length] in Hf; try lia;
    assert (Hc : List.length c = List.length es) by (apply Hl; left; auto); cbn [spin_moves].
  - rewrite (One c Hc), (D c Hc), E. cbn [bind map lines fold_right]. rewrite <- Cat by auto. strs. reflexivity.
  - rewrite (One c Hc), (D c Hc), E. cbn [bind]. rewrite IH; [|intros; apply Hl; right; auto|lia].
    cbn [bind map]. unfold lines at 2. cbn [fold_right]. fold (lines (map move_text (map (sets_of nx es) l))).
    rewrite <- Cat by auto. strs. reflexivity.
Qed.

(** ** Transitions *)
Lemma edge_eq : forall A es ss c t, (forall x, In x A -> List.length (astate x) = (List.length es + List.length ss)%nat) ->
  In t (ids A) ->
  spin_edge A (vlist (es ++ ss)) (vlist ss) (List.length es) (List.length ss) c t =
  Ok (lines (map edge_text (edge_to A es ss c t))).
Proof.
  intros A es ss c t Hlen Ht. unfold spin_edge, edge_to. destruct (deref_Some A t Ht) as [y Hy]. rewrite Hy.
  assert (Hy' := Hlen y (proj1 (deref_In A t y Hy))).
  erewrite (print_each _ (List.combine es (astate y)) (fun p => " && " ++ test_text (test_of p))%string).
  2: rewrite combine_length; lia.
  2: { intros i [d z] Hp. apply zip_nth in Hp. cbn [fst snd] in *. destruct Hp as [H1 H2].
    assert (H1' : nth_error (es ++ ss) i = Some d).
    { rewrite nth_error_app1; auto. apply (nth_lt _ _ _ _ H1). }
    destruct (item_name_vlist _ i d H1') as [-> ->]. cbn [bind]. rewrite (at_nth _ _ _ H2). cbn [bind].
    f_equal. unfold test_of, nx. cbn [fst snd]. destruct (snd d =? -1); [destruct (z =? 0)|]; cbn [test_text]; strs; reflexivity. }
  cbn [bind].
  erewrite (print_each _ (List.combine ss (skipn (List.length es) (astate y))) (fun p => "; " ++ set_text (nx (fst (fst p)), kst (fst p) (snd p)))%string).
  2: rewrite combine_length, skipn_length; lia.
  2: { intros i [d z] Hp. apply zip_nth in Hp. cbn [fst snd] in *. destruct Hp as [H1 H2].
    destruct (item_name_vlist _ i d H1) as [-> ->]. cbn [bind].
    rewrite (at_nth _ (List.length es + i) z) by (rewrite <- H2; clear; generalize (astate y) as s; generalize (List.length es) as n;
      induction n; intros [|a s]; cbn; auto; destruct i; reflexivity).
    cbn [bind]. f_equal. unfold set_text, nx. cbn [fst snd]. rewrite value_text. strs. reflexivity. }
  cbn [bind map lines fold_right edge_text]. f_equal. unfold guard_of, sets_of. rewrite !map_map. strs. reflexivity.
Qed.
Lemma edges_eq : forall A es ss node c, (forall x, In x A -> List.length (astate x) = (List.length es + List.length ss)%nat) ->
  (forall x t, In x node -> In t (atrans x) -> In t (ids A)) ->
  spin_edges A (vlist (es ++ ss)) (vlist ss) (List.length es) (List.length ss) node c =
  Ok (lines (map edge_text (edges_of A es ss node c))).
Proof.
  intros A es ss node c Hlen. revert c. induction node as [|x node IH]; intros c Hin; auto.
  cbn [spin_edges edges_of]. rewrite (ExpProofs.map_out_ok _ _ _ (fun t => lines (map edge_text (edge_to A es ss c t)))).
  2: { intros t Ht. apply edge_eq; auto. apply (Hin x); auto. left. auto. }
  cbn [bind]. rewrite IH by (intros y t Hy; apply Hin; right; auto). cbn [bind]. rewrite map_app, lines_app. do 2 f_equal.
  induction (atrans x) as [|t l IHl]; auto. cbn [flat_map map]. rewrite map_app, lines_app. cbn [cat fold_right].
  unfold cat in IHl. rewrite IHl. reflexivity.
Qed.
