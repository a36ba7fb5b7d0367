(** Properties C29 (variable lists), C30 (form check), C35 (extreme values), C39
    (copies and variable checks). *)
From Coq Require Import List ZArith Bool String.
From Verif Require Import Base Ptree Form Solve FSpec Nonbool RSpec ListSpec FormCheck ListProofs.
Import ListNotations.
Open Scope string_scope.
Open Scope list_scope.
Open Scope Z_scope.

(** C29: [ilist l] is the list of items [l] in memory *)
Theorem C29_append : forall l t n v, append_list_item (ilist l) t n v = ilist (l ++ [new_item t n v]).
Proof. exact append_ok. Qed.
Print Assumptions C29_append.
Theorem C29_get : forall l k, (k < List.length l)%nat ->
  get_list_item (ilist l) (Z.of_nat k) = ilist (skipn k l).
Proof. exact get_ok. Qed.
Print Assumptions C29_get.
Theorem C29_get_last : forall l i, get_list_item (ilist (l ++ [i])) (-1) = ilist [i].
Proof. exact get_last. Qed.
Print Assumptions C29_get_last.
Theorem C29_get_none : forall l z, z < -1 \/ Z.of_nat (List.length l) <= z \/ l = [] ->
  get_list_item (ilist l) z = NULL.
Proof. exact get_none. Qed.
Print Assumptions C29_get_none.
(** the index of the first item with that type and name or value, or -1 *)
Theorem C29_find : forall l t n v,
  (exists k i, find_list_item (ilist l) t n v = Z.of_nat k /\ nth_error l k = Some i /\ same_item t n v i /\
     forall k' i', (k' < k)%nat -> nth_error l k' = Some i' -> ~ same_item t n v i') \/
  (find_list_item (ilist l) t n v = -1 /\ forall i, In i l -> ~ same_item t n v i).
Proof. exact find_ok. Qed.
Print Assumptions C29_find.
(** the result is (returned pointer, what the old head leads to) *)
Theorem C29_remove : forall l, l <> [] ->
  remove_list_item (ilist l) 0 = Ok (ilist (tl l), None) /\
  forall k, (0 < k < List.length l)%nat ->
    remove_list_item (ilist l) (Z.of_nat k) =
      Ok (ilist (skipn (k - 1) (remove_nth k l)), Some (ilist (remove_nth k l))).
Proof. exact remove_ok. Qed.
Print Assumptions C29_remove.
Theorem C29_remove_last : forall l, (1 < List.length l)%nat ->
  remove_list_item (ilist l) (-1) = remove_list_item (ilist l) (Z.of_nat (List.length l - 1)).
Proof. exact remove_last. Qed.
Print Assumptions C29_remove_last.
Theorem C29_remove_last_single : forall i, remove_list_item (ilist [i]) (-1) = Ok (NULL, None).
Proof. exact remove_last_single. Qed.
Print Assumptions C29_remove_last_single.
Theorem C29_remove_invalid : forall l z, z < -1 \/ Z.of_nat (List.length l) <= z ->
  remove_list_item (ilist l) z = Ok (NULL, Some (ilist l)).
Proof. exact remove_invalid. Qed.
Print Assumptions C29_remove_invalid.
(** a caller that stores the result of removing an item as the list loses the front *)
Theorem C29_remove_front_refuted : exists l k p h, (k < List.length l)%nat /\
  remove_list_item (ilist l) (Z.of_nat k) = Ok (p, h) /\ p <> ilist (remove_nth k l).
Proof.
  exists [Item PT_VARIABLE (Some "a") 0; Item PT_VARIABLE (Some "b") 0; Item PT_VARIABLE (Some "c") 0], 2%nat.
  do 2 eexists. split; [repeat constructor|]. split; [vm_compute; reflexivity|]. discriminate.
Qed.
Print Assumptions C29_remove_front_refuted.
Example C29_instance :
  let l := [Item PT_VARIABLE (Some "a") 3; Item PT_VARIABLE (Some "b") (-1); Item PT_VARIABLE (Some "c") 0] in
  find_list_item (ilist l) PT_VARIABLE (Some "b") 7 = 1 /\
  find_list_item (ilist l) PT_NEXT_VARIABLE (Some "b") 7 = -1 /\
  remove_list_item (ilist l) 1 = Ok (ilist [Item PT_VARIABLE (Some "a") 3; Item PT_VARIABLE (Some "c") 0],
    Some (ilist [Item PT_VARIABLE (Some "a") 3; Item PT_VARIABLE (Some "c") 0])).
Proof. repeat split. Qed.

(** C30 *)
Theorem C30_accepts_iff : forall flags R,
  (exists s, check_gr1c_form (raw_of R) flags = Ok (0, s)) <-> form_ok flags R.
Proof.
  intros flags R. destruct (form_check_ok flags R) as [[H E]|(H & s & E & _)]; rewrite E; split; eauto.
  - intros (s' & H'). discriminate H'.
  - tauto.
Qed.
Print Assumptions C30_accepts_iff.
Theorem C30_result : forall flags R,
  (form_ok flags R /\ check_gr1c_form (raw_of R) flags = Ok (0, vlist (rs_svars R))) \/
  (~ form_ok flags R /\ exists s, check_gr1c_form (raw_of R) flags = Ok (-1, s) /\
     (s = vlist (rs_svars R) \/ s = vlist (rs_svars R ++ rs_evars R))).
Proof. exact form_check_ok. Qed.
Print Assumptions C30_result.
(** what is accepted meets the scoping hypothesis of the theorems on solving *)
Theorem C30_scoped : forall flags R, form_ok flags R -> well_scoped (fspec_of R).
Proof. exact form_ok_scoped. Qed.
Print Assumptions C30_scoped.
(** after a failure the environment variables may be left in the list of system
    variables *)
Theorem C30_list_restored_refuted : exists flags R s,
  check_gr1c_form (raw_of R) flags = Ok (-1, s) /\ s <> vlist (rs_svars R).
Proof.
  exists ALL_INIT, {| rs_evars := [("e", -1)]; rs_svars := [("s", -1)]; rs_einit := Some (FVar "t");
    rs_sinit := None; rs_etrans := []; rs_strans := []; rs_egoals := []; rs_sgoals := [FTrue] |}.
  eexists. split; [vm_compute; reflexivity|]. discriminate.
Qed.
Print Assumptions C30_list_restored_refuted.
Definition C30_spec : rspec := {| rs_evars := [("e", 2)]; rs_svars := [("s", -1)];
  rs_einit := Some (FCmp false "e" CEq 0); rs_sinit := Some (FVar "s");
  rs_etrans := [FImp (FVar "s") (FCmp true "e" CLt 2)]; rs_strans := [FIff (FNext "s") (FCmp true "e" CEq 1)];
  rs_egoals := [FCmp false "e" CEq 1]; rs_sgoals := [FVar "s"] |}.
Example C30_instance :
  form_ok ALL_ENV_EXIST_SYS_INIT C30_spec /\ ~ form_ok ONE_SIDE_INIT C30_spec /\
  check_gr1c_form (raw_of C30_spec) ALL_ENV_EXIST_SYS_INIT = Ok (0, vlist [("s", -1)]) /\
  check_gr1c_form (raw_of C30_spec) ONE_SIDE_INIT = Ok (-1, vlist [("s", -1)]).
Proof.
  split; [|split; [|split; vm_compute; reflexivity]].
  - apply C30_accepts_iff. eexists. vm_compute. reflexivity.
  - intros H. apply C30_accepts_iff in H. destruct H as [s H]. vm_compute in H. discriminate H.
Qed.

(** C35 *)
Theorem C35_min : forall t, ~ In noval (consts t) -> best_of Z.le (consts t) (min_tree_value t).
Proof. exact min_ok. Qed.
Print Assumptions C35_min.
Theorem C35_max : forall t, ~ In noval (consts t) -> best_of Z.ge (consts t) (max_tree_value t).
Proof. exact max_ok. Qed.
Print Assumptions C35_max.
(** the same for the constants compared with variables whose name starts with
    [name] *)
Theorem C35_rmin : forall name f, ~ In noval (eq_consts name f) -> exists m,
  rmin_tree_value name (tree_of f) = Ok m /\ best_of Z.le (eq_consts name f) m.
Proof. exact rmin_ok. Qed.
Print Assumptions C35_rmin.
Theorem C35_rmax : forall name f, ~ In noval (eq_consts name f) -> exists m,
  rmax_tree_value name (tree_of f) = Ok m /\ best_of Z.ge (eq_consts name f) m.
Proof. exact rmax_ok. Qed.
Print Assumptions C35_rmax.
(** without the hypothesis on the sentinel the claim is false *)
Theorem C35_sentinel_refuted : exists t, consts t <> [] /\ ~ least Z.le (consts t) (min_tree_value t).
Proof.
  exists (pnd PT_EQUALS None 0 (pnd PT_CONSTANT None (-9999) NULL NULL) (pnd PT_CONSTANT None 5 NULL NULL)).
  split; [discriminate|]. intros [_ H]. specialize (H (-9999) (or_introl eq_refl)). vm_compute in H. auto.
Qed.
Print Assumptions C35_sentinel_refuted.
(** these are the constants of the variable [name] itself if no other variable of
    the formula has a name starting with [name] *)
Theorem C35_own : forall name f,
  (forall y, In y (fvars f) \/ In y (fnexts f) -> String.prefix name y = true -> y = name) ->
  eq_consts name f = own_consts name f.
Proof. exact own_ok. Qed.
Print Assumptions C35_own.
(** otherwise the constants of another variable may be taken *)
Theorem C35_exact_name_refuted : exists name f m, rmax_tree_value name (tree_of f) = Ok m /\
  own_consts name f <> [] /\ ~ In noval (consts (tree_of f)) /\ ~ least Z.ge (own_consts name f) m.
Proof.
  exists "x", (FAnd (FCmp false "x" CEq 2) (FCmp false "x1" CEq 7)), 7.
  split; [vm_compute; reflexivity|]. split; [discriminate|].
  split; [vm_compute; intuition discriminate|]. intros [H _]. vm_compute in H. intuition discriminate.
Qed.
Print Assumptions C35_exact_name_refuted.
Example C35_instance : let f := FAnd (FCmp false "x" CEq 4) (FOr (FCmp true "x" CEq (-2)) (FCmp false "y" CLe 9)) in
  ~ In noval (consts (tree_of f)) /\ min_tree_value (tree_of f) = -2 /\ max_tree_value (tree_of f) = 9 /\
  rmax_tree_value "x" (tree_of f) = Ok 4 /\ rmin_tree_value "x" (tree_of f) = Ok (-2).
Proof. split; [|repeat split]. vm_compute. intuition discriminate. Qed.

(** C39 *)
Theorem C39_copy : forall t, canonical t -> copy_ptree t = t.
Proof. exact copy_ok. Qed.
Print Assumptions C39_copy.
(** formulas, variable lists and all results of the constructors qualify *)
Theorem C39_canonical : (forall f, canonical (tree_of f)) /\ (forall vs, canonical (vlist vs)) /\
  forall t n v l r, canonical l -> canonical r -> canonical (set_right (set_left (init_ptree t n v) l) r).
Proof. exact (Logic.conj tree_of_canonical (Logic.conj vlist_canonical init_canonical)). Qed.
Print Assumptions C39_canonical.
Theorem C39_size : forall l, tree_size (ilist l) = List.length l.
Proof. exact ilist_size. Qed.
Print Assumptions C39_size.
Theorem C39_check_vars : forall f vs ws, exists b, check_vars (tree_of f) (vlist vs) (vlist ws) = Ok b /\
  match b with
  | None => incl (fvars f) (names vs) /\ incl (fnexts f) (names ws)
  | Some w => offends f vs ws w
  end.
Proof. exact check_ok. Qed.
Print Assumptions C39_check_vars.
Example C39_instance :
  copy_ptree (tree_of (FAnd (FCmp true "x" CLt 3) (FNot (FVar "b")))) =
    tree_of (FAnd (FCmp true "x" CLt 3) (FNot (FVar "b"))) /\
  check_vars (tree_of (FAnd (FVar "a") (FNext "b"))) (vlist [("a", -1)]) (vlist [("a", -1)]) = Ok (Some "b'") /\
  check_vars (tree_of (FAnd (FVar "a") (FNext "b"))) (vlist [("a", -1)]) (vlist [("b", -1)]) = Ok None.
Proof. repeat split. Qed.
