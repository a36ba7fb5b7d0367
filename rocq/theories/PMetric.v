(** Property C34: distances between sets of states (src/solve_metric.c).

    Reading guide. [fs] is the list of (offset, width) pairs that select integer
    fields of a state; [dist fs s r] the 1-norm distance; [in_set n T s]: the state
    [s] of [n] Boolean variables belongs to the set given by the BDD [T] (a BDD that
    is [unprimed] depends on the current state only). [oracle_ok]: the cubes the
    generator yields partition the function, in any order (Support.v). *)
From Coq Require Import List ZArith Bool Arith String Ascii.
From Verif Require Import Base Game Bdd Support EnumProofs BGame OpsProofs Strs Ptree Form Solve FSpec
  Levels Nonbool RSpec Metric MetricSpec MetricProofs MetricLevels MetricNames.
Import ListNotations.
Open Scope string_scope.
Open Scope list_scope.
Open Scope Z_scope.

Theorem C34_bounds_state : forall n orc T fs r, oracle_ok (2 * n) orc -> wf (2 * n) T -> unprimed n T ->
  fields_in n fs -> bitvec n r -> (exists s, in_set n T s) ->
  forall t fuel, (2 ^ n <= fuel)%nat ->
  exists mn mx, bounds_state n fuel orc t T r fs = Ok (mn, mx) /\
    least (in_set n T) (fun s => dist fs s r) mn /\ greatest (in_set n T) (fun s => dist fs s r) mx.
Proof. intros n orc T fs r H. exact (bounds_state_ok n orc H T fs r). Qed.
Print Assumptions C34_bounds_state.
Theorem C34_bounds_state_empty : forall n orc T fs r, oracle_ok (2 * n) orc -> wf (2 * n) T -> unprimed n T ->
  fields_in n fs -> bitvec n r -> (forall s, ~ in_set n T s) ->
  forall t fuel, (2 ^ n <= fuel)%nat -> bounds_state n fuel orc t T r fs = Ok (-1, -1).
Proof. intros n orc T fs r H. exact (bounds_state_empty n orc H T fs r). Qed.
Print Assumptions C34_bounds_state_empty.

Theorem C34_bounds_DDset : forall n orc T G fs, oracle_ok (2 * n) orc ->
  wf (2 * n) T -> unprimed n T -> wf (2 * n) G -> unprimed n G -> fields_in n fs ->
  (exists s, in_set n T s) -> (exists s, in_set n G s) ->
  forall t fuel, (2 ^ n <= fuel)%nat ->
  exists mn mx t', bounds_DDset n fuel orc t T G fs = Ok ((mn, mx), t') /\
    set_bounds fs (in_set n T) (in_set n G) mn mx.
Proof. intros n orc T G fs H. exact (bounds_DDset_ok n orc H T G fs). Qed.
Print Assumptions C34_bounds_DDset.
Theorem C34_bounds_DDset_empty : forall n orc T G fs, oracle_ok (2 * n) orc ->
  wf (2 * n) T -> unprimed n T -> wf (2 * n) G -> unprimed n G -> fields_in n fs ->
  (forall s, ~ in_set n T s) \/ (forall s, ~ in_set n G s) ->
  forall t fuel, (2 ^ n <= fuel)%nat ->
  exists t', bounds_DDset n fuel orc t T G fs = Ok ((-1, -1), t').
Proof. intros n orc T G fs H. exact (bounds_DDset_empty n orc H T G fs). Qed.
Print Assumptions C34_bounds_DDset_empty.
(** three variables, the field of the last two bits; T: first bit 1; from 1,0,1
    (value 2) the states of T are between 0 and 2 away; the states with value 3 or 2
    are 1 and 0 away from the set of value 0 or 2 *)
Example C34_instance :
  let T := mk 6 (fun v => nth 0 v 0 =? 1)%Z in
  let A := mk 6 (fun v => nth 2 v 0 =? 1)%Z in
  let G := mk 6 (fun v => nth 1 v 0 =? 0)%Z in
  fields_in 3 [(1, 2)] /\
  bounds_state 3 8 robdd_oracle 0 T [1; 0; 1] [(1, 2)] = Ok (0, 2) /\
  bounds_DDset 3 8 robdd_oracle 0 A G [(1, 2)] = Ok ((0, 1), 5%nat).
Proof.
  split; [|split; vm_compute; reflexivity].
  intros o w [E|[]]. injection E as <- <-. repeat split; discriminate.
Qed.

(** get_offsets on the expanded variables: for a text naming declared variables
    whose names are not the beginning of other names, the fields hold the values of
    these variables *)
Theorem C34_get_offsets : forall es ss, NoDup (names (es ++ ss)) -> bits_distinct (es ++ ss) ->
  int_domains (es ++ ss) ->
  forall xs txt, xs <> [] -> spaced xs txt ->
  (forall x, In x xs -> is_word x /\ In x (names (es ++ ss)) /\ own_prefix (es ++ ss) x) ->
  exists ev sv nb fs, expand_nonbool_variables (vlist es) (vlist ss) = Ok (ev, sv, nb) /\
    get_offsets ev sv txt = Ok (Some fs) /\
    fields_in (tree_size ev + tree_size sv) fs /\
    forall s r, In s (dvecs (doms (es ++ ss))) -> In r (dvecs (doms (es ++ ss))) ->
      dist fs (enc (es ++ ss) s) (enc (es ++ ss) r) = value_dist (es ++ ss) xs s r.
Proof. exact offsets_ok. Qed.
Print Assumptions C34_get_offsets.
Example C34_get_offsets_instance :
  get_offsets (vlist [("a", -1); ("x0", 0); ("x1", 0)]) (vlist [("y0", 0); ("y1", 0); ("b", -1)]) "  y x  " =
    Ok (Some [(3, 2); (1, 2)]) /\
  spaced ["y"; "x"] "  y x  " /\ own_prefix [("a", -1); ("x", 3); ("y", 2); ("b", -1)] "x" /\
  expand_nonbool_variables (vlist [("a", -1); ("x", 3)]) (vlist [("y", 2); ("b", -1)]) =
    Ok (vlist [("a", -1); ("x0", 0); ("x1", 0)], vlist [("y0", 0); ("y1", 0); ("b", -1)],
        vlist [("x", 3); ("y", 2)]).
Proof.
  split; [vm_compute; reflexivity|]. split.
  { apply spaced_space, spaced_space. apply (spaced_word "y"). apply (spaced_word "x").
    apply spaced_space, spaced_nil. }
  split; [|vm_compute; reflexivity].
  intros y e [E|[E|[E|[E|[]]]]] Hne b Hb; injection E as <- <-; vm_compute in Hb; try congruence;
    repeat (destruct Hb as [<-|Hb]; [reflexivity|]); destruct Hb.
Qed.
(** names that begin other names: asked for x, the bit of the variable xy is
    taken as a second bit of x *)
Theorem C34_prefix_names_refuted : exists es ss xs txt ev sv nb fs s r,
  NoDup (names (es ++ ss)) /\ bits_distinct (es ++ ss) /\ int_domains (es ++ ss) /\ spaced xs txt /\
  (forall x, In x xs -> is_word x /\ In x (names (es ++ ss))) /\
  expand_nonbool_variables (vlist es) (vlist ss) = Ok (ev, sv, nb) /\
  get_offsets ev sv txt = Ok (Some fs) /\
  In s (dvecs (doms (es ++ ss))) /\ In r (dvecs (doms (es ++ ss))) /\
  dist fs (enc (es ++ ss) s) (enc (es ++ ss) r) <> value_dist (es ++ ss) xs s r.
Proof.
  exists [], [("x", -1); ("xy", -1)], ["x"], "x", NULL, (vlist [("x", -1); ("xy", -1)]), NULL,
    [(0, 2)], [0; 0], [0; 1].
  split. { cbn. repeat constructor; cbn; intuition discriminate. }
  split. { split; [cbn; repeat constructor; cbn; intuition discriminate|].
           intros x d [E|[E|[]]] Hd; injection E as <- <-; exfalso; apply Hd; reflexivity. }
  split. { intros x d [E|[E|[]]]; injection E as <- <-; reflexivity. }
  split; [apply spaced_last|].
  split. { intros x [<-|[]]. split; [|left; reflexivity]. split; [discriminate|]. intros [E|[]]; discriminate. }
  split; [vm_compute; reflexivity|]. split; [vm_compute; reflexivity|].
  split; [cbn; auto|]. split; [cbn; auto|]. vm_compute. discriminate.
Qed.
Print Assumptions C34_prefix_names_refuted.

(** compute_minmax: for every goal, with the levels [Y 0] (empty), ..., [Y K] (the
    winning set) of Levels.v, entry j >= 1 holds the least and greatest distance from
    a state new in level j+1 to the winning goal states, and entry 0 is (0, 0). If
    there is no winning state, memory after the allocated arrays is written. *)
Theorem C34_minmax : forall F orc, well_scoped F -> all_boolean F -> fs_sgoals F <> [] ->
  oracle_ok (2 * (List.length (fs_evars F) + List.length (fs_svars F))) orc ->
  forall fs, fields_in (List.length (fs_evars F) + List.length (fs_svars F)) fs ->
  exists N, forall fuel, (N <= fuel)%nat ->
  ((forall s, In s (fs_states F) -> ~ sys_wins (game_of F) s) ->
     compute_minmax (spec_of F) fuel orc fs = Crash) /\
  ((exists s, In s (fs_states F) /\ sys_wins (game_of F) s) ->
   exists l W, compute_minmax (spec_of F) fuel orc fs = Ok (Some l) /\
    List.length l = List.length (fs_sgoals F) /\
    (forall s, In s (fs_states F) -> (W s = true <-> sys_wins (game_of F) s)) /\
    forall i, (i < List.length (fs_sgoals F))%nat -> exists K Y X,
      is_ladder (game_of F) (holds F (nth i (fs_sgoals F) FTrue)) W (env_goal F)
        (List.length (egoal_forms F)) K Y X /\
      List.length (nth i l []) = K /\ nth 0 (nth i l []) (0, 0) = (0, 0) /\
      forall j, (1 <= j < K)%nat ->
        pair_bounds fs
          (fun s => In s (fs_states F) /\ Y (S j) s = true /\ Y j s = false)
          (fun s => In s (fs_states F) /\ holds F (nth i (fs_sgoals F) FTrue) s = true /\
                    sys_wins (game_of F) s)
          (nth j (nth i l []) (0, 0))).
Proof. intros F orc H1 H2 H3 H4. exact (minmax_ok F orc H1 H2 H3 H4). Qed.
Print Assumptions C34_minmax.

(** compute_horizon: -1 without usable variable names, otherwise the horizon
    (MetricSpec.v) of the bounds computed *)
Theorem C34_horizon : forall sp fuel orc txt h, compute_horizon sp fuel orc txt = Ok h ->
  (h = -1 /\ (get_offsets (evar_list sp) (svar_list sp) txt = Ok None \/ exists fs,
     get_offsets (evar_list sp) (svar_list sp) txt = Ok (Some fs) /\
     compute_minmax sp fuel orc fs = Ok None)) \/
  exists fs l, get_offsets (evar_list sp) (svar_list sp) txt = Ok (Some fs) /\
    compute_minmax sp fuel orc fs = Ok (Some l) /\ is_horizon l h.
Proof. exact compute_horizon_ok. Qed.
Print Assumptions C34_horizon.

(** SYS: x in 0..3 as bits x0, x1, counting up modulo 4; SYSGOAL: x = 0 *)
Definition ex_count : fspec := {|
  fs_evars := []; fs_svars := [("x0", -1); ("x1", -1)];
  fs_einit := None; fs_sinit := None; fs_etrans := FTrue;
  fs_strans := FAnd (FIff (FNext "x0") (FNot (FVar "x0")))
                    (FIff (FNext "x1") (FNot (FIff (FVar "x0") (FVar "x1"))));
  fs_egoals := []; fs_sgoals := [FAnd (FNot (FVar "x0")) (FNot (FVar "x1"))]
|}.
Example C34_minmax_instance :
  compute_minmax (spec_of ex_count) 30 robdd_oracle [(0, 2)] =
    Ok (Some [[(0, 0); (3, 3); (2, 2); (1, 1)]]) /\
  compute_horizon (spec_of ex_count) 30 robdd_oracle "x" = Ok 2 /\
  well_scoped ex_count /\ all_boolean ex_count /\ fields_in 2 [(0, 2)].
Proof.
  split; [vm_compute; reflexivity|]. split; [vm_compute; reflexivity|].
  split.
  { unfold well_scoped, ex_count, state_form, incl; cbn. repeat split; auto; try tauto.
    - destruct H as [<-|[]]. cbn. tauto.
    - destruct H as [<-|[]]. reflexivity. }
  split. { unfold all_boolean, ex_count; cbn. repeat split; auto; try tauto.
    - intros v [<-|[<-|[]]]; reflexivity.
    - intros f [<-|[]]. reflexivity. }
  intros o w [E|[]]. injection E as <- <-. repeat split; discriminate.
Qed.
