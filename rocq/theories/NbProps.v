(** The lemmas behind the property file PNonbool.v. *)
From Coq Require Import List ZArith Bool Arith String Lia.
From Verif Require Import Base Game Strs Ptree Form Solve FSpec Automaton PtreeProofs SolveProofs RealProofs Nonbool
  ExpProofs RSpec NonboolProofs EncProofs PipeProofs PipeVerdict NbStateProofs.
Import ListNotations.
Open Scope string_scope.
Open Scope list_scope.
Open Scope Z_scope.

(** ** C19 *)
Lemma expand_meaning : forall x d f, 0 <= d -> (d = 0 -> has_ne0 x f = false) ->
  exists g N, (forall fuel, (N <= fuel)%nat -> expand_to_bool fuel (tree_of f) x d = Ok (tree_of g)) /\
    (forall p, ~ In x (cmps p g)) /\
    forall cur nxt,
      (forall i, 0 <= i < width d -> cur (varname x i) = if Z.testbit (cur x) i then 1 else 0) ->
      (forall i, 0 <= i < width d -> nxt (varname x i) = if Z.testbit (nxt x) i then 1 else 0) ->
      0 <= cur x <= d -> 0 <= nxt x <= d ->
      sem cur nxt g = sem cur nxt f.
Proof.
  intros x d f Hd H0. exists (expand1 x d f), (fuel_for d f). split; [|split].
  - intros fuel Hf. apply etb_ok; auto. rewrite bad_ne_eq.
    destruct (Z.eqb_spec d 0) as [E|E]; [rewrite H0 by auto|]; auto using andb_false_r.
  - intros p Hin. rewrite expand1_cmps in Hin by auto. apply filter_In in Hin. destruct Hin as [_ Hin].
    rewrite String.eqb_refl in Hin. discriminate Hin.
  - intros cur nxt B1 B2 D1 D2. rewrite <- nbits_width in B1, B2 by auto.
    apply expand1_sem; auto; intros _; (split; [assumption|right; assumption]).
Qed.

(** ** C22 *)
Lemma prefix_refl_app : forall x s, String.prefix x (x ++ s)%string = true.
Proof.
  induction x as [|c x IH]; intros s; [destruct s; reflexivity|]. cbn [String.append String.prefix].
  destruct (Ascii.ascii_dec c c); [apply IH|congruence].
Qed.
Lemma prefix_app : forall x y s, String.prefix x y = true -> String.prefix x (y ++ s)%string = true.
Proof.
  induction x as [|c x IH]; intros y s H; [destruct (y ++ s)%string; reflexivity|].
  destruct y as [|c' y]; [discriminate H|]. cbn [String.append String.prefix] in *.
  destruct (Ascii.ascii_dec c c'); [apply IH; auto|discriminate H].
Qed.
Lemma dnames_bits : forall vs x d, bits_distinct vs -> In (x, d) vs -> dnames (x, d) = var_bits (x, d).
Proof.
  intros vs x d HB Hin. unfold dnames, var_bits. cbn [fst snd].
  destruct (Z.leb_spec 0 d) as [Hd|Hd].
  - rewrite (proj2 (Z.ltb_ge d 0)) by auto. unfold bit_names. rewrite <- nbits_width by auto.
    apply map_ext_in. intros i Hi. apply zseq_In in Hi. unfold varname.
    pose proof (proj2 HB x d Hin Hd i) as Hl. rewrite <- nbits_width in Hl by auto. unfold bit_name in *.
    apply substring_full. unfold varname_cap. lia.
  - rewrite (proj2 (Z.ltb_lt d 0)) by auto. reflexivity.
Qed.
Lemma runs_of : forall vs, bits_distinct vs -> prefix_free vs -> runs_ok vs.
Proof.
  intros vs HB HP x d Hx Hd. split.
  - intros b Hb. rewrite (dnames_bits vs) in Hb by auto. unfold var_bits in Hb. cbn [fst snd] in Hb.
    rewrite (proj2 (Z.ltb_ge d 0)) in Hb by auto. apply in_map_iff in Hb. destruct Hb as (i & <- & _).
    apply prefix_refl_app.
  - intros y e Hy Hne.
    assert (H : forall b, In b (dnames (y, e)) -> String.prefix x b = false).
    { intros b Hb. rewrite (dnames_bits vs) in Hb by auto. apply (HP x d y e); auto. }
    split; auto. destruct (String.prefix x y) eqn:E; auto.
    rewrite (dnames_bits vs) in H by auto. unfold var_bits in H. cbn [fst snd] in H.
    destruct (Z.ltb_spec e 0) as [He|He].
    + rewrite <- E. apply H. left. reflexivity.
    + specialize (H (bit_name y 0)). rewrite <- H; [unfold bit_name; rewrite prefix_app; auto|].
      apply in_map, zseq_In. rewrite <- nbits_width by auto. pose proof (nbits_pos e He). lia.
Qed.
Lemma expand_variables_ok : forall es ss,
  expand_nonbool_variables (vlist es) (vlist ss) =
  Ok (vlist (bit_decls 0 es), vlist (bit_decls 0 ss), vlist (ints (es ++ ss))).
Proof.
  intros es ss. unfold expand_nonbool_variables. rewrite !expand_items_ok. cbn [bind].
  rewrite link_vlist, nonbool_items_ok. reflexivity.
Qed.
Section States.
  Variables es ss : list vdecl.
  Let vs := es ++ ss.
  Hypothesis HN : NoDup (names vs).
  Hypothesis HB : bits_distinct vs.
  Hypothesis HP : prefix_free vs.
  Hypothesis HD : int_domains vs.
  Hypothesis Hne : vs <> [].
  Lemma state_expansion : exists ev sv nb offw,
    expand_nonbool_variables (vlist es) (vlist ss) = Ok (ev, sv, nb) /\
    get_offsets_list ev sv nb = Ok (Some offw) /\
    forall s, List.length s = List.length vs ->
      expand_nonbool_state s offw (Z.of_nat (tree_size ev + tree_size sv)) = Ok (Some (enc vs s)).
  Proof.
    do 4 eexists. split; [apply expand_variables_ok|].
    split; [apply get_offsets_ok; auto; apply runs_of; auto|].
    intros s Hl. rewrite !vlist_size, !bit_decls_len, <- total_app. apply expand_state_ok; auto.
  Qed.
  Lemma expand_compact : exists ev sv nb,
    expand_nonbool_variables (vlist es) (vlist ss) = Ok (ev, sv, nb) /\
    forall A, A <> [] -> (forall x, In x A -> In (astate x) (dvecs (doms vs))) ->
    exists A', aut_expand_bool A ev sv nb = Ok (A', 0) /\
      A' = map (fun x => set_state (enc vs (astate x)) x) A /\
      compact_all A' ev sv nb = Ok (A, vlist es, vlist ss).
  Proof.
    do 3 eexists. split; [apply expand_variables_ok|]. intros A HA Hdom.
    assert (Hrep : forall x, In x A -> repr vs (astate x)).
    { intros x Hx. apply in_doms_wide, dvecs_In. auto. }
    exists (with_states (enc vs) A). split; [|split; [reflexivity|]].
    - apply expand_bool_ok; auto; [apply runs_of; auto|]. intros x Hx. apply repr_len. auto.
    - apply compact_ok; auto. apply runs_of; auto.
  Qed.
  Lemma compact_expand : exists ev sv nb,
    expand_nonbool_variables (vlist es) (vlist ss) = Ok (ev, sv, nb) /\
    forall A', A' <> [] ->
      (forall x, In x A' -> List.length (astate x) = List.length (all_bits vs) /\ Forall is_bit (astate x)) ->
    exists A, compact_all A' ev sv nb = Ok (A, vlist es, vlist ss) /\
      (forall x, In x A -> List.length (astate x) = List.length vs) /\
      A' = map (fun x => set_state (enc vs (astate x)) x) A /\
      aut_expand_bool A ev sv nb = Ok (A', 0).
  Proof.
    do 3 eexists. split; [apply expand_variables_ok|]. intros A' HA HS.
    assert (Hbl : List.length (all_bits vs) = total_bits vs).
    { rewrite <- bnames_len. unfold bnames, all_bits.
      assert (H : forall v, In v vs -> dnames v = var_bits v)
        by (intros [x d] Hin; apply (dnames_bits vs); auto).
      clear - H. induction vs as [|v l IH]; auto. cbn [flat_map]. rewrite H by (left; auto).
      rewrite !app_length. f_equal. apply IH. intros; apply H; right; auto. }
    rewrite Hbl in HS. set (A := with_states (dec vs) A').
    assert (Hrep : forall x, In x A -> repr vs (astate x)).
    { intros x Hx. unfold A, with_states in Hx. apply in_map_iff in Hx. destruct Hx as (y & <- & Hy).
      rewrite set_state_state. apply enc_dec; apply HS; auto. }
    assert (E : A' = with_states (enc vs) A).
    { unfold A, with_states. rewrite map_map. rewrite <- (map_id A') at 1. apply map_ext_in.
      intros x Hx. rewrite set_state_state, set_state_set.
      destruct (enc_dec vs (astate x)) as [Ee _]; try apply HS; auto. rewrite Ee. symmetry. apply set_state_id. }
    exists A. split; [|split; [|split]].
    - rewrite E. apply compact_ok; auto. apply runs_of; auto.
    - intros x Hx. apply repr_len. auto.
    - exact E.
    - rewrite E. apply expand_bool_ok; auto; [apply runs_of; auto| |].
      + intros E0. apply HA. rewrite E, E0. reflexivity.
      + intros x Hx. apply repr_len. auto.
  Qed.
End States.

(** ** C20 *)
Section Game.
  Variables (flags : init_flags_t) (R : rspec).
  Hypothesis HT : well_typed R.
  Hypothesis HN : NoDup (names (rs_vars R)).
  Hypothesis HB : bits_distinct (rs_vars R).
  Let F := fspec_of R.
  Let vs := rs_vars R.
  Let es := rs_evars R.
  Lemma prepared_game : exists F0 F',
    (exists N, forall fuel, (N <= fuel)%nat ->
       exists nb, prepare fuel flags (raw_of R) = Ok (Some (spec_of F0, nb))) /\
    same_but_domains F0 F' /\ well_scoped F' /\ all_boolean F' /\
    names (fs_evars F') ++ names (fs_svars F') = all_bits vs /\
    (match flags with
     | ONE_SIDE_INIT =>
         match rs_sinit R with
         | None => fs_sinit F' = None /\ forall t,
             In t (fs_states F') /\ holds_opt F' (fs_einit F') t = true <->
             exists s, t = enc vs s /\ In s (fs_states F) /\ holds_opt F (rs_einit R) s = true
         | Some f => exists f', fs_sinit F' = Some f' /\ forall t,
             In t (fs_states F') /\ holds F' f' t = true <->
             exists s, t = enc vs s /\ In s (fs_states F) /\ holds F f s = true
         end
     | _ => forall t, initial F' t <-> exists s, t = enc vs s /\ initial F s
     end) /\
    (forall s, In s (fs_states F) -> forall e2,
       legal_env (game_of F') (enc vs s) e2 <-> exists e, e2 = enc es e /\ legal_env (game_of F) s e) /\
    (forall s, In s (fs_states F) -> forall e, legal_env (game_of F) s e -> forall s2,
       legal_sys (game_of F') (enc vs s) (enc es e) s2 <->
       exists s', s2 = enc vs s' /\ legal_sys (game_of F) s e s').
  Proof.
    exists (solver_spec 0 flags R), (solver_spec (-1) flags R).
    split; [|split; [|split; [|split; [|split; [|split; [|split]]]]]].
    - destruct (prepare_ok flags R (no_bad R HT)) as [N H]. exists N. intros fuel Hf.
      eexists. apply H. auto.
    - apply solver_spec_same.
    - apply F'_scoped; auto.
    - apply F'_boolean; auto.
    - cbn [solver_spec fs_evars fs_svars]. rewrite !bit_decls_bnames. unfold bnames. rewrite <- flat_map_app.
      apply (bnames_all R HB).
    - pose proof (initial_ok flags R HT HN HB) as H1. pose proof (one_side_ok flags R HT HN HB) as H2.
      destruct flags; try (apply H1; discriminate). apply H2. reflexivity.
    - exact (env_ok flags R HT HN HB).
    - exact (sys_ok flags R HT HN HB).
  Qed.
End Game.

(** ** C21 *)
Lemma int_round_trip : forall x k, 1 <= k <= 31 -> exists v,
  int_to_bitvec x k = Ok (Some v) /\ Forall (fun b => b = 0 \/ b = 1) v /\ Z.of_nat (List.length v) = k /\
  (forall i, (i < List.length v)%nat -> nth i v 0 = if Z.testbit x (Z.of_nat i) then 1 else 0) /\
  bitvec_to_int v = Ok (x mod 2 ^ k) /\ (0 <= x < 2 ^ k -> bitvec_to_int v = Ok x).
Proof.
  intros x k Hk. destruct (int_bitvec_int x k Hk) as (v & E & Hb & Hl & Hi). exists v.
  split; auto. split; auto. split; auto. split; [|split; auto].
  - rewrite int_to_bitvec_ok in E by auto. injection E as <-. intros i Hi'.
    rewrite map_length in Hi'. rewrite (nth_indep _ 0 (bit x 0)) by (rewrite map_length; auto).
    rewrite map_nth. unfold zseq in *. rewrite zseq_from_length in Hi'. rewrite zseq_from_nth by auto.
    rewrite Z.add_0_l. reflexivity.
  - intros Hx. rewrite Hi. rewrite Z.mod_small by auto. reflexivity.
Qed.
