(** Properties C19-C22 and C36: specifications with integer variables.

    Reading guide. [form], [sem], [cmps], [tree_of]: Form.v. [rspec] (a
    specification as written, with integer variables), [raw_of] (its parse trees),
    [fspec_of] (the same as one specification; its game [game_of] is played on
    integer-valued states), [width], [bit_name], [all_bits], [enc] (binary
    encoding of a state, least significant bit first), [well_typed],
    [bits_distinct], [prefix_free]: RSpec.v. A variable declaration is a pair of
    a name and a domain: -1 for Boolean, k for [0,k]. [fuel] bounds recursion; a
    claim "for all fuel >= N" says that the function terminates. *)
From Coq Require Import List ZArith Bool Arith String.
From Verif Require Import Base Game Strs Ptree Form Solve FSpec RealProofs Automaton Nonbool RSpec
  EncProofs PipeVerdict NbStateProofs NbProps NbExamples.
Import ListNotations.
Open Scope string_scope.
Open Scope list_scope.
Open Scope Z_scope.

(** C19. [cur] and [nxt] are valuations of the current and the next state in
    which the bits of [x] encode the value of [x]. *)
Theorem C19_expansion_meaning : forall x d f, 0 <= d -> (d = 0 -> has_ne0 x f = false) ->
  exists g N, (forall fuel, (N <= fuel)%nat -> expand_to_bool fuel (tree_of f) x d = Ok (tree_of g)) /\
    (forall p, ~ In x (cmps p g)) /\
    forall cur nxt,
      (forall i, 0 <= i < width d -> cur (varname x i) = if Z.testbit (cur x) i then 1 else 0) ->
      (forall i, 0 <= i < width d -> nxt (varname x i) = if Z.testbit (nxt x) i then 1 else 0) ->
      0 <= cur x <= d -> 0 <= nxt x <= d ->
      sem cur nxt g = sem cur nxt f.
Proof. exact expand_meaning. Qed.
Print Assumptions C19_expansion_meaning.
Example C19_instance : exists g, expand_to_bool 9 (tree_of (FImp (FCmp false "x" CGe 2) (FCmp true "x" CNe 1)))
    "x" 2 = Ok (tree_of g) /\
  sem (fun y => if String.eqb y "x" then 2 else if String.eqb y "x1" then 1 else 0)
      (fun y => if String.eqb y "x" then 1 else if String.eqb y "x0" then 1 else 0) g = false.
Proof.
  exists (ExpProofs.expand1 "x" 2 (FImp (FCmp false "x" CGe 2) (FCmp true "x" CNe 1))). split; vm_compute; reflexivity.
Qed.
(** the excluded case crashes *)
Theorem C19_ne0_refuted : forall fuel, expand_to_bool (S (S fuel)) (tree_of (FCmp false "x" CNe 0)) "x" 0 = Crash.
Proof. intros fuel. reflexivity. Qed.
Print Assumptions C19_ne0_refuted.

(** C20 *)
Theorem C20_unreachable_values : forall x (p : bool) lo hi, lo <= hi ->
  exists g, unreach_expanded_bool x lo hi (if p then PT_NEXT_VARIABLE else PT_VARIABLE) = tree_of g /\
    forall cur nxt, sem cur nxt g =
      negb ((lo <=? (if p then nxt x else cur x)) && ((if p then nxt x else cur x) <=? hi)).
Proof.
  intros x p lo hi H. exists (ExpProofs.unreach x p lo hi).
  split; [exact (ExpProofs.unreach_tree x p lo hi H)|]. intros cur nxt. exact (ExpProofs.unreach_sem cur nxt x p lo hi H).
Qed.
Print Assumptions C20_unreachable_values.
Example C20_instance : exists g, unreach_expanded_bool "x" 3 3 PT_VARIABLE = tree_of g /\
  sem (fun _ => 3) (fun _ => 0) g = false /\ sem (fun _ => 2) (fun _ => 0) g = true.
Proof.
  destruct (C20_unreachable_values "x" false 3 3) as (g & H1 & H2); [discriminate|].
  exists g. rewrite !H2. auto.
Qed.
(** The prepared specification is, up to the domains recorded for the bits, the
    one of a Boolean specification [F'] whose initial states and moves are exactly
    the encodings of those of the integer specification. *)
Theorem C20_only_in_domain : forall flags R, well_typed R -> NoDup (names (rs_vars R)) ->
  bits_distinct (rs_vars R) ->
  exists F0 F',
    (exists N, forall fuel, (N <= fuel)%nat ->
       exists nb, prepare fuel flags (raw_of R) = Ok (Some (spec_of F0, nb))) /\
    same_but_domains F0 F' /\ well_scoped F' /\ all_boolean F' /\
    names (fs_evars F') ++ names (fs_svars F') = all_bits (rs_vars R) /\
    (match flags with
     | ONE_SIDE_INIT =>
         match rs_sinit R with
         | None => fs_sinit F' = None /\ forall t,
             In t (fs_states F') /\ holds_opt F' (fs_einit F') t = true <->
             exists s, t = enc (rs_vars R) s /\ In s (fs_states (fspec_of R)) /\
               holds_opt (fspec_of R) (rs_einit R) s = true
         | Some f => exists f', fs_sinit F' = Some f' /\ forall t,
             In t (fs_states F') /\ holds F' f' t = true <->
             exists s, t = enc (rs_vars R) s /\ In s (fs_states (fspec_of R)) /\
               holds (fspec_of R) f s = true
         end
     | _ => forall t, initial F' t <-> exists s, t = enc (rs_vars R) s /\ initial (fspec_of R) s
     end) /\
    (forall s, In s (fs_states (fspec_of R)) -> forall e2,
       legal_env (game_of F') (enc (rs_vars R) s) e2 <->
       exists e, e2 = enc (rs_evars R) e /\ legal_env (game_of (fspec_of R)) s e) /\
    (forall s, In s (fs_states (fspec_of R)) -> forall e, legal_env (game_of (fspec_of R)) s e -> forall s2,
       legal_sys (game_of F') (enc (rs_vars R) s) (enc (rs_evars R) e) s2 <->
       exists s', s2 = enc (rs_vars R) s' /\ legal_sys (game_of (fspec_of R)) s e s').
Proof. exact prepared_game. Qed.
Print Assumptions C20_only_in_domain.

(** C21. [x mod 2 ^ k] is [x] when 0 <= x < 2 ^ k. *)
Theorem C21_int_round_trip : forall x k, 1 <= k <= 31 -> exists v,
  int_to_bitvec x k = Ok (Some v) /\ Forall (fun b => b = 0 \/ b = 1) v /\ Z.of_nat (List.length v) = k /\
  (forall i, (i < List.length v)%nat -> nth i v 0 = if Z.testbit x (Z.of_nat i) then 1 else 0) /\
  bitvec_to_int v = Ok (x mod 2 ^ k) /\ (0 <= x < 2 ^ k -> bitvec_to_int v = Ok x).
Proof. exact int_round_trip. Qed.
Print Assumptions C21_int_round_trip.
Theorem C21_bits_round_trip : forall v, Forall (fun b => b = 0 \/ b = 1) v -> (1 <= List.length v <= 31)%nat ->
  exists x, bitvec_to_int v = Ok x /\ 0 <= x < 2 ^ Z.of_nat (List.length v) /\
            int_to_bitvec x (Z.of_nat (List.length v)) = Ok (Some v).
Proof. exact bitvec_int_bitvec. Qed.
Print Assumptions C21_bits_round_trip.
Example C21_instance : int_to_bitvec 6 3 = Ok (Some [0; 1; 1]) /\ bitvec_to_int [0; 1; 1] = Ok 6 /\
  int_to_bitvec 6 2 = Ok (Some [0; 1]) /\ bitvec_to_int [0; 1] = Ok (6 mod 2 ^ 2).
Proof. repeat split; vm_compute; reflexivity. Qed.

(** C22 *)
Theorem C22_state_expansion : forall es ss, NoDup (names (es ++ ss)) -> bits_distinct (es ++ ss) ->
  prefix_free (es ++ ss) -> int_domains (es ++ ss) -> es ++ ss <> [] ->
  exists ev sv nb offw,
    expand_nonbool_variables (vlist es) (vlist ss) = Ok (ev, sv, nb) /\
    get_offsets_list ev sv nb = Ok (Some offw) /\
    forall s, List.length s = List.length (es ++ ss) ->
      expand_nonbool_state s offw (Z.of_nat (tree_size ev + tree_size sv)) = Ok (Some (enc (es ++ ss) s)).
Proof. exact state_expansion. Qed.
Print Assumptions C22_state_expansion.
Theorem C22_expand_compact : forall es ss, NoDup (names (es ++ ss)) -> bits_distinct (es ++ ss) ->
  prefix_free (es ++ ss) -> int_domains (es ++ ss) -> es ++ ss <> [] ->
  exists ev sv nb,
    expand_nonbool_variables (vlist es) (vlist ss) = Ok (ev, sv, nb) /\
    forall A, A <> [] -> (forall x, In x A -> In (astate x) (dvecs (doms (es ++ ss)))) ->
    exists A', aut_expand_bool A ev sv nb = Ok (A', 0) /\
      A' = map (fun x => set_state (enc (es ++ ss) (astate x)) x) A /\
      compact_all A' ev sv nb = Ok (A, vlist es, vlist ss).
Proof. exact expand_compact. Qed.
Print Assumptions C22_expand_compact.
Theorem C22_compact_expand : forall es ss, NoDup (names (es ++ ss)) -> bits_distinct (es ++ ss) ->
  prefix_free (es ++ ss) -> int_domains (es ++ ss) -> es ++ ss <> [] ->
  exists ev sv nb,
    expand_nonbool_variables (vlist es) (vlist ss) = Ok (ev, sv, nb) /\
    forall A', A' <> [] ->
      (forall x, In x A' -> List.length (astate x) = List.length (all_bits (es ++ ss)) /\
                            Forall (fun b => b = 0 \/ b = 1) (astate x)) ->
    exists A, compact_all A' ev sv nb = Ok (A, vlist es, vlist ss) /\
      (forall x, In x A -> List.length (astate x) = List.length (es ++ ss)) /\
      A' = map (fun x => set_state (enc (es ++ ss) (astate x)) x) A /\
      aut_expand_bool A ev sv nb = Ok (A', 0).
Proof. exact compact_expand. Qed.
Print Assumptions C22_compact_expand.
Example C22_instance :
  (NoDup (names ([("x", 2)] ++ [("b", -1)])) /\ bits_distinct ([("x", 2)] ++ [("b", -1)]) /\
   prefix_free ([("x", 2)] ++ [("b", -1)]) /\ int_domains ([("x", 2)] ++ [("b", -1)])) /\
  exists ev sv nb, expand_nonbool_variables (vlist [("x", 2)]) (vlist [("b", -1)]) = Ok (ev, sv, nb) /\
  compact_all [Automaton.Node 7 true [0; 1; 1] 0 (-1) [7%nat]] ev sv nb =
    Ok ([Automaton.Node 7 true [2; 1] 0 (-1) [7%nat]], vlist [("x", 2)], vlist [("b", -1)]).
Proof.
  split; [destruct ex_bits as (H1 & H2 & H3 & H4);
    split; [exact H2|split; [exact H1|split; [exact H3|exact H4]]]|].
  do 3 eexists. split; [reflexivity|]. vm_compute. reflexivity.
Qed.
(** without [prefix_free]: x [0,1] and the Boolean variable xy; the value of xy is
    lost *)
Theorem C22_prefix_refuted : exists es ss ev sv nb A, NoDup (names (es ++ ss)) /\ bits_distinct (es ++ ss) /\
  int_domains (es ++ ss) /\ A <> [] /\ (forall x, In x A -> In (astate x) (dvecs (doms (es ++ ss)))) /\
  expand_nonbool_variables (vlist es) (vlist ss) = Ok (ev, sv, nb) /\
  exists B e s, compact_all (map (fun x => set_state (enc (es ++ ss) (astate x)) x) A) ev sv nb = Ok (B, e, s) /\
    (forall x, In x B -> astate x = [3]) /\ s = vlist [("x", 1)].
Proof. exact prefix_refuted. Qed.
Print Assumptions C22_prefix_refuted.

(** C36. [chain_gives R flags P]: for all large enough fuel, preparation of [R]
    succeeds, and check_realizable on its result terminates with a non-NULL answer
    iff [P] (PipeVerdict.v). *)
Theorem C36_all_init : forall R, well_typed R -> NoDup (names (rs_vars R)) -> bits_distinct (rs_vars R) ->
  chain_gives R ALL_INIT
    ((exists s, initial (fspec_of R) s) /\
     forall s, initial (fspec_of R) s -> sys_wins (game_of (fspec_of R)) s).
Proof. exact int_all_init. Qed.
Print Assumptions C36_all_init.
Theorem C36_all_env_exist_sys : forall R, well_typed R -> NoDup (names (rs_vars R)) -> bits_distinct (rs_vars R) ->
  opt_all (fun f => incl (fvars f) (names (rs_evars R))) (rs_einit R) ->
  opt_all (fun f => incl (fvars f) (names (rs_svars R))) (rs_sinit R) ->
  (exists s, In s (fs_states (fspec_of R)) /\ holds_opt (fspec_of R) (rs_sinit R) s = true) ->
  chain_gives R ALL_ENV_EXIST_SYS_INIT
    (forall e, In e (fs_envs (fspec_of R)) -> holds_env (fspec_of R) (rs_einit R) e = true ->
       exists s, In s (fs_states (fspec_of R)) /\ g_env (game_of (fspec_of R)) s = e /\
         holds_opt (fspec_of R) (rs_sinit R) s = true /\ sys_wins (game_of (fspec_of R)) s).
Proof. exact int_aes_separated. Qed.
Print Assumptions C36_all_env_exist_sys.
(** without the assumptions on the initial conditions *)
Theorem C36_all_env_exist_sys_general : forall R, well_typed R -> NoDup (names (rs_vars R)) ->
  bits_distinct (rs_vars R) ->
  chain_gives R ALL_ENV_EXIST_SYS_INIT
    (forall s, initial (fspec_of R) s -> exists s', initial (fspec_of R) s' /\
        g_env (game_of (fspec_of R)) s' = g_env (game_of (fspec_of R)) s /\
        sys_wins (game_of (fspec_of R)) s').
Proof. exact int_aes. Qed.
Print Assumptions C36_all_env_exist_sys_general.
Theorem C36_one_side : forall R, well_typed R -> NoDup (names (rs_vars R)) -> bits_distinct (rs_vars R) ->
  chain_gives R ONE_SIDE_INIT
    (match rs_sinit R with
     | None => forall s, In s (fs_states (fspec_of R)) -> holds_opt (fspec_of R) (rs_einit R) s = true ->
         sys_wins (game_of (fspec_of R)) s
     | Some f => exists s, In s (fs_states (fspec_of R)) /\ holds (fspec_of R) f s = true /\
         sys_wins (game_of (fspec_of R)) s
     end).
Proof. exact int_one_side. Qed.
Print Assumptions C36_one_side.
Example C36_instance :
  (well_typed ex_int /\ NoDup (names (rs_vars ex_int)) /\ bits_distinct (rs_vars ex_int)) /\
  (well_typed ex_int_lost /\ NoDup (names (rs_vars ex_int_lost)) /\ bits_distinct (rs_vars ex_int_lost)) /\
  (exists sp nb r, prepare 20 ALL_INIT (raw_of ex_int) = Ok (Some (sp, nb)) /\
     check_realizable sp 20 ALL_INIT = Ok r /\ (r <> None <-> true = true)) /\
  (exists sp nb r, prepare 20 ALL_INIT (raw_of ex_int_lost) = Ok (Some (sp, nb)) /\
     check_realizable sp 20 ALL_INIT = Ok r /\ (r <> None <-> false = true)).
Proof.
  destruct ex_bits as (H1 & H2 & _).
  split; [split; [exact ex_int_typed|split; [exact H2|exact H1]]|].
  split; [split; [exact ex_int_lost_typed|split; [exact H2|exact H1]]|].
  split; [exact (answer_ok _ _ ex_int_run)|exact (answer_ok _ _ ex_int_lost_run)].
Qed.
