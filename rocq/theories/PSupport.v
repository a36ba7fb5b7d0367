(** Properties C12-C15: helpers of src/solve_support.c.

    Reading guide. A state is a list of 0/1 ([bitvec n s]); the BDD [f] takes
    the value [ev f (s ++ s')] at current state [s] and next state [s'], each
    of which lists the environment variables first. *)
From Coq Require Import List ZArith Bool Arith.
From Verif Require Import Base Bdd Support SupportProofs EnumProofs.
Import ListNotations.
Open Scope nat_scope.

(** C12: the controllable predecessor of [C]. (The remaining two segments
    [e ++ w] of the argument are the primed variables; the answer does not
    depend on [e], and depends on [w] only through ENVTRANS, which in a
    well-scoped specification does not mention primed system variables.) *)
Theorem C12_existsmodal_exact : forall C etrans strans ne ns cube s e w,
  length cube = 2 * (ne + ns) ->
  bitvec (ne + ns) s -> bitvec ne e -> bitvec ns w ->
  (ev (compute_existsmodal C etrans strans ne ns cube) (s ++ e ++ w) = true <->
   forall e', bitvec ne e' -> ev etrans (s ++ e' ++ w) = true ->
   exists w', bitvec ns w' /\ ev strans (s ++ e' ++ w') = true /\
              ev C ((e' ++ w') ++ s) = true).
Proof. exact existsmodal_gen. Qed.
Print Assumptions C12_existsmodal_exact.

(** one environment and one system variable: ENVTRANS true, SYSTRANS (s' <-> e'),
    C = (s): every environment move must be answered, e'=0 forces s'=0, so the
    operator yields false; with C = true it yields true *)
Example C12_instance :
  let iff := mk 4 (fun v => Z.eqb (nth 2 v 0%Z) (nth 3 v 0%Z)) in
  ev (compute_existsmodal (bVar 4 1) (bOne 4) iff 1 1 (zeros 4)) [0;0;0;0]%Z = false /\
  ev (compute_existsmodal (bOne 4) (bOne 4) iff 1 1 (zeros 4)) [0;0;0;0]%Z = true.
Proof. split; vm_compute; reflexivity. Qed.

(** C13: whatever decomposition into cubes the library yields, the list of
    environment moves is complete, correct and free of repetitions. *)
Theorem C13_env_moves_exact : forall fuel orc cube s etrans ne ns,
  length cube = 2 * (ne + ns) -> bitvec (ne + ns) s ->
  (forall f, wf (2 * (ne + ns)) f -> cubes_ok (2 * (ne + ns)) f (orc f)) ->
  2 ^ ne <= fuel ->
  exists l, get_env_moves fuel orc cube s etrans ne ns = Ok l /\ NoDup l /\
  forall e, In e l <->
    (bitvec ne e /\ exists w, bitvec ns w /\ ev etrans (s ++ e ++ w) = true).
Proof. exact get_env_moves_spec. Qed.
Print Assumptions C13_env_moves_exact.

(** the assumption about the cube generator is satisfiable for every size *)
Theorem C13_generator_exists : forall m, oracle_ok m robdd_oracle.
Proof. exact robdd_oracle_ok. Qed.
Print Assumptions C13_generator_exists.
Example C13_instance :
  get_env_moves 4 (robdd_oracle 0) (zeros 6) [0;0;0]%Z
    (mk 6 (fun v => Z.eqb (nth 3 v 0%Z) 1 || Z.eqb (nth 4 v 0%Z) 1)) 2 1
  = Ok [[0;1];[1;0];[1;1]]%Z.
Proof. vm_compute. reflexivity. Qed.

(** C14: the enumeration idiom lists each completion of the cube exactly once,
    ends after at most 2^len rounds, and its result does not depend on the
    bound. [completes g v] says: [v] agrees with [g] wherever [g] is not 2, and
    is 0 or 1 elsewhere. *)
Theorem C14_enumeration_exact : forall gcube fuel,
  2 ^ length gcube <= fuel ->
  exists l, enum_cube fuel gcube = Ok l /\ NoDup l /\
  forall v, In v l <->
    Forall2 (fun c x => (c = 2%Z /\ isbit x) \/ (c <> 2%Z /\ x = c)) gcube v.
Proof.
  exact (fun g fuel H => ex_intro _ (completions g)
    (conj (enum_cube_ok g fuel H) (conj (completions_NoDup g) (completions_spec g)))).
Qed.
Print Assumptions C14_enumeration_exact.
Theorem C14_enumeration_any_bound : forall gcube fuel l,
  enum_cube fuel gcube = Ok l -> l = completions gcube.
Proof. exact enum_cube_any. Qed.
Print Assumptions C14_enumeration_any_bound.
Example C14_instance :
  enum_cube 8 [2;1;2]%Z = Ok [[0;1;0];[0;1;1];[1;1;0];[1;1;1]]%Z.
Proof. vm_compute. reflexivity. Qed.

(** C15: characteristic function of a partial state, and substitution. *)
Theorem C15_state_to_BDD_exact : forall m state offset a, bitvec m a ->
  offset + length state <= m -> Forall isbit state ->
  (ev (state_to_BDD m state offset) a = true <->
   firstn (length state) (skipn offset a) = state).
Proof. exact state_to_BDD_spec. Qed.
Print Assumptions C15_state_to_BDD_exact.
Theorem C15_state_to_cof_exact : forall a k c m cube f u p x w,
  length cube = m -> m = a + k + c ->
  bitvec k p -> bitvec a u -> bitvec k x -> bitvec c w ->
  exists g, state_to_cof m cube p f a = Some g /\ wf m g /\
  ev g (u ++ x ++ w) = ev f (u ++ p ++ w).
Proof. exact state_to_cof_spec. Qed.
Print Assumptions C15_state_to_cof_exact.
Example C15_instance :
  ev (state_to_BDD 4 [1;0]%Z 1) [0;1;0;1]%Z = true /\
  ev (state_to_BDD 4 [1;0]%Z 1) [0;1;1;1]%Z = false /\
  match state_to_cof 4 (zeros 4) [1;0]%Z (mk 4 (fun v => Z.eqb (nth 1 v 0%Z) 1)) 1 with
  | Some g => ev g [0;0;0;0]%Z | None => false end = true.
Proof. repeat split; vm_compute; reflexivity. Qed.
