(** Specification: GR(1) specifications as written, with integer variables and
    lists of transition rules, and the Boolean variables standing for an integer
    one.

    Not a model of code, except [raw_of], which lists the parse trees the parser
    builds for a specification (src/gr1c_parse.y:66-345). *)
From Coq Require Import List ZArith Bool String.
From Verif Require Import Base Game Strs Ptree Form Solve FSpec Nonbool.
Import ListNotations.
Open Scope string_scope.
Open Scope list_scope.
Open Scope Z_scope.

Record rspec := {
  rs_evars : list vdecl;
  rs_svars : list vdecl;
  rs_einit : option form;
  rs_sinit : option form;
  rs_etrans : list form;       (** ENVTRANS: []f1 & []f2 & ... *)
  rs_strans : list form;
  rs_egoals : list form;
  rs_sgoals : list form
}.
Definition conj (l : list form) : form := fold_right FAnd FTrue l.
(** the same specification with the rules conjoined; it denotes the game
    [game_of (fspec_of R)] whose states assign integers to the variables *)
Definition fspec_of (R : rspec) : fspec := {|
  fs_evars := rs_evars R; fs_svars := rs_svars R;
  fs_einit := rs_einit R; fs_sinit := rs_sinit R;
  fs_etrans := conj (rs_etrans R); fs_strans := conj (rs_strans R);
  fs_egoals := rs_egoals R; fs_sgoals := rs_sgoals R
|}.
Definition rs_vars (R : rspec) : list vdecl := rs_evars R ++ rs_svars R.

(** the parse trees the parser builds *)
Definition raw_of (R : rspec) : raw_t := {|
  r_evars := vlist (rs_evars R); r_svars := vlist (rs_svars R);
  r_einit := opt_tree (rs_einit R); r_sinit := opt_tree (rs_sinit R);
  r_etrans := map tree_of (rs_etrans R); r_strans := map tree_of (rs_strans R);
  r_egoals := map tree_of (rs_egoals R); r_sgoals := map tree_of (rs_sgoals R)
|}.

(** a variable standing alone is Boolean, a variable compared with a number is
    an integer variable *)
Definition uses (vs : list vdecl) (p : bool) (f : form) : Prop :=
  (forall y, In y (bares p f) -> In (y, -1) vs) /\
  (forall y, In y (cmps p f) -> exists d, 0 <= d /\ In (y, d) vs).
Definition opt_all (P : form -> Prop) (f : option form) : Prop :=
  match f with None => True | Some g => P g end.
Section Typed.
  Variable R : rspec.
  Definition state_typed (f : form) : Prop :=
    uses (rs_vars R) false f /\ bares true f = [] /\ cmps true f = [].
  (** the crash of [x != 0] for a variable with the single value 0 is excluded *)
  Definition no_ne0 (f : form) : Prop := forall x, In (x, 0) (rs_vars R) -> has_ne0 x f = false.
  Definition well_typed : Prop :=
    (forall x d, In (x, d) (rs_vars R) -> -1 <= d) /\
    (opt_all state_typed (rs_einit R) /\ opt_all state_typed (rs_sinit R)) /\
    (forall f, In f (rs_etrans R) -> uses (rs_vars R) false f /\ uses (rs_evars R) true f) /\
    (forall f, In f (rs_strans R) -> uses (rs_vars R) false f /\ uses (rs_vars R) true f) /\
    (forall f, In f (rs_egoals R) -> state_typed f) /\
    (forall f, In f (rs_sgoals R) -> state_typed f) /\
    (opt_all no_ne0 (rs_einit R) /\ opt_all no_ne0 (rs_sinit R)) /\
    (forall f, In f (rs_etrans R ++ rs_strans R ++ rs_egoals R ++ rs_sgoals R) -> no_ne0 f).
End Typed.

(** ** Bits *)
(** bits needed for the values 0..d *)
Definition width (d : Z) : Z := Z.max 1 (Z.log2_up (d + 1)).
(** the i-th bit of x is called x followed by i *)
Definition bit_name (x : string) (i : Z) : string := (x ++ zdec i)%string.
Definition var_bits (v : vdecl) : list string :=
  if snd v <? 0 then [fst v] else map (bit_name (fst v)) (zseq 0 (width (snd v) - 1)).
(** the names of all Boolean variables used for [vs] *)
Definition all_bits (vs : list vdecl) : list string := flat_map var_bits vs.
(** no two of them clash (the second half: they fit into the buffer of
    var_to_bool, ptree.c:285-305) *)
Definition bits_distinct (vs : list vdecl) : Prop :=
  NoDup (all_bits vs) /\
  forall x d, In (x, d) vs -> 0 <= d -> forall i, 0 <= i < width d ->
    Z.of_nat (String.length (bit_name x i)) <= 1023.

(** the Boolean encoding of a value and of a state; least significant bit first *)
Definition enc_val (d v : Z) : vec :=
  if d <? 0 then [v] else map (fun i => if Z.testbit v i then 1 else 0) (zseq 0 (width d - 1)).
Fixpoint enc (vs : list vdecl) (s : vec) : vec :=
  match vs, s with
  | (_, d) :: vs', v :: s' => enc_val d v ++ enc vs' s'
  | _, _ => []
  end.
(** the name of an integer variable is not a prefix of the name of another
    variable, or of another variable's bits *)
Definition prefix_free (vs : list vdecl) : Prop :=
  forall x d y e, In (x, d) vs -> 0 <= d -> In (y, e) vs -> y <> x ->
  forall b, In b (var_bits (y, e)) -> String.prefix x b = false.
(** values fit into the C type int *)
Definition int_domains (vs : list vdecl) : Prop :=
  forall x d, In (x, d) vs -> d < 2 ^ 31.
