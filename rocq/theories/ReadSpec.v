(** Specification of integer texts. Not a model of code. *)
From Coq Require Import List ZArith Bool Arith Ascii String.
From Verif Require Import Base Strs.
Import ListNotations.
Open Scope string_scope.
Open Scope list_scope.
Open Scope Z_scope.

Fixpoint all_chars (p : ascii -> bool) (s : string) : bool :=
  match s with EmptyString => true | String c r => p c && all_chars p r end.
(** value of a string of digits *)
Fixpoint digits_value (v : Z) (s : string) : Z :=
  match s with EmptyString => v | String c r => digits_value (v * 10 + (code c - 48)) r end.
(** white space, an optional sign, digits *)
Definition num_text (t : string) (z : Z) : Prop :=
  exists ws sg ds, t = (ws ++ sg ++ ds)%string /\ all_chars isspace ws = true /\
    ds <> "" /\ all_chars isdigit ds = true /\
    ((sg = "" \/ sg = "+") /\ z = digits_value 0 ds \/ sg = "-" /\ z = - digits_value 0 ds).
(** [s] starts with integers [zs], each as long as possible; [rest] follows *)
Inductive int_prefix : string -> list Z -> string -> Prop :=
| ip_nil : forall s, int_prefix s [] s
| ip_cons : forall t z s zs rest, num_text t z -> starts_digit s = false ->
    int_prefix s zs rest -> int_prefix (t ++ s) (z :: zs) rest.
Definition no_int (s : string) : Prop := forall t z r, s = (t ++ r)%string -> ~ num_text t z.
(** integers separated by spaces *)
Fixpoint join (l : list Z) : string :=
  match l with
  | [] => ""
  | [z] => zdec z
  | z :: r => (zdec z ++ " " ++ join r)%string
  end.
