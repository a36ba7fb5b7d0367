(** Specification of the short form of a state (patching.c:24-27): the names of the variables
    that are not 0, each after a blank. Not a model of code. *)
From Coq Require Import List ZArith Bool Ascii String.
From Verif Require Import Base.
Import ListNotations.
Open Scope string_scope.
Open Scope Z_scope.

(** the variables of [xs] that are not 0 in [s], in order *)
Definition nonzero (xs : list string) (s : vec) : list string :=
  map fst (filter (fun p => negb (snd p =? 0)) (List.combine xs s)).
Definition short_form (xs : list string) (s : vec) : string :=
  match nonzero xs s with
  | [] => " (nil)"
  | l => String.concat "" (map (fun x => " " ++ x) l)
  end.
(** names that the texts can be told apart by *)
Fixpoint blank_free (x : string) : Prop := match x with "" => True | String c r => c <> " "%char /\ blank_free r end.
Definition words (xs : list string) : Prop := NoDup xs /\ forall x, In x xs -> blank_free x /\ x <> "(nil)".
