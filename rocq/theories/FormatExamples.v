(** Examples for the formats: an automaton, and witnesses of what is lost. *)
From Coq Require Import List ZArith Lia Bool Ascii String.
From Verif Require Import Base Strs Ptree Form Automaton AutIOSpec AutWrite Output JsonSpec JsonProofs FormatSpec WriteProofs DotProofs
  DotInj XmlProofs FormatProofs.
Import ListNotations.
Open Scope string_scope.
Open Scope list_scope.
Open Scope Z_scope.

Definition ex_aut : aut :=
  [Automaton.Node 7 true [1; 3] 0 (-1) [12; 7]%nat; Automaton.Node 12 false [0; 2] 1 5 []].
Lemma ex_fit : states_fit 2 ex_aut.
Proof. intros x [<-|[<-|[]]]; reflexivity. Qed.
Lemma ex_closed : closed_aut ex_aut.
Proof. intros x [<-|[<-|[]]] t; cbn; intuition. Qed.
Lemma ex_names : good_names [("x", -1); ("y", 3)].
Proof. intros d [<-|[<-|[]]]; (split; [discriminate|]); cbn; unfold name_char; cbn; repeat split; lia. Qed.
Lemma ex_dot : exists rows, numbered ex_aut rows /\ good_names [("x", -1); ("y", 3)] /\
  NoDup (map fst [("x", -1); ("y", 3)]) /\
  (forall r, In r rows -> dot_short (DotStyle false false true) [("x", -1)] [("y", 3)] r) /\
  node_ids (dot_statements (DotStyle false false true) [("x", -1)] [("y", 3)] rows) =
    [("0;" ++ dot_break ++ "(0, -1)" ++ dot_break ++ "x=1, y=3")%string;
     ("1;" ++ dot_break ++ "(1, 5)" ++ dot_break ++ "x=0, y=2")%string].
Proof.
  exists (rows_aut ex_aut). split; [apply rows_numbered, ex_closed|]. split; [apply ex_names|].
  split. { repeat constructor; cbn; intuition discriminate. }
  split. { intros r [<-|[<-|[]]]; reflexivity. }
  vm_compute. reflexivity.
Qed.
Lemma ex_tulip : good_names [("x", -1); ("y", 3)] /\ (forall d, In d [("x", -1); ("y", 3)] -> domain_ok d) /\
  exists text, tulip_aut_dump ex_aut (vlist [("x", -1)]) (vlist [("y", 3)]) = Ok (text, 0) /\ String.length text = 865%nat.
Proof.
  split; [apply ex_names|]. split. { intros d [<-|[<-|[]]]; cbv; intuition discriminate. }
  eexists. split; [vm_compute; reflexivity|]. vm_compute. reflexivity.
Qed.

(** a name of 4100 letters *)
Definition long_name : string := all_of (repeat "a" (Z.to_nat 4100)).
Lemma long_good : xml_name long_name.
Proof.
  split; [discriminate|]. unfold long_name. generalize (Z.to_nat 4100). induction n as [|n IH]; [exact I|].
  cbn [repeat]. rewrite all_of_cons, chars_app. split; auto. cbn. unfold name_char. cbn. repeat split; lia.
Qed.
Lemma dot_truncated : exists E S A ptr date nonbool text,
  good_names (E ++ S) /\ NoDup (map fst (E ++ S)) /\ closed_aut A /\ states_fit (List.length (E ++ S)) A /\
  write_strategy ptr date FORMAT_DOT nonbool A (vlist E) (vlist S) = Ok text /\ forall l, text <> dot_file l.
Proof.
  exists [], [(long_name, -1)], [Automaton.Node 1 true [1] 0 0 [1%nat]], (fun _ => ""), "", false, dot_header.
  split. { intros d [<-|[]]. apply long_good. }
  split. { repeat constructor. intros []. }
  split. { intros x [<-|[]] t; cbn; auto. }
  split. { intros x [<-|[]]. reflexivity. }
  split. { vm_compute. reflexivity. }
  intros l H. unfold dot_header, dot_file in H. repeat (apply app_cancel in H).
  assert (X : String.length "" = String.length (all_of (map statement_text l) ++ "}" ++ line_end)%string).
  { rewrite <- (string_app_nil line_end) in H at 1. repeat (apply app_cancel in H). rewrite <- H. reflexivity. }
  rewrite !length_app in X. cbn in X. lia.
Qed.
Lemma tulip_loses : exists E S A A' B B' text text',
  good_names (E ++ S) /\ states_fit (List.length (E ++ S)) (A ++ A' ++ B ++ B') /\
  closed_aut A /\ closed_aut A' /\ closed_aut B /\ closed_aut B' /\
  tulip_aut_dump A (vlist E) (vlist S) = Ok (text, 0) /\ tulip_aut_dump A' (vlist E) (vlist S) = Ok (text, 0) /\
  map ainit A <> map ainit A' /\
  tulip_aut_dump B (vlist E) (vlist S) = Ok (text', 0) /\ tulip_aut_dump B' (vlist E) (vlist S) = Ok (text', 0) /\
  map amode B <> map amode B'.
Proof.
  exists [("x", -1)], [("y", 3)], [Automaton.Node 1 true [1; 3] 0 0 [1%nat]], [Automaton.Node 1 false [1; 3] 0 0 [1%nat]],
    [Automaton.Node 1 true [1; 3] 0 (-1) [1%nat]], [Automaton.Node 1 true [1; 3] 1 (-1) [1%nat]].
  eexists _, _. split; [apply ex_names|]. split. { intros x [<-|[<-|[<-|[<-|[]]]]]; reflexivity. }
  do 4 (split; [intros x [<-|[]] t; cbn; auto|]).
  split; [vm_compute; reflexivity|]. split; [vm_compute; reflexivity|]. split; [discriminate|].
  split; [vm_compute; reflexivity|]. split; [vm_compute; reflexivity|]. discriminate.
Qed.
