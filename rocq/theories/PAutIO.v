(** Properties C24 and C25: the automaton file format. *)
From Coq Require Import List ZArith Lia Bool Arith Ascii String.
From Verif Require Import Base Strs Automaton AutIO AutIOSpec AutIOProofs.
Import ListNotations.
Open Scope string_scope.
Open Scope list_scope.
Open Scope Z_scope.

(** C24 *)
Theorem C24_round_trip : forall state_len A, writable state_len A ->
  exists text, aut_aut_dump A state_len = Ok text /\
    (short_lines text -> exists L, aut_aut_load state_len text = Ok (Some L) /\
       same_aut (fun x => Some (ainit x)) A L).
Proof.
  intros n A H. destruct (dump_load true n A H) as (text & E & HL). exists text. split.
  - unfold aut_aut_dump. rewrite E. reflexivity.
  - intros Hs. destruct (HL Hs) as (L & EL & HA). exists L. split; auto.
    unfold aut_aut_load. rewrite EL. reflexivity.
Qed.
Print Assumptions C24_round_trip.
(** both format versions, with the version reported; version 0 loses the marks *)
Theorem C24_versions : forall (v1 : bool) state_len A, writable state_len A ->
  exists text, aut_aut_dumpver A state_len (if v1 then 1 else 0) = Ok (text, 0) /\
    (short_lines text -> exists L, aut_aut_loadver state_len text = Ok (Some (L, if v1 then 1 else 0)) /\
       same_aut (fun x => Some (v1 && ainit x)) A L).
Proof. exact dump_load. Qed.
Print Assumptions C24_versions.
(** without the version line the file is read as version 0 *)
Theorem C24_no_version : forall state_len A, writable state_len A ->
  exists body, aut_aut_dumpver A state_len 0 = Ok (("0" ++ nl ++ body)%string, 0) /\
    (short_lines ("0" ++ nl ++ body) ->
     aut_aut_loadver state_len body = aut_aut_loadver state_len ("0" ++ nl ++ body)).
Proof. exact dump_noversion. Qed.
Print Assumptions C24_no_version.
(** lines are short enough when no node has too many transitions *)
Theorem C24_short : forall (v1 : bool) state_len A, writable state_len A ->
  (forall x, In x A -> 12 * (state_len + Z.of_nat (List.length (atrans x)) + 4) < 4095) ->
  forall text r, aut_aut_dumpver A state_len (if v1 then 1 else 0) = Ok (text, r) -> short_lines text.
Proof. exact dump_short. Qed.
Print Assumptions C24_short.
Definition C24_aut : aut :=
  [Node 7 true [0; -3] 0 1 [9; 7]%nat; Node 9 false [1; 2] 1 (-1) [4]%nat; Node 4 false [1; 0] 0 0 [7]%nat].
Example C24_instance : writable 2 C24_aut /\
  (exists text, aut_aut_dump C24_aut 2 = Ok text /\ short_lines text /\
     text = ("1" ++ nl ++ "0 0 -3 1 0 1 1 0" ++ nl ++ "1 1 2 0 1 -1 2" ++ nl ++ "2 1 0 0 0 0 0" ++ nl)%string) /\
  exists L, aut_aut_load 2 ("1" ++ nl ++ "0 0 -3 1 0 1 1 0" ++ nl ++ "1 1 2 0 1 -1 2" ++ nl ++ "2 1 0 0 0 0 0" ++ nl) =
    Ok (Some L) /\ map l_trans L = [[1; 0]; [2]; [0]]%nat.
Proof.
  assert (W : writable 2 C24_aut).
  { unfold writable, C24_aut. split; [discriminate|]. split; [lia|]. split.
    { cbn. repeat constructor; cbn; intuition discriminate. }
    split; [cbn; lia|]. intros x [<-|[<-|[<-|[]]]]; cbn; unfold ints, int_ok; cbn.
    all: (split; [reflexivity|]; split; [intros z Hz; repeat (destruct Hz as [<-|Hz]; [lia|]); destruct Hz|];
      split; [lia|]; split; [lia|]; intros z Hz; cbn in *; intuition lia). }
  split; auto. split.
  - eexists. split; [vm_compute; reflexivity|]. split; [|vm_compute; reflexivity].
    apply (C24_short true 2 C24_aut W) with (r := 0); [|vm_compute; reflexivity].
    intros x [<-|[<-|[<-|[]]]]; cbn; lia.
  - eexists. split; [vm_compute; reflexivity|]. reflexivity.
Qed.
(** a node without transitions: the loaded automaton cannot be deleted again, the
    field [trans] of that node was never set *)
Theorem C24_delete_refuted : exists state_len A text L, writable state_len A /\
  aut_aut_dump A state_len = Ok text /\ short_lines text /\ aut_aut_load state_len text = Ok (Some L) /\
  delete_loaded L = Crash.
Proof.
  exists 1, [Node 0 true [1] 0 0 []], ("1" ++ nl ++ "0 1 1 0 0" ++ nl)%string. eexists.
  assert (W : writable 1 [Node 0 true [1] 0 0 []]).
  { unfold writable. split; [discriminate|]. split; [lia|]. split; [repeat constructor; cbn; tauto|].
    split; [cbn; lia|]. intros x [<-|[]]. cbn. split; [reflexivity|].
    split; [intros z [<-|[]]; unfold int_ok; lia|]. split; [unfold int_ok; lia|]. split; [unfold int_ok; lia|].
    intros z []. }
  split; auto. split; [vm_compute; reflexivity|]. split.
  { apply (C24_short true 1 _ W) with (r := 0); [|vm_compute; reflexivity]. intros x [<-|[]]; cbn; lia. }
  split; [vm_compute; reflexivity|]. reflexivity.
Qed.
Print Assumptions C24_delete_refuted.
(** an unsupported version is not refused; the field [initial] is then not set *)
Theorem C24_version_refuted : exists text L, aut_aut_loadver 1 text = Ok (Some (L, 2)) /\
  exists y, In y L /\ l_init y = None.
Proof.
  exists ("2" ++ nl ++ "0 1 0 0 0" ++ nl)%string. eexists. split; [vm_compute; reflexivity|].
  eexists. split; [left; reflexivity|]. reflexivity.
Qed.
Print Assumptions C24_version_refuted.
(** a malformed file is not always refused cleanly: the error path deletes nodes
    whose fields were never set *)
Theorem C24_malformed_refuted : exists text, aut_aut_load 1 text = Crash.
Proof. exists ("1" ++ nl ++ "0 1 1 0 0 0" ++ nl ++ "x" ++ nl)%string. vm_compute. reflexivity. Qed.
Print Assumptions C24_malformed_refuted.
(** the field [initial] is compared after truncation to a char *)
Theorem C24_initial_refuted : exists L, aut_aut_load 1 ("1" ++ nl ++ "0 1 257 0 0 0" ++ nl) = Ok (Some L).
Proof. eexists. vm_compute. reflexivity. Qed.
Print Assumptions C24_initial_refuted.

(** C25: comments and blank lines anywhere, node lines in the order of their IDs *)
Theorem C25_in_order_partial : forall state_len pre ls, good_file state_len pre ls ->
  (forall i r, nth_error (rows_of ls) i = Some r -> f_id r = Z.of_nat i) ->
  exists L, aut_aut_loadver state_len (file_text pre ls) = Ok (Some (L, 1)) /\ says (rows_of ls) L.
Proof. exact load_in_order. Qed.
Print Assumptions C25_in_order_partial.
(** C44: what the loader does with lines in any order *)
Theorem C44_any_order : forall state_len pre ls, good_file state_len pre ls ->
  (exists L, aut_aut_loadver state_len (file_text pre ls) = Ok (Some (L, 1)) /\ mixes (rows_of ls) L) \/
  (aut_aut_loadver state_len (file_text pre ls) = Crash /\ unreadable (rows_of ls)).
Proof. exact load_mix. Qed.
Print Assumptions C44_any_order.
(** the documented claim for lines in any order is false *)
Definition C25_swapped : list fline :=
  [FComment " swapped"; FNode (FRow 1 [1] false 0 0 [0]); FNode (FRow 0 [0] true 0 0 [1])].
Definition C25_complete (ls : list fline) : Prop :=
  forall i, (i < List.length (rows_of ls))%nat -> exists r, In r (rows_of ls) /\ f_id r = Z.of_nat i.
Lemma C25_swapped_good : good_file 1 [FBlank] C25_swapped /\ C25_complete C25_swapped.
Proof.
  split.
  - unfold good_file. split; [lia|]. split; [reflexivity|]. split; [discriminate|]. split; [cbn; lia|]. split.
    { intros s H. cbn in H. repeat (destruct H as [H|H]; [try discriminate H; injection H as <-; reflexivity|]). destruct H. }
    split.
    { intros r H. cbn in H. repeat destruct H as [<-|H]; try destruct H; unfold good_row, int_ok, ints; cbn;
        (split; [lia|]; split; [reflexivity|]; split; [intros z [<-|[]]; unfold int_ok; lia|]; split; [lia|];
         split; [lia|]; intros t [<-|[]]; lia). }
    intros a l b H _. apply (f_equal String.length) in H. rewrite !length_app in H. vm_compute String.length in H at 1.
    cbn in H. lia.
  - intros i Hi. cbn in Hi. destruct i as [|[|i]]; [| |lia]; eexists.
    + split; [right; left; reflexivity|reflexivity].
    + split; [left; reflexivity|reflexivity].
Qed.
Theorem C25_refuted : exists state_len pre ls L, good_file state_len pre ls /\ C25_complete ls /\
  aut_aut_loadver state_len (file_text pre ls) = Ok (Some (L, 1)) /\ ~ says (rows_of ls) L.
Proof.
  exists 1, [FBlank], C25_swapped. eexists. destruct C25_swapped_good as [H1 H2].
  split; [exact H1|]. split; [exact H2|]. split; [vm_compute; reflexivity|].
  intros (_ & _ & H). specialize (H O _ eq_refl). destruct H as (r & Hr & Hid & _ & _ & _ & _ & HF).
  cbn in Hr. destruct Hr as [<-|[<-|[]]]; [discriminate Hid|]. cbn in HF.
  inversion HF as [|? ? ? ? (y' & Hy & Ha) _]; subst. vm_compute in Hy. injection Hy as <-. discriminate Ha.
Qed.
Print Assumptions C25_refuted.
(** with different numbers of transitions the loader reads beyond an array *)
Theorem C25_crash_refuted : exists state_len pre ls, good_file state_len pre ls /\ C25_complete ls /\
  aut_aut_loadver state_len (file_text pre ls) = Crash.
Proof.
  exists 1, [], [FNode (FRow 1 [1] false 0 0 [0]); FNode (FRow 0 [0] true 0 0 [1; 0])].
  split; [|split; [|vm_compute; reflexivity]].
  - unfold good_file. split; [lia|]. split; [reflexivity|]. split; [discriminate|]. split; [cbn; lia|].
    split; [intros s [H|[H|[]]]; discriminate H|]. split.
    { intros r H. cbn in H. repeat destruct H as [<-|H]; try destruct H; unfold good_row, int_ok, ints; cbn;
        (split; [lia|]; split; [reflexivity|]; split; [intros z [<-|[]]; unfold int_ok; lia|]; split; [lia|];
         split; [lia|]; intros t Ht; intuition lia). }
    intros a l b H _. apply (f_equal String.length) in H. rewrite !length_app in H. vm_compute String.length in H at 1.
    cbn in H. lia.
  - intros i Hi. cbn in Hi. destruct i as [|[|i]]; [| |lia]; eexists.
    + split; [right; left; reflexivity|reflexivity].
    + split; [left; reflexivity|reflexivity].
Qed.
Print Assumptions C25_crash_refuted.
