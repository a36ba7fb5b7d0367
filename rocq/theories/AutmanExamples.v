(** Examples for gr1c-autman. *)
From Coq Require Import List ZArith Bool Arith Ascii String Lia.
From Verif Require Import PromelaSpec SpinSpec Spin SpinFinal SpinExamples.
From Verif Require Import Base Game Strs Ptree Form Solve FSpec Automaton AutProofs SynthSpec Nonbool RSpec AutIO AutIOSpec AutIOProofs ReadSpec ReadProofs HotSpec
  Lex LexSpec Parse Syntax FileSpec TextSpec TextProofs JsonSpec FormatSpec Output Options OptSpec Program Autman AutmanSpec.
Import ListNotations.
Open Scope string_scope.
Open Scope list_scope.
Open Scope Z_scope.

(** a lamp that is always on *)
Definition on_spec : rspec := {|
  rs_evars := [("x", -1)]; rs_svars := [("y", -1)]; rs_einit := None; rs_sinit := Some (FVar "y");
  rs_etrans := []; rs_strans := [FImp (FVar "x") (FNext "y")]; rs_egoals := []; rs_sgoals := [FVar "y"]
|}.
Definition on_text : string :=
"ENV: x;
SYS: y;
SYSINIT: y;
SYSTRANS: [](x -> y');
SYSGOAL: []<>y;
".
Definition on_file : string :=
"# the lamp is always on

1
0 0 1 1 0 1 0 1
# with x
1 1 1 0 0 1 0 1
".
Definition on_rows : list frow := [FRow 0 [0; 1] true 0 1 [0; 1]; FRow 1 [1; 1] false 0 1 [0; 1]].
Definition on_aut : aut := [Automaton.Node 5 true [0; 1] 0 1 [5; 8]%nat; Automaton.Node 8 false [1; 1] 0 1 [5; 8]%nat].
Definition on_world : world :=
  World (fun f => if String.eqb f "on.spc" then Some on_text else if String.eqb f "on.aut" then Some on_file else None) on_file
    (fun f => String.eqb f "on.pml").
Lemma on_means : text_means on_text on_spec.
Proof.
  apply means_by_parse.
  - intros ys H. apply text_symbols_iff in H. destruct H as (ts & H & <-). assert (E : exists l, yylex on_text = Ok l /\ no_formula (symbols l)) by (eexists; split; [vm_compute; reflexivity|reflexivity]).
    destruct E as (l & E & Hl). rewrite E in H. injection H as <-. exact Hl.
  - vm_compute. reflexivity.
Qed.
Lemma on_strategy : strategy_file 2 on_file on_rows.
Proof.
  exists [FComment " the lamp is always on"; FBlank], [FNode (FRow 0 [0; 1] true 0 1 [0; 1]); FComment " with x"; FNode (FRow 1 [1; 1] false 0 1 [0; 1])].
  split; [|split; [vm_compute; reflexivity|]; split; [reflexivity|]].
  - unfold good_file. split; [lia|]. split; [reflexivity|]. split; [discriminate|]. split; [cbn; lia|].
    split; [intros s H; cbn in H; repeat (destruct H as [H|H]; [try discriminate H; injection H as <-; reflexivity|]); destruct H|]. split.
    + intros r H. cbn in H. repeat (destruct H as [<-|H]; [unfold good_row, ints, int_ok; cbn; repeat split; try lia; try (intros; intuition lia)|]); destruct H.
    + intros a l b H _. apply (f_equal String.length) in H. rewrite !length_app in H. vm_compute String.length in H at 1. cbn in H. lia.
  - intros i r H. do 2 (destruct i as [|i]; [injection H as <-; reflexivity|]). destruct i; discriminate H.
Qed.
Lemma on_numbered : numbered on_aut on_rows.
Proof.
  split; [reflexivity|]. intros i x r Hx Hr.
  do 2 (destruct i as [|i]; [injection Hx as <-; injection Hr as <-; cbn; repeat split;
    (constructor; [eexists; split; [reflexivity|]; split; [reflexivity|lia]|]; constructor; [eexists; split; [reflexivity|]; split; [reflexivity|lia]|constructor])|]).
  destruct i; discriminate Hx.
Qed.
Lemma on_typed : well_typed on_spec.
Proof.
  assert (S : forall p, uses (rs_vars on_spec) p (FVar "y")).
  { intros p. split; intros y Hy; destruct p; cbn in Hy; try contradiction. destruct Hy as [<-|[]]. right. left. reflexivity. }
  assert (ST : state_typed on_spec (FVar "y")) by (split; [apply S|split; reflexivity]).
  split; [intros x d [E|[E|[]]]; injection E as <- <-; lia|]. split; [split; [exact I|exact ST]|].
  split; [intros f []|]. split.
  { intros f [<-|[]]. split; split; intros y Hy; cbn in Hy; try contradiction; destruct Hy as [<-|[]]; [left|right; left]; reflexivity. }
  split; [intros f []|]. split; [intros f [<-|[]]; exact ST|].
  split; [split; [exact I|intros x _; reflexivity]|]. intros f Hf x _. cbn in Hf.
  destruct Hf as [<-|[<-|[]]]; reflexivity.
Qed.
Lemma on_names : spin_names on_spec.
Proof.
  constructor.
  - intros x [<-|[<-|[]]]; apply pname_dec; reflexivity.
  - cbn. repeat constructor; cbn; intuition discriminate.
  - intros x Hx. cbn in Hx. cbn. intuition (subst; discriminate).
Qed.
Lemma on_correct : correct (fspec_of on_spec) on_aut.
Proof.
  constructor.
  - cbn. repeat constructor; cbn; intuition discriminate.
  - intros x t [<-|[<-|[]]] [<-|[<-|[]]];
      first [exists (Automaton.Node 5 true [0; 1] 0 1 [5; 8]%nat); split; [left|]; reflexivity|exists (Automaton.Node 8 false [1; 1] 0 1 [5; 8]%nat); split; [right; left|]; reflexivity].
  - intros x [<-|[<-|[]]]; cbn; auto 6.
  - intros x y [<-|[<-|[]]] [<-|[<-|[]]] _; split; reflexivity.
  - intros x e Hx [He _]. assert (X : e = [0] \/ e = [1]) by (cbn in He; intuition). clear He.
    destruct Hx as [<-|[<-|[]]], X as [->| ->];
      first [exists (Automaton.Node 5 true [0; 1] 0 1 [5; 8]%nat); split; [left; reflexivity|]; split; [cbn; auto|reflexivity]
            |exists (Automaton.Node 8 false [1; 1] 0 1 [5; 8]%nat); split; [right; left; reflexivity|]; split; [cbn; auto|reflexivity]].
  - intros p Hp _ _ g [<-|[]] t. exists t. split; auto. destruct (Hp t) as [[<-|[<-|[]]] _]; reflexivity.
Qed.
Lemma on_starts : starts_well on_spec on_aut.
Proof. intros x [<-|[<-|[]]] _ _; reflexivity. Qed.
Lemma on_passive : env_passive on_spec on_aut.
Proof. intros E. discriminate E. Qed.

Definition on_key (a : nat) : string := zdec (Z.of_nat a).
Definition convert_args : list string := ["-i"; "on.spc"; "-t"; "txt"; "on.aut"].
Definition convert_opts : list aopt := [ASpec "on.spc"; AType FORMAT_TEXT; AInput "on.aut"].
Definition plain_args : list string := ["-L"; " 2"; "-t"; "autx"].
Definition plain_opts : list aopt := [ALength 2; AType FORMAT_AUT].
Definition model_args : list string := ["-P"; "on.aut"; "-o"; "on.pml"; "-i"; "on.spc"].
Definition model_opts : list aopt := [APromela; AInput "on.aut"; AOutput "on.pml"; ASpec "on.spc"].
Lemma plain_ok : forall args l ws, Forall2 awrites l ws -> args = List.concat ws ->
  (forallb (fun o => match o with AHelp | AVersion | ALog | AVerbose _ => false | _ => true end) l = true) -> plainly args l.
Proof.
  intros args l ws H1 H2 H3. rewrite forallb_forall in H3. split; [exists ws; auto|].
  split; [intros X; discriminate (H3 _ X)|]. split; [intros X; discriminate (H3 _ X)|]. split; [intros X; discriminate (H3 _ X)|]. intros b X; discriminate (H3 _ X).
Qed.
Lemma convert_line : plainly convert_args convert_opts.
Proof.
  apply (plain_ok _ _ [["-i"; "on.spc"]; ["-t"; "txt"]; ["on.aut"]]); [|reflexivity|reflexivity].
  constructor; [constructor|]. constructor; [apply (aw_t FORMAT_TEXT "")|]. constructor; [|constructor]. constructor. reflexivity.
Qed.
Lemma plain_line : plainly plain_args plain_opts.
Proof.
  apply (plain_ok _ _ [["-L"; " 2"]; ["-t"; "autx"]]); [|reflexivity|reflexivity].
  constructor; [|constructor; [apply (aw_t FORMAT_AUT "x")|constructor]].
  apply aw_L; [|unfold int_ok; lia]. exists " 2", "". split; [reflexivity|]. split; [|reflexivity]. apply (zdec_text " " 2). reflexivity.
Qed.
Lemma model_line : plainly model_args model_opts.
Proof.
  apply (plain_ok _ _ [["-P"]; ["on.aut"]; ["-o"; "on.pml"]; ["-i"; "on.spc"]]); [|reflexivity|reflexivity].
  constructor; [constructor|]. constructor; [constructor; reflexivity|]. constructor; [constructor|]. constructor; constructor.
Qed.
Lemma autman_instance : text_means on_text on_spec /\ strategy_file 2 on_file on_rows /\ numbered on_aut on_rows /\
  well_typed on_spec /\ spin_names on_spec /\ correct (fspec_of on_spec) on_aut /\ starts_well on_spec on_aut /\ env_passive on_spec on_aut /\
  (plainly convert_args convert_opts /\ asked_task convert_opts = Convert FORMAT_TEXT /\ named_spec convert_opts = Some "on.spc" /\
   input_of on_world convert_opts = Some on_file /\
   autman on_key "now" 9 on_world convert_args = Ok (Exits 0
"   0 (init) : 0,1 -  0 -  1 - [ 0 1]
   1 : 1,1 -  0 -  1 - [ 0 1]
" None)) /\
  (plainly plain_args plain_opts /\ asked_task plain_opts = Convert FORMAT_AUT /\ named_spec plain_opts = None /\ given_length plain_opts = Some 2 /\
   input_of on_world plain_opts = Some on_file /\
   autman on_key "now" 9 on_world plain_args = Ok (Exits 0
"1
0 0 1 1 0 1 0 1
1 1 1 0 0 1 0 1
" None)) /\
  (plainly model_args model_opts /\ asked_task model_opts = WriteModel /\ named_spec model_opts = Some "on.spc" /\
   exists t, autman on_key "now" 9 on_world model_args = Ok (Exits 0 
"([] (!checketrans || envtrans)) -> (X sysinit && [] (!checkstrans || systrans) && []<> sysgoal0000 && [] !pmlfault)
" (Some ("on.pml", t)))).
Proof.
  split; [exact on_means|]. split; [exact on_strategy|]. split; [exact on_numbered|]. split; [exact on_typed|]. split; [exact on_names|].
  split; [exact on_correct|]. split; [exact on_starts|]. split; [exact on_passive|]. split; [|split].
  - split; [exact convert_line|]. do 3 (split; [reflexivity|]). vm_compute. reflexivity.
  - split; [exact plain_line|]. do 4 (split; [reflexivity|]). vm_compute. reflexivity.
  - split; [exact model_line|]. do 2 (split; [reflexivity|]). eexists. vm_compute. reflexivity.
Qed.
(** checking the syntax; errors *)
Lemma autman_other :
  autman on_key "now" 9 on_world ["-L"; "2"; "on.aut"] = Ok (Exits 0 ("1" ++ nl) None) /\
  autman on_key "now" 9 on_world ["-t"; "json"; "-L"; "2"; "on.aut"] = Ok (Prints 1 Nothing) /\
  autman on_key "now" 9 on_world ["-P"; "-L"; "2"; "on.aut"] = Ok (Prints 1 Nothing) /\
  autman on_key "now" 9 on_world ["-i"; "on"; "on.aut"] = Ok (Exits (-1) "" None) /\
  autman on_key "now" 9 on_world ["-i"; "on.aut"; "on.aut"] = Ok (Exits 2 "" None) /\
  autman on_key "now" 9 on_world ["-o"; "x"; "-i"; "on.spc"] = Ok (Exits (-1) "" None) /\
  autman on_key "now" 9 on_world ["-L"; "3"; "-h"; "-x"] = Ok (Prints 0 Usage).
Proof. repeat split; vm_compute; reflexivity. Qed.
(** the usage message *)
Lemma autman_usage : exists (W : world) text, w_stdin W = text /\
  autman on_key "now" 9 (World (w_file W) "# no nodes" (w_writable W)) ["-s"; "-L"; "2"] = Ok (Exits 3 "" None) /\
  autman on_key "now" 9 W ["-L"; "2"] = Ok (Exits 0 ("1" ++ TextSpec.nl)%string None) /\
  autman on_key "now" 9 W ["-L"; "2"; "-"] = Crash /\
  autman on_key "now" 9 (World (w_file W) (text ++ "x")%string (w_writable W)) ["-L"; "2"] = Crash.
Proof. exists on_world, on_file. repeat split; vm_compute; reflexivity. Qed.
