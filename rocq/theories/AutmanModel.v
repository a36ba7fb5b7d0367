(** Proofs about gr1c-autman: verification models, errors, and command lines in general. *)
From Coq Require Import List ZArith Bool Arith Ascii String Lia.
From Verif Require Import PromelaSpec SpinSpec Spin SpinFinal.
From Verif Require Import Base Game Strs Ptree Form Support EnumProofs Solve SolveProofs FSpec RealProofs Automaton AutProofs
  SynthSpec Nonbool RSpec Main MainSpec AutIO AutIOSpec AutIOProofs ReadSpec ReadProofs HotSpec Hotswap HotLoad
  Lex LexSpec Parse Syntax FileSpec TextSpec TextProofs AutWrite Output JsonSpec JsonWrite FormatSpec WriteProofs DotProofs FormatProofs
  Options OptSpec OptProofs Program ProgramSpec ProgramProofs Autman AutmanSpec AutmanProofs.
Import ListNotations.
Open Scope string_scope.
Open Scope list_scope.
Open Scope Z_scope.

(** ** Copies of a strategy *)
Lemma copy_path : forall f A p, from_start A p -> from_start (map (relabel f) A) (fun t => relabel f (p t)).
Proof.
  intros f A p [H1 H2]. split; [|exact H2]. intros t. destruct (H1 t) as [H3 H4]. split; [apply in_map; auto|].
  cbn. apply in_map. auto.
Qed.
Lemma copy_formed : forall R A B rows, NoDup (ids B) -> numbered A rows -> numbered B rows -> formed R A -> formed R B.
Proof.
  intros R A B rows HB NA NB FA. constructor; auto.
  - intros x t Hx Ht. apply (numbered_closed _ _ NB x Hx) in Ht. apply in_map_iff in Ht. destruct Ht as (y & E & Hy). eauto.
  - intros x Hx. apply In_nth_error in Hx. destruct Hx as [i Hi]. destruct NA as [LA NA]. destruct NB as [LB NB].
    destruct (nth_error rows i) as [r|] eqn:Er; [|apply nth_error_None in Er; assert (i < List.length B)%nat by (apply nth_error_Some; congruence); lia].
    destruct (nth_error A i) as [y|] eqn:Ey; [|apply nth_error_None in Ey; assert (i < List.length B)%nat by (apply nth_error_Some; congruence); lia].
    destruct (NB i x r Hi Er) as (_ & E1 & _). destruct (NA i y r Ey Er) as (_ & E2 & _). rewrite <- E1, E2.
    apply (fm_states _ _ FA). eapply nth_error_In; eauto.
Qed.
Lemma copy_answered : forall R f A x, (forall a b, In a (ids A) -> In b (ids A) -> f a = f b -> a = b) -> closed A ->
  In x A -> answered R A x -> answered R (map (relabel f) A) (relabel f x).
Proof.
  intros R f A x Hf Hc Hx H e He Hl. destruct (H e He Hl) as (y & Hy & Ht & E). exists (relabel f y). split; [apply in_map; auto|].
  split; auto. cbn. apply in_map. exact Ht.
Qed.

Section Model.
  Variables (key : nat -> string) (date : string).
  Lemma write_model : forall R, well_typed R -> spin_names R -> exists N, forall fuel, (N <= fuel)%nat ->
    forall W args l file stext text rows A, plainly args l -> asked_task l = WriteModel ->
    named_spec l = Some file -> w_file W file = Some stext -> text_means stext R ->
    input_of W l = Some text -> strategy_file (Z.of_nat (List.length (rs_vars R))) text rows ->
    numbered A rows -> formed R A ->
    exists t formula P defs f r, spin_model t formula P defs f /\
      handed W l (match named_output l with None => "" | Some _ => formula ++ nl end) t r /\
      autman key date fuel W args = Ok r /\
      ((forall p, from_start A p -> assumed R p -> SpinSpec.asked R p) -> (forall x, In x A -> answered R A x) -> obeys P defs f) /\
      (obeys P defs f -> forall p, from_start A p -> assumed R p -> SpinSpec.asked R p).
  Proof.
    intros R Ht Hn. destruct (SpinFinal.written R Ht Hn) as [N HN]. exists N.
    intros fuel Hl W args l file stext text rows A Hp Hm Hs Hf HR Hi HS NA FA.
    destruct (autman_go key date W fuel args l Hp) as (o & O1 & O2 & O3 & O4 & _); [left; congruence|].
    destruct (O4 file Hs) as (_ & O5 & _). rewrite O3, (O5 _ _ Hf HR), Hi. cbn [bind].
    destruct (file_loads _ _ _ HS) as (L & B & E1 & E2 & E3 & E4 & E5 & E6). rewrite E1. cbn [bind]. rewrite Hm in O1.
    assert (FB : formed R B) by (eapply (copy_formed R A B); eauto).
    destruct (HN fuel Hl B (match ao_output o with None => true | Some _ => false end) FB) as (t & fo & P & d & f & H1 & H2 & H3 & H4).
    assert (EW : autman_write key date fuel o (Some (raw_of R)) (Z.of_nat (List.length (rs_vars R))) L 1 =
      Ok (match named_output l with None => "" | Some _ => (fo ++ nl)%string end, t)).
    { unfold task_of in O1. unfold autman_write. destruct (ao_run o); try discriminate O1. rewrite E2. cbn [bind raw_of r_evars r_svars r_einit r_sinit r_etrans r_strans r_egoals r_sgoals].
      rewrite H2. cbn [bind fst snd]. rewrite O2. destruct (named_output l); reflexivity. }
    rewrite EW. cbn [bind fst snd]. exists t, fo, P, d, f. eexists. split; [exact H1|]. split; [apply handing|]. split; [apply hand_ok|].
    destruct (numbered_relabel A B rows (fm_ids _ _ FA) E3 NA E4) as (g & -> & Hg).
    destruct (numbered_relabel (map (relabel g) A) A rows E3 (fm_ids _ _ FA) E4 NA) as (h & EA & Hh).
    split.
    - intros G1 G2. apply H3.
      + intros p Hfp Ha. apply (copy_path h) in Hfp. rewrite <- EA in Hfp. exact (G1 _ Hfp Ha).
      + intros x Hx. apply in_map_iff in Hx. destruct Hx as (y & <- & Hy). apply copy_answered; auto.
        intros z u Hz Hu. apply (numbered_closed _ _ NA z Hz). exact Hu.
    - intros Ho p Hfp Ha. exact (H4 Ho _ (copy_path g _ _ Hfp) Ha).
  Qed.
  Lemma model_correct : forall R, well_typed R -> spin_names R -> exists N, forall fuel, (N <= fuel)%nat ->
    forall W args l file stext text rows A, plainly args l -> asked_task l = WriteModel ->
    named_spec l = Some file -> w_file W file = Some stext -> text_means stext R ->
    input_of W l = Some text -> strategy_file (Z.of_nat (List.length (rs_vars R))) text rows ->
    numbered A rows -> correct (fspec_of R) A -> starts_well R A -> env_passive R A ->
    exists t formula P defs f r, spin_model t formula P defs f /\ obeys P defs f /\
      handed W l (match named_output l with None => "" | Some _ => formula ++ nl end) t r /\
      autman key date fuel W args = Ok r.
  Proof.
    intros R Ht Hn. destruct (write_model R Ht Hn) as [N HN]. exists N.
    intros fuel Hl W args l file stext text rows A Hp Hm Hs Hf HR Hi HS NA C G1 G2.
    destruct (HN fuel Hl W args l file stext text rows A Hp Hm Hs Hf HR Hi HS NA (correct_formed R A C)) as (t & fo & P & d & f & r & H1 & H2 & H3 & H4 & _).
    destruct (correct_good R A C G1 G2) as [G3 G4]. exists t, fo, P, d, f, r. auto.
  Qed.

  (** ** Files of gr1c *)
  Lemma gr1c_file : forall R A text, implements R A -> describes key date FORMAT_AUT R A text ->
    AutIOSpec.writable (Z.of_nat (List.length (rs_vars R))) A -> short_lines text ->
    correct (fspec_of R) A /\ exists rows, numbered A rows /\ strategy_file (Z.of_nat (List.length (rs_vars R))) text rows.
  Proof.
    intros R A text HI (rows & HA & ->) Hw Hs. split; [constructor; apply HI|]. exists rows. split; auto.
    exists [], (map FNode rows). rewrite rows_of_nodes. split; [|split; [reflexivity|]; split; [reflexivity|]].
    - destruct Hw as (W1 & W2 & W3 & W4 & W5). unfold good_file. rewrite rows_of_nodes. destruct HA as [HL HA].
      split; auto. split; auto. split; [destruct rows; [destruct A; [congruence|discriminate HL]|discriminate]|].
      split; [rewrite HL; auto|]. split.
      { intros s Hin. cbn in Hin. apply in_map_iff in Hin. destruct Hin as (r & E & _). discriminate E. }
      split; [|exact Hs]. intros r Hr. apply In_nth_error in Hr. destruct Hr as [i Hi].
      destruct (nth_error A i) as [x|] eqn:Ex.
      2: { apply nth_error_None in Ex. assert (i < List.length rows)%nat by (apply nth_error_Some; congruence). lia. }
      destruct (HA i x r Ex Hi) as (A1 & A2 & A3 & A4 & A5 & A6). destruct (W5 x (nth_error_In _ _ Ex)) as (X1 & X2 & X3 & X4 & X5).
      assert (i < List.length A)%nat by (apply nth_error_Some; congruence).
      unfold good_row. rewrite A1, A2, A4, A5, HL. split; [unfold int_ok; lia|]. do 4 (split; [assumption|]).
      clear - A6. intros t Ht. induction A6 as [|a k l l' (y & H1 & _ & H2) _ IH]; [destruct Ht|]. destruct Ht as [<-|Ht]; auto.
      assert (Z.to_nat k < List.length A)%nat by (apply nth_error_Some; congruence). lia.
    - intros i r Hi. destruct HA as [HL HA]. destruct (nth_error A i) as [x|] eqn:Ex.
      2: { apply nth_error_None in Ex. assert (i < List.length rows)%nat by (apply nth_error_Some; congruence). lia. }
      apply (HA i x r Ex Hi).
  Qed.

  (** ** Errors *)
  Lemma refused : forall fuel W args l, plainly args l -> ~ enough l -> autman key date fuel W args = Ok (Prints 1 Nothing).
  Proof.
    intros fuel W args l Hp He. destruct (args_go args l Hp) as (o & Ho & H1 & H2 & H3 & H4 & H5 & H6).
    unfold autman. rewrite Ho. cbn [bind]. destruct (autman_refuses o) eqn:E; auto. exfalso. apply He. apply (refuses_iff o l); auto.
  Qed.
  Lemma no_reference : forall fuel W args l file, plainly args l -> named_spec l = Some file ->
    (w_file W file = None -> autman key date fuel W args = Ok (Exits (-1) "" None)) /\
    (forall text, w_file W file = Some text -> text_no_formula text -> (~ exists R, text_means text R) ->
       autman key date fuel W args = Ok (Exits 2 "" None)).
  Proof.
    intros fuel W args l file Hp Hs. destruct (autman_go key date W fuel args l Hp) as (o & O1 & O2 & O3 & O4 & _); [left; congruence|].
    destruct (O4 file Hs) as (O5 & _ & O6). split.
    - intros Hf. rewrite O3, O5; auto.
    - intros text Hf T1 T2. rewrite O3, (O6 text); auto.
  Qed.
  Lemma told_reference : forall fuel W args l n, plainly args l -> enough l -> told W l n -> exists o spc, task_of o = asked_task l /\
    autman key date fuel W args =
           match input_of W l with
           | None => Ok (Exits (-1) "" None)
           | Some text =>
               ll <- aut_aut_loadver n text ;;
               match ll with
               | None => Ok (Exits 3 "" None)
               | Some (L, version) =>
                   t <- autman_write key date fuel o spc n L version ;;
                   match named_output l with
                   | None => Ok (Exits 0 (fst t ++ snd t)%string None)
                   | Some f => if w_writable W f then Ok (Exits 0 (fst t) (Some (f, snd t))) else Ok (Exits (-1) "" None)
                   end
               end
           end.
  Proof.
    intros fuel W args l n Hp He Hn. destruct (autman_go key date W fuel args l Hp He) as (o & O1 & O2 & O3 & O4 & O5). exists o.
    assert (E : exists spc, read_reference W o = Ok (RefSpec spc n)).
    { unfold told in Hn. destruct (named_spec l) as [f|]; [|destruct Hn; eauto]. destruct Hn as (text & R & H1 & H2 & ->).
      destruct (O4 f eq_refl) as (_ & X & _). eauto. }
    destruct E as [spc E]. exists spc. split; auto. rewrite O3, E. reflexivity.
  Qed.
  Lemma no_input : forall fuel W args l n, plainly args l -> enough l -> told W l n ->
    input_of W l = None -> autman key date fuel W args = Ok (Exits (-1) "" None).
  Proof. intros fuel W args l n Hp He Hn Hi. destruct (told_reference fuel W args l n Hp He Hn) as (o & spc & _ & E). rewrite E, Hi. reflexivity. Qed.
  (** a file without nodes *)
  Lemma empty_load : forall n pre ls, comments_ok (pre ++ ls) -> rows_of (pre ++ ls) = [] -> short_lines (AutIOSpec.file_text pre ls) ->
    aut_aut_loadver n (AutIOSpec.file_text pre ls) = Ok None.
  Proof.
    intros n pre ls Hc Hr Hs. unfold aut_aut_loadver. destruct (n <? 1); auto.
    assert (R : rows_of pre = [] /\ rows_of ls = []).
    { clear - Hr. induction pre as [|[] pre IH]; cbn in *; auto. discriminate Hr. }
    destruct R as [R1 R2]. unfold AutIOSpec.file_text in *.
    pose proof (load_rows true (Z.to_nat n) pre ls Hc R1) as E. rewrite lines_text_v1 in E. cbn iota in E. change (zdec 1) with "1" in E.
    rewrite E; auto; [rewrite R2; reflexivity|]. intros r X. rewrite R2 in X. destruct X.
  Qed.
  Lemma no_nodes : forall fuel W args l n pre ls, plainly args l -> enough l -> told W l n ->
    comments_ok (pre ++ ls) -> rows_of (pre ++ ls) = [] -> short_lines (AutIOSpec.file_text pre ls) ->
    input_of W l = Some (AutIOSpec.file_text pre ls) -> autman key date fuel W args = Ok (Exits 3 "" None).
  Proof.
    intros fuel W args l n pre ls Hp He Hn H1 H2 H3 Hi. destruct (told_reference fuel W args l n Hp He Hn) as (o & spc & _ & E).
    rewrite E, Hi, empty_load; auto.
  Qed.
  Lemma stops : forall fuel W args rest,
    (up_to args ["-h"] rest -> autman key date fuel W args = Ok (Prints 0 Usage)) /\
    (up_to args ["-V"] rest -> autman key date fuel W args = Ok (Prints 0 (Version true))).
  Proof.
    intros fuel W args rest. split; intros (l & ws & H & N1 & N2 & ->); unfold autman; rewrite (args_lines l ws H N1 N2); reflexivity.
  Qed.

  (** ** All command lines *)
  Definition sorted_out (args : list string) (r : out ascanned) : Prop :=
    (exists l, aline args l /\ ~ In AHelp l /\ ~ In AVersion l) \/ (exists rest, up_to args ["-h"] rest) \/ (exists rest, up_to args ["-V"] rest) \/
    (exists s n rest, up_to args ["-L"; s] rest /\ says_number s n /\ ~ int_ok n) \/
    r = Ok (AReturn 1 Nothing) \/ (r = Crash /\ In "-" args).
  Lemma is_eq : forall a b, is a b = true -> a = b.
  Proof. intros a b H. apply Ascii.eqb_eq. exact H. Qed.
  Lemma sort_step : forall p w rest r, awrites p w -> p <> AHelp -> p <> AVersion -> sorted_out rest r -> sorted_out (w ++ rest) r.
  Proof.
    intros p w rest r Hw N1 N2 H.
    assert (U : forall s t, up_to rest s t -> up_to (w ++ rest) s t).
    { intros s t (l & ws & H1 & H2 & H3 & ->). exists (p :: l), (w :: ws). split; [constructor; auto|].
      split; [intros [X|X]; auto|]. split; [intros [X|X]; auto|]. cbn [List.concat]. rewrite app_assoc. reflexivity. }
    destruct H as [(l & (ws & H1 & ->) & H2 & H3)|[(t & H)|[(t & H)|[(s & n & t & H & H1)|[H|[H H1]]]]]].
    - left. exists (p :: l). split; [exists (w :: ws); split; [constructor; auto|reflexivity]|]. split; intros [X|X]; auto.
    - right. left. eauto.
    - right. right. left. eauto.
    - right. right. right. left. exists s, n, t. auto.
    - do 4 right. left. auto.
    - do 5 right. split; auto. apply in_or_app. auto.
  Qed.
  Lemma here : forall s rest, up_to (s ++ rest) s rest.
  Proof. intros s rest. exists [], []. split; [constructor|]. split; [intros []|]. split; [intros []|]. reflexivity. Qed.
  Lemma sort_args : forall k args o, (List.length args <= k)%nat -> Forall c_string args -> sorted_out args (autman_args o args).
  Proof.
    induction k as [|k IH]; intros args o Hk Hc.
    { destruct args; [|cbn in Hk; lia]. left. exists []. split; [exists []; split; constructor|]. split; intros []. }
    destruct args as [|a rest]. { left. exists []. split; [exists []; split; constructor|]. split; intros []. }
    inversion Hc as [|? ? Ha Hr]; subst. cbn [List.length] in Hk.
    assert (Q : forall p w rest' o', awrites p w -> p <> AHelp -> p <> AVersion -> (List.length rest' <= k)%nat -> Forall c_string rest' ->
      sorted_out (w ++ rest') (autman_args o' rest')) by (intros; eapply sort_step; eauto).
    assert (QR : sorted_out (a :: rest) (Ok (AReturn 1 Nothing))) by (do 4 right; left; auto).
    cbn [autman_args]. destruct a as [|c0 a].
    { cbn [char_at bind]. change (is NUL "-") with false. cbn match. apply (Q (AInput "") [""]); auto; try discriminate; try lia. constructor. reflexivity. }
    cbn [char_at bind]. destruct (is c0 "-") eqn:E0.
    2: { cbn match. apply (Q (AInput (String c0 a)) [String c0 a]); auto; try discriminate; try lia. constructor.
         change (String.prefix "-" (String c0 a)) with (if ascii_dec "-" c0 then String.prefix "" a else false).
         destruct (ascii_dec "-" c0) as [<-|]; [discriminate E0|reflexivity]. }
    apply is_eq in E0. subst c0. destruct a as [|c1 a].
    { cbn [char_at bind]. do 5 right. split; auto. left. auto. }
    destruct Ha as (_ & Hc1 & Ha). destruct a as [|c2 a].
    - cbn [char_at bind]. change (is NUL NUL) with true. cbn [negb andb].
      destruct (is c1 "h") eqn:X. { apply is_eq in X. subst. right. left. exists rest. apply (here ["-h"]). }
      clear X; destruct (is c1 "V") eqn:X. { apply is_eq in X. subst. right. right. left. exists rest. apply (here ["-V"]). }
      clear X; destruct (is c1 "v") eqn:X. { apply is_eq in X. subst. apply (Q (AVerbose false) ["-v"]); try discriminate; auto; try lia. constructor. }
      clear X; destruct (is c1 "l") eqn:X. { apply is_eq in X. subst. apply (Q ALog ["-l"]); try discriminate; auto; try lia. constructor. }
      clear X; destruct (is c1 "s") eqn:X. { apply is_eq in X. subst. apply (Q ASyntax ["-s"]); try discriminate; auto; try lia. constructor. }
      assert (Q2 : forall p b rest' o', rest = b :: rest' -> awrites p [String "-" (String c1 ""); b] -> p <> AHelp -> p <> AVersion ->
        sorted_out (String "-" (String c1 "") :: rest) (autman_args o' rest')).
      { intros p b rest' o' -> Hw N1 N2. apply (Q p [String "-" (String c1 ""); b]); auto; [cbn in Hk; lia|]. inversion Hr; auto. }
      clear X; destruct (is c1 "t") eqn:X.
      { apply is_eq in X. subst. destruct rest as [|b rest']; [exact QR|].
        destruct (begins "txt" b) eqn:B.
        { apply begins_inv in B. destruct B as (x & ->). eapply (Q2 (AType FORMAT_TEXT)); eauto; try discriminate. apply (aw_t FORMAT_TEXT). }
        clear B; destruct (begins "tulip" b) eqn:B.
        { apply begins_inv in B. destruct B as (x & ->). eapply (Q2 (AType FORMAT_TULIP)); eauto; try discriminate. apply (aw_t FORMAT_TULIP). }
        clear B; destruct (begins "dot" b) eqn:B.
        { apply begins_inv in B. destruct B as (x & ->). eapply (Q2 (AType FORMAT_DOT)); eauto; try discriminate. apply (aw_t FORMAT_DOT). }
        clear B; destruct (begins "aut" b) eqn:B.
        { apply begins_inv in B. destruct B as (x & ->). eapply (Q2 (AType FORMAT_AUT)); eauto; try discriminate. apply (aw_t FORMAT_AUT). }
        clear B; destruct (begins "json" b) eqn:B.
        { apply begins_inv in B. destruct B as (x & ->). eapply (Q2 (AType FORMAT_JSON)); eauto; try discriminate. apply (aw_t FORMAT_JSON). }
        exact QR. }
      clear X; destruct (is c1 "i") eqn:X.
      { apply is_eq in X. subst. destruct rest as [|b rest']; [exact QR|]. eapply (Q2 (ASpec b)); eauto; try discriminate. constructor. }
      clear X; destruct (is c1 "L") eqn:X.
      { apply is_eq in X. subst. destruct rest as [|b rest']; [exact QR|].
        destruct (strtol_cases b) as [(t & z & r & E & N & D & _)|[N _]].
        - assert (I : int_ok z \/ ~ int_ok z) by (unfold int_ok; lia). destruct I as [I|I].
          + eapply (Q2 (ALength z)); eauto; try discriminate. apply aw_L; auto. exists t, r. auto.
          + do 3 right. left. exists b, z, rest'. split; [apply (here ["-L"; b])|]. split; auto. exists t, r. auto.
        - eapply (Q2 (ALength 0)); eauto; try discriminate. apply aw_L0; auto. }
      clear X; destruct (is c1 "P") eqn:X. { apply is_eq in X. subst. apply (Q APromela ["-P"]); try discriminate; auto; try lia. constructor. }
      clear X; destruct (is c1 "o") eqn:X.
      { apply is_eq in X. subst. destruct rest as [|b rest']; [exact QR|]. eapply (Q2 (AOutput b)); eauto; try discriminate. constructor. }
      exact QR.
    - cbn [char_at bind]. destruct (is c2 NUL) eqn:X. { apply is_eq in X. subst. exfalso. destruct Ha as (Ha & _). congruence. }
      cbn [negb andb]. destruct (is c1 "v" && is c2 "v") eqn:Y; [|exact QR]. cbn [negb].
      apply andb_true_iff in Y. destruct Y as [Y1 Y2]. apply is_eq in Y1, Y2. subst. cbn.
      apply (Q (AVerbose true) [String "-" (String "v" (String "v" a))]); try discriminate; auto; try lia. apply (aw_vv a).
  Qed.
  Lemma all_lines : forall fuel W args, Forall c_string args ->
    (exists l, aline args l /\ ~ In AHelp l /\ ~ In AVersion l) \/ (exists rest, up_to args ["-h"] rest) \/ (exists rest, up_to args ["-V"] rest) \/
    (exists s n rest, up_to args ["-L"; s] rest /\ says_number s n /\ ~ int_ok n) \/
    autman key date fuel W args = Ok (Prints 1 Nothing) \/ (autman key date fuel W args = Crash /\ In "-" args).
  Proof.
    intros fuel W args H. destruct (sort_args _ args default_aopts (le_n _) H) as [X|[X|[X|[X|[X|[X Y]]]]]].
    - left. exact X.
    - right. left. exact X.
    - right. right. left. exact X.
    - do 3 right. left. exact X.
    - do 4 right. left. unfold autman. rewrite X. reflexivity.
    - do 5 right. split; auto. unfold autman. rewrite X. reflexivity.
  Qed.
End Model.
