(** Proofs about gr1c-autman. *)
From Coq Require Import List ZArith Bool Arith Ascii String Lia.
From Verif Require Import PromelaSpec SpinSpec Spin SpinFinal.
From Verif Require Import Base Game Strs Ptree Form Support EnumProofs Solve SolveProofs FSpec RealProofs Automaton AutProofs
  SynthSpec Nonbool RSpec Main MainSpec AutIO AutIOSpec AutIOProofs ReadSpec ReadProofs HotSpec Hotswap HotLoad
  Lex LexSpec Parse Syntax FileSpec TextSpec TextProofs AutWrite Output JsonSpec JsonWrite FormatSpec WriteProofs DotProofs FormatProofs
  Options OptSpec OptProofs Program ProgramSpec ProgramProofs Autman AutmanSpec.
Import ListNotations.
Open Scope string_scope.
Open Scope list_scope.
Open Scope Z_scope.

(** ** Options *)
Definition astep (p : aopt) (o : aopts) : aopts :=
  match p with
  | AHelp | AVersion => o
  | AVerbose b => aset_verbose (if b then 2 else 1) o
  | ALog => aset_logging o
  | ASyntax => aset_run AUTMAN_SYNTAX o
  | AType f => aset_format f o
  | ASpec f => aset_spec f o
  | ALength n => aset_len n o
  | APromela => aset_run AUTMAN_VERMODEL o
  | AOutput f => aset_output f o
  | AInput f => aset_input f o
  end.
Definition asteps (l : list aopt) (o : aopts) : aopts := fold_left (fun o p => astep p o) l o.
Lemma no_int_value : forall s, no_int s -> strtol s = (0, s).
Proof.
  intros s H. destruct (strtol_cases s) as [(t & z & r & E & N & _)|[_ E]]; auto. exfalso. exact (H t z r E N).
Qed.
Lemma not_dash : forall c s, String.prefix "-" (String c s) = false -> is c "-" = false.
Proof.
  intros c s H. change (String.prefix "-" (String c s)) with (if ascii_dec "-" c then String.prefix "" s else false) in H.
  destruct (ascii_dec "-" c) as [<-|N]; [rewrite prefix_nil in H; discriminate|]. unfold is. apply Ascii.eqb_neq. congruence.
Qed.
Lemma args_writes : forall p w, awrites p w -> p <> AHelp -> p <> AVersion -> forall o rest,
  autman_args o (w ++ rest) = autman_args (astep p o) rest.
Proof.
  intros p w H H1 H2 o rest. destruct H; try congruence; try reflexivity.
  - cbn [List.app autman_args]. destruct f; cbn; rewrite ?prefix_nil; reflexivity.
  - destruct H as (t & r & -> & N & D). cbn [List.app autman_args char_at bind]. cbn [is Ascii.eqb Bool.eqb negb andb].
    rewrite (num_prefix t n r N D). cbn [fst]. rewrite to_int_ok; auto.
  - cbn [List.app autman_args char_at bind]. cbn [is Ascii.eqb Bool.eqb negb andb].
    rewrite (no_int_value _ H). reflexivity.
  - destruct f as [|c f]; [reflexivity|]. cbn [List.app autman_args char_at bind]. rewrite (not_dash _ _ H). reflexivity.
Qed.
Lemma args_lines : forall l ws, Forall2 awrites l ws -> ~ In AHelp l -> ~ In AVersion l -> forall o rest,
  autman_args o (List.concat ws ++ rest) = autman_args (asteps l o) rest.
Proof.
  induction 1 as [|p w l ws H1 H2 IH]; intros N1 N2 o rest; [reflexivity|]. cbn [List.concat]. rewrite <- app_assoc.
  rewrite (args_writes p w H1); [|intros ->; apply N1; left; auto|intros ->; apply N2; left; auto].
  cbn [asteps fold_left]. fold (asteps l (astep p o)). apply IH; [intros X; apply N1; right; auto|intros X; apply N2; right; auto].
Qed.
Lemma latest_app : forall A (f : aopt -> option A) d l p, latest f d (l ++ [p]) = match f p with Some a => a | None => latest f d l end.
Proof.
  intros A f d l p. unfold latest. rewrite flat_map_app. cbn [flat_map]. destruct (f p); cbn [List.app].
  - apply last_last.
  - rewrite app_nil_r. reflexivity.
Qed.
Definition task_of (o : aopts) : amode :=
  match ao_run o with AUTMAN_SYNTAX => CheckSyntax | AUTMAN_VERMODEL => WriteModel | AUTMAN_CONVERT => Convert (ao_format o) end.
Lemma steps_settings : forall l o, o = asteps l default_aopts ->
  task_of o = asked_task l /\ ao_spec o = named_spec l /\ ao_input o = named_input l /\ ao_output o = named_output l /\
  ao_len o = match given_length l with Some n => n | None => -1 end /\
  ((forall b, ~ In (AVerbose b) l) -> ao_verbose o = 0) /\ (~ In ALog l -> ao_logging o = false) /\
  (forall f, ao_input o = Some f -> In (AInput f) l).
Proof.
  induction l as [|p l IH] using rev_ind; intros o ->.
  { cbn. do 6 (split; [auto; reflexivity|]). split; [auto|]. intros f H; discriminate H. }
  unfold asteps. rewrite fold_left_app. cbn [fold_left]. fold (asteps l default_aopts).
  destruct (IH _ eq_refl) as (I1 & I2 & I3 & I4 & I5 & I6 & I7 & I8). set (o := asteps l default_aopts) in *.
  unfold asked_task, named_spec, named_input, named_output, given_length. rewrite !latest_app.
  fold (asked_task l) (named_spec l) (named_input l) (named_output l) (given_length l).
  assert (J6 : (forall b, ~ In (AVerbose b) (l ++ [p])) -> ao_verbose o = 0).
  { intros N. apply I6. intros b Hb. apply (N b). apply in_or_app. auto. }
  assert (J7 : ~ In ALog (l ++ [p]) -> ao_logging o = false).
  { intros N. apply I7. intros Hb. apply N. apply in_or_app. auto. }
  assert (J8 : forall f, ao_input o = Some f -> In (AInput f) (l ++ [p])) by (intros f Hf; apply in_or_app; auto).
  destruct p; cbn [astep ao_spec ao_input ao_output ao_len ao_verbose ao_logging aset_verbose aset_logging aset_run aset_format aset_spec aset_len aset_output aset_input task_of ao_run ao_format];
    repeat (match goal with |- _ /\ _ => split end); auto.
  - intros N. exfalso. apply (N twice). apply in_or_app. right. left. auto.
  - intros N. exfalso. apply N. apply in_or_app. right. left. auto.
  - intros f E. injection E as <-. apply in_or_app. right. left. auto.
Qed.
Lemma line_inputs : forall args l f, aline args l -> In (AInput f) l -> begins "-" f = false.
Proof.
  intros args l f (ws & H & _) Hi. induction H as [|p w l ws H1 H2 IH]; [destruct Hi|]. destruct Hi as [->|Hi]; auto.
  inversion H1; subst. assumption.
Qed.
Lemma args_go : forall args l, plainly args l -> exists o,
  autman_args default_aopts args = Ok (AContinue o) /\ task_of o = asked_task l /\ ao_spec o = named_spec l /\
  ao_output o = named_output l /\ ao_len o = match given_length l with Some n => n | None => -1 end /\
  negb (ao_verbose o =? 0) || ao_logging o = false /\ forall W, autman_input W o = input_of W l.
Proof.
  intros args l (H & N1 & N2 & N3 & N4). assert (HL := H). destruct H as (ws & Hw & ->).
  exists (asteps l default_aopts). destruct (steps_settings l _ eq_refl) as (S1 & S2 & S3 & S4 & S5 & S6 & S7 & S8).
  rewrite <- (app_nil_r (List.concat ws)), (args_lines l ws Hw N1 N2). split; [reflexivity|].
  do 4 (split; [assumption|]). split.
  - rewrite S6, S7 by auto. reflexivity.
  - intros W. unfold autman_input, input_of. rewrite <- S3. destruct (ao_input (asteps l default_aopts)) as [f|] eqn:E; auto.
    rewrite (line_inputs _ _ f HL); auto.
Qed.
Lemma refuses_iff : forall o l, task_of o = asked_task l -> ao_spec o = named_spec l ->
  ao_len o = match given_length l with Some n => n | None => -1 end -> (autman_refuses o = false <-> enough l).
Proof.
  intros o l H1 H2 H3. unfold autman_refuses, enough. rewrite H2, H3, <- H1. destruct (named_spec l); [split; auto; intros _; left; discriminate|].
  assert (X : (match given_length l with Some n => n | None => -1 end <? 1) = false <-> exists n, given_length l = Some n /\ 1 <= n).
  { destruct (given_length l) as [n|].
    - rewrite Z.ltb_ge. split; [intros; exists n; auto|intros (m & E & Hm); injection E as ->; auto].
    - split; [intros X; discriminate X|intros (m & E & _); discriminate E]. }
  unfold needs_spec, task_of. destruct (ao_run o).
  - rewrite X. split; [intros Y; right; split; auto; intros [Z|[Z|[Z|[Z|[]]]]]; discriminate Z|intros [Y|[_ Y]]; [congruence|auto]].
  - split; [discriminate|]. intros [Y|[Y _]]; [congruence|]. exfalso. apply Y. left. auto.
  - destruct (ao_format o).
    1, 4: rewrite X; split; [intros Y; right; split; auto; intros [Z|[Z|[Z|[Z|[]]]]]; discriminate Z|intros [Y|[_ Y]]; [congruence|auto]].
    all: split; [discriminate|]; intros [Y|[Y _]]; [congruence|]; exfalso; apply Y; cbn; auto.
Qed.

(** ** The loaded strategy *)
Lemma says_numbered : forall rows L, says rows L -> in_sequence rows ->
  (forall r t, In r rows -> In t (f_trans r) -> 0 <= t) ->
  exists A, of_loaded L = Ok A /\ NoDup (map aid A) /\ numbered A rows.
Proof.
  intros rows L (HL & Hnd & H) Hseq Hpos.
  assert (K : forall i y, nth_error L i = Some y -> exists r, nth_error rows i = Some r /\ l_init y = Some (f_init r) /\
    l_state y = f_state r /\ l_mode y = f_mode r /\ l_rgrad y = f_rgrad r /\
    Forall2 (fun t b => exists y', nth_error L (Z.to_nat t) = Some y' /\ l_addr y' = b) (f_trans r) (l_trans y)).
  { intros i y Hy. destruct (H i y Hy) as (r & Hr & Ei & R). exists r. split; auto.
    apply In_nth_error in Hr. destruct Hr as [j Hj]. rewrite (Hseq j r Hj) in Ei. replace i with j by lia. auto. }
  set (mk := fun y => Automaton.Node (l_addr y) (match l_init y with Some b => b | None => false end) (l_state y) (l_mode y) (l_rgrad y) (l_trans y)).
  assert (E : forall L', (forall y, In y L' -> l_init y <> None) -> of_loaded L' = Ok (map mk L')).
  { induction L' as [|y L' IH]; intros Hi; [reflexivity|]. cbn [of_loaded map]. unfold mk at 1. destruct (l_init y) eqn:Ey.
    - rewrite IH; [reflexivity|]. intros z Hz. apply Hi. right; auto.
    - exfalso. apply (Hi y); auto. left; auto. }
  exists (map mk L). split.
  { apply E. intros y Hy. apply In_nth_error in Hy. destruct Hy as [i Hi]. destruct (K i y Hi) as (r & _ & X & _). congruence. }
  split; [rewrite map_map; exact Hnd|]. split; [rewrite map_length; auto|].
  intros i x r Hx Hr. rewrite nth_error_map in Hx. destruct (nth_error L i) as [y|] eqn:Ey; [|discriminate Hx]. injection Hx as <-.
  destruct (K i y Ey) as (r' & Hr' & K1 & K2 & K3 & K4 & K5). assert (r' = r) by congruence. subst r'.
  split; [apply Hseq; auto|]. unfold mk. cbn. rewrite K1. do 4 (split; [auto|]).
  assert (Hp : forall t, In t (f_trans r) -> 0 <= t) by (intros t; apply Hpos; eapply nth_error_In; eauto). clear - K5 Hp.
  revert Hp. induction K5 as [|t b l l' (y' & H1 & H2) _ IH]; intros Hp; constructor.
  - exists (Automaton.Node (l_addr y') (match l_init y' with Some b => b | None => false end) (l_state y') (l_mode y') (l_rgrad y') (l_trans y')).
    rewrite nth_error_map, H1. cbn. split; auto. split; auto. apply Hp. left; auto.
  - apply IH. intros u Hu. apply Hp. right. auto.
Qed.
Lemma numbered_closed : forall A rows, numbered A rows -> closed_aut A.
Proof.
  intros A rows [HL H] x Hx t Ht. apply In_nth_error in Hx. destruct Hx as [i Hi].
  destruct (nth_error rows i) as [r|] eqn:Er.
  - destruct (H i x r Hi Er) as (_ & _ & _ & _ & _ & F). clear - F Ht. induction F as [|a k l l' (y & H1 & H2 & _) _ IH]; [destruct Ht|].
    destruct Ht as [<-|Ht]; auto. rewrite <- H2. apply in_map. eapply nth_error_In; eauto.
  - apply nth_error_None in Er. assert (i < List.length A)%nat by (apply nth_error_Some; congruence). lia.
Qed.
Lemma numbered_fit : forall A rows n, numbered A rows -> (forall r, In r rows -> List.length (f_state r) = n) -> states_fit n A.
Proof.
  intros A rows n [HL H] Hs x Hx. apply In_nth_error in Hx. destruct Hx as [i Hi].
  destruct (nth_error rows i) as [r|] eqn:Er.
  - destruct (H i x r Hi Er) as (_ & E & _). rewrite <- E. apply Hs. eapply nth_error_In; eauto.
  - apply nth_error_None in Er. assert (i < List.length A)%nat by (apply nth_error_Some; congruence). lia.
Qed.
(** what is read from a strategy file *)
Lemma file_loads : forall n text rows, strategy_file n text rows -> exists L A,
  aut_aut_loadver n text = Ok (Some (L, 1)) /\ of_loaded L = Ok A /\ NoDup (map aid A) /\ numbered A rows /\
  closed_aut A /\ states_fit (Z.to_nat n) A.
Proof.
  intros n text rows (pre & ls & HG & -> & -> & HS). destruct (load_in_order n pre ls HG HS) as (L & EL & HL).
  destruct HG as (Hn & _ & _ & _ & _ & Hr & _).
  destruct (says_numbered _ _ HL HS) as (A & EA & Hnd & HA).
  { intros r t H1 H2. destruct (Hr r H1) as (_ & _ & _ & _ & _ & X). apply X in H2. lia. }
  exists L, A. do 4 (split; [assumption|]). split; [eapply numbered_closed; eauto|].
  eapply numbered_fit; eauto. intros r H1. destruct (Hr r H1) as (_ & X & _). lia.
Qed.
(** two copies of a strategy *)
Lemma numbered_relabel : forall A B rows, NoDup (ids A) -> NoDup (ids B) -> numbered A rows -> numbered B rows ->
  exists f, B = map (relabel f) A /\ forall a b, In a (ids A) -> In b (ids A) -> f a = f b -> a = b.
Proof.
  intros A B rows HA HB [LA NA] [LB NB].
  set (f := fun a => match find (fun p => (aid (fst p) =? a)%nat) (List.combine A B) with Some p => aid (snd p) | None => 0%nat end).
  assert (Hf : forall i x y, nth_error A i = Some x -> nth_error B i = Some y -> f (aid x) = aid y).
  { intros i x y Hx Hy. unfold f. destruct (find _ _) as [(x', y')|] eqn:Ef.
    - apply find_some in Ef. destruct Ef as (Hin & E). apply Nat.eqb_eq in E. cbn in E.
      destruct (combine_pos _ _ _ _ _ _ Hin) as (j & Hx' & Hy').
      assert (i = j) by (eapply (nodup_pos _ aid A); eauto). subst j. cbn. congruence.
    - exfalso. pose proof (find_none _ _ Ef _ (combine_nth _ _ _ _ _ _ _ Hx Hy)) as K. cbn in K. rewrite Nat.eqb_refl in K. discriminate. }
  exists f. split.
  - apply (nth_ext _ _ (Automaton.Node 0 false [] 0 0 []) (Automaton.Node 0 false [] 0 0 [])); [rewrite map_length; congruence|].
    intros i Hi. destruct (nth_error B i) as [y|] eqn:Ey; [|apply nth_error_None in Ey; lia].
    destruct (nth_error A i) as [x|] eqn:Ex; [|apply nth_error_None in Ex; lia].
    destruct (nth_error rows i) as [r|] eqn:Er; [|apply nth_error_None in Er; lia].
    rewrite (nth_error_nth _ _ _ Ey). erewrite nth_error_nth; [|rewrite nth_error_map, Ex; reflexivity].
    destruct (NA i x r Ex Er) as (_ & A1 & A2 & A3 & A4 & A5). destruct (NB i y r Ey Er) as (_ & B1 & B2 & B3 & B4 & B5).
    unfold relabel. rewrite (Hf i x y Ex Ey). destruct y as [ia ii is im ir it]. cbn in *.
    f_equal; try congruence. clear - A5 B5 Hf. revert it B5. induction A5 as [|t k l l' (x' & X1 & X2 & _) _ IH]; intros it B5; inversion B5; subst; [reflexivity|].
    cbn. destruct H2 as (y & Y1 & Y2 & _). rewrite (Hf _ _ _ X1 Y1), Y2. f_equal. auto.
  - intros a b Ha Hb E. apply in_map_iff in Ha. destruct Ha as (x & <- & Hx). apply in_map_iff in Hb. destruct Hb as (y & <- & Hy).
    apply In_nth_error in Hx. destruct Hx as (i & Hi). apply In_nth_error in Hy. destruct Hy as (j & Hj).
    destruct (nth_error B i) as [x'|] eqn:Bi.
    2: { apply nth_error_None in Bi. assert (i < List.length A)%nat by (apply nth_error_Some; congruence). lia. }
    destruct (nth_error B j) as [y'|] eqn:Bj.
    2: { apply nth_error_None in Bj. assert (j < List.length A)%nat by (apply nth_error_Some; congruence). lia. }
    rewrite (Hf _ _ _ Hi Bi), (Hf _ _ _ Hj Bj) in E.
    assert (i = j) by (eapply (nodup_pos _ aid B); eauto). subst j. congruence.
Qed.

(** ** Runs *)
Definition dot_result (f : dot_flags) E S A rows : closed_aut A -> states_fit (List.length (E ++ S)) A -> NoDup (map aid A) -> numbered A rows ->
  exists text c, dot_aut_dump f A (vlist E) (vlist S) = Ok (text, c) /\
    ((forall r, In r rows -> dot_short (style_of f) E S r) -> text = dot_file (dot_statements (style_of f) E S rows)).
Proof.
  intros HC HF Hnd HA. destruct (dot_shape f E S A HC HF) as (rows' & H1 & H2 & H3).
  assert (rows' = rows) by (eapply numbered_unique; eauto). subst rows'.
  destruct (forallb (fun r => Z.of_nat (String.length (in_quotes (dot_id (style_of f) E S r))) <? 4096) rows) eqn:X.
  - assert (Y : forall r, In r rows -> dot_short (style_of f) E S r).
    { rewrite forallb_forall in X. intros r Hr. specialize (X r Hr). apply Z.ltb_lt in X. exact X. }
    eexists _, 0. split; [exact (H2 Y)|]. auto.
  - assert (Y : exists r, In r rows /\ ~ dot_short (style_of f) E S r).
    { clear - X. induction rows as [|r rows IH]; cbn [forallb] in X; [discriminate X|]. apply andb_false_iff in X. destruct X as [X|X].
      - exists r. split; [left; auto|]. unfold dot_short. apply Z.ltb_ge in X. lia.
      - destruct (IH X) as (r' & H1 & H2). exists r'. split; [right|]; auto. }
    destruct (H3 Y) as (text & H4). exists text, (-1). split; [exact H4|]. intros Z. exfalso.
    destruct Y as (r & Y1 & Y2). apply Y2, Z, Y1.
Qed.
Section Run.
  Variables (key : nat -> string) (date : string) (W : world).
  Lemma autman_go : forall fuel args l, plainly args l -> enough l -> exists o,
    task_of o = asked_task l /\ ao_output o = named_output l /\
    autman key date fuel W args =
      (r <- read_reference W o ;;
       match r with
       | RefError c => Ok (Exits c "" None)
       | RefSpec spc n =>
           match input_of W l with
           | None => Ok (Exits (-1) "" None)
           | Some text =>
               ll <- aut_aut_loadver n text ;;
               match ll with
               | None => Ok (Exits 3 "" None)
               | Some (L, version) =>
                   t <- autman_write key date fuel o spc n L version ;;
                   match named_output l with
                   | None => Ok (Exits 0 (fst t ++ snd t)%string None)
                   | Some f => if w_writable W f then Ok (Exits 0 (fst t) (Some (f, snd t))) else Ok (Exits (-1) "" None)
                   end
               end
           end
       end) /\
    (forall f, named_spec l = Some f ->
       (w_file W f = None -> read_reference W o = Ok (RefError (-1))) /\
       (forall text R, w_file W f = Some text -> text_means text R ->
          read_reference W o = Ok (RefSpec (Some (raw_of R)) (Z.of_nat (List.length (rs_vars R))))) /\
       (forall text, w_file W f = Some text -> text_no_formula text -> (~ exists R, text_means text R) ->
          read_reference W o = Ok (RefError 2))) /\
    (named_spec l = None -> forall n, given_length l = Some n -> read_reference W o = Ok (RefSpec None n)).
  Proof.
    intros fuel args l Hp He. destruct (args_go args l Hp) as (o & Ho & H1 & H2 & H3 & H4 & H5 & H6).
    exists o. split; auto. split; auto. split.
    - unfold autman. rewrite Ho. cbn [bind]. rewrite (proj2 (refuses_iff o l H1 H2 H4) He), H5, H6, H3. reflexivity.
    - split.
      + intros f Hf. unfold read_reference. rewrite H2, Hf. split; [intros ->; reflexivity|]. split.
        * intros text R -> HR. rewrite (text_parse _ _ HR). cbn [bind raw_of r_evars r_svars]. unfold rs_vars. rewrite !JsonWrite.vlist_size, app_length. reflexivity.
        * intros text -> T1 T2. apply text_rejected in T2; auto. rewrite T2. reflexivity.
      + intros Hn n Hl. unfold read_reference. rewrite H2, Hn, H4, Hl. reflexivity.
  Qed.
  Lemma handing : forall l a b, handed W l a b (match named_output l with
      | None => Exits 0 (a ++ b)%string None
      | Some f => if w_writable W f then Exits 0 a (Some (f, b)) else Exits (-1) "" None
      end).
  Proof. intros l a b. unfold handed. destruct (named_output l) as [f|]; auto. destruct (w_writable W f); auto. Qed.
  Lemma hand_ok : forall l a b, match named_output l with
      | None => Ok (Exits 0 (a ++ b)%string None)
      | Some f => if w_writable W f then Ok (Exits 0 a (Some (f, b))) else Ok (Exits (-1) "" None)
      end = Ok (match named_output l with
      | None => Exits 0 (a ++ b)%string None
      | Some f => if w_writable W f then Exits 0 a (Some (f, b)) else Exits (-1) "" None
      end).
  Proof. intros l a b. destruct (named_output l) as [f|]; auto. destruct (w_writable W f); auto. Qed.
  Lemma aut_text : forall A rows n, states_fit n A -> closed_aut A -> NoDup (map aid A) -> numbered A rows ->
    aut_aut_dump A (Z.of_nat n) = Ok (AutIOSpec.file_text [] (map FNode rows)).
  Proof.
    intros A rows n HF HC Hnd HA. unfold aut_aut_dump, aut_aut_dumpver. change ((1 =? 0) || (1 =? 1)) with true. cbn [bind]. rewrite Nat2Z.id.
    change (1 =? 1) with true. change 0 with (Z.of_nat 0) at 1. rewrite (dump_nodes_ok A _ true A 0 HF). cbn [bind fst].
    rewrite lines_text_v1. f_equal. unfold AutIOSpec.file_text. cbn [lines_text append].
    replace rows with (rows_aut A); [reflexivity|]. apply (numbered_unique A); auto. apply rows_numbered. auto.
  Qed.
  Hypothesis Hkey : keys_ok key.
  Hypothesis Hdate : chars plain date.
  Lemma write_convert : forall fuel o fmt R L A rows, task_of o = Convert fmt ->
    (forall d, In d (rs_vars R) -> fst d <> "" /\ chars word_char (fst d) /\ domain_ok d) ->
    of_loaded L = Ok A -> NoDup (map aid A) -> numbered A rows -> closed_aut A -> states_fit (List.length (rs_vars R)) A ->
    exists text, autman_write key date fuel o (Some (raw_of R)) (Z.of_nat (List.length (rs_vars R))) L 1 = Ok ("", text) /\
      conveys key date fmt (rs_evars R) (rs_svars R) rows text.
  Proof.
    intros fuel o fmt R L A rows Ht Hn HL Hnd HA HC HF.
    assert (Hx : good_names (rs_evars R ++ rs_svars R)).
    { intros d Hi. destruct (Hn d Hi) as (X1 & X2 & _). split; auto. eapply chars_imp; [apply word_name|auto]. }
    unfold task_of in Ht. unfold autman_write. destruct (ao_run o); try discriminate Ht. injection Ht as <-. rewrite HL. cbn [bind].
    destruct (ao_format o); cbn [raw_of r_evars r_svars conveys].
    - destruct (list_shape A _ HF HC) as (rows' & H1 & H2). rewrite H2. assert (rows' = rows) by (eapply numbered_unique; eauto). subst.
      eexists. split; reflexivity.
    - destruct (tulip_shape _ _ A Hx HF HC) as (text & rows' & H1 & H2 & H3). rewrite H1. assert (rows' = rows) by (eapply numbered_unique; eauto). subst.
      eexists. split; [reflexivity|]. exact H3.
    - destruct (dot_result (DotFlags false false true) _ _ A rows HC HF Hnd HA) as (text & c & H1 & H2). rewrite H1. eexists. split; [reflexivity|]. exact H2.
    - rewrite (aut_text A rows _ HF HC Hnd HA). eexists. split; reflexivity.
    - assert (HP : printable (rs_evars R) (rs_svars R) A).
      { split; [|exact HF]. intros d Hi. destruct (Hx d Hi) as [_ X]. eapply chars_imp; [apply name_plain|exact X]. }
      destruct (json_written key date _ _ A Hkey Hdate HP) as (text & H1 & H2). rewrite H1. cbn [bind fst]. eexists. split; [reflexivity|]. eauto.
  Qed.
  Lemma converts : forall fuel args l fmt file stext R text rows, plainly args l -> asked_task l = Convert fmt ->
    named_spec l = Some file -> w_file W file = Some stext -> text_means stext R ->
    input_of W l = Some text -> strategy_file (Z.of_nat (List.length (rs_vars R))) text rows ->
    exists t r, conveys key date fmt (rs_evars R) (rs_svars R) rows t /\ handed W l "" t r /\ autman key date fuel W args = Ok r.
  Proof.
    intros fuel args l fmt file stext R text rows Hp Ht Hs Hf HR Hi HS.
    destruct (autman_go fuel args l Hp) as (o & O1 & O2 & O3 & O4 & _); [left; congruence|].
    destruct (O4 file Hs) as (_ & O5 & _). rewrite O3, (O5 _ _ Hf HR), Hi. cbn [bind].
    destruct (file_loads _ _ _ HS) as (L & A & E1 & E2 & E3 & E4 & E5 & E6). rewrite E1. cbn [bind]. rewrite Nat2Z.id in E6.
    rewrite Ht in O1.
    destruct (write_convert fuel o fmt R L A rows O1 (text_decls _ _ HR) E2 E3 E4 E5 E6) as (t & T1 & T2). rewrite T1. cbn [bind fst snd].
    exists t. eexists. split; [exact T2|]. split; [apply handing|]. apply hand_ok.
  Qed.
  Lemma converts_plain : forall fuel args l fmt n text rows, plainly args l -> asked_task l = Convert fmt ->
    In fmt [FORMAT_TEXT; FORMAT_AUT] -> named_spec l = None -> given_length l = Some n ->
    input_of W l = Some text -> strategy_file n text rows ->
    exists t r, conveys key date fmt [] [] rows t /\ handed W l "" t r /\ autman key date fuel W args = Ok r.
  Proof.
    intros fuel args l fmt n text rows Hp Ht Hm Hs Hl Hi HS.
    assert (Hn : 1 <= n) by (destruct HS as (pre & ls & HG & _); apply HG).
    destruct (autman_go fuel args l Hp) as (o & O1 & O2 & O3 & _ & O4).
    { right. split; [|eauto]. rewrite Ht. unfold needs_spec. cbn. destruct Hm as [<-|[<-|[]]]; intuition discriminate. }
    rewrite O3, (O4 Hs n Hl), Hi. cbn [bind]. destruct (file_loads _ _ _ HS) as (L & A & E1 & E2 & E3 & E4 & E5 & E6). rewrite E1. cbn [bind].
    rewrite Ht in O1. unfold task_of in O1. unfold autman_write. destruct (ao_run o); try discriminate O1. injection O1 as O1. rewrite O1, E2. cbn [bind].
    replace n with (Z.of_nat (Z.to_nat n)) by lia.
    destruct Hm as [<-|[<-|[]]]; cbn [conveys].
    - destruct (list_shape A _ E6 E5) as (rows' & H1 & H2). rewrite H2. assert (rows' = rows) by (eapply numbered_unique; eauto). subst. cbn [bind fst snd].
      eexists. eexists. split; [reflexivity|]. split; [apply handing|]. apply hand_ok.
    - rewrite (aut_text A rows _ E6 E5 E3 E4). cbn [bind fst snd]. eexists. eexists. split; [reflexivity|]. split; [apply handing|]. apply hand_ok.
  Qed.
  Lemma told_go : forall fuel args l n, plainly args l -> asked_task l = CheckSyntax -> told W l n ->
    exists o, task_of o = CheckSyntax /\ autman key date fuel W args =
      match input_of W l with
      | None => Ok (Exits (-1) "" None)
      | Some text =>
          ll <- aut_aut_loadver n text ;;
          match ll with
          | None => Ok (Exits 3 "" None)
          | Some (L, version) =>
              match named_output l with
              | None => Ok (Exits 0 ((zdec version ++ nl) ++ "")%string None)
              | Some f => if w_writable W f then Ok (Exits 0 (zdec version ++ nl) (Some (f, ""))) else Ok (Exits (-1) "" None)
              end
          end
      end.
  Proof.
    intros fuel args l n Hp Ht Hn.
    assert (He : enough l).
    { unfold enough, told in *. destruct (named_spec l) as [f|]; [left; discriminate|]. right. destruct Hn as [H1 H2]. split; [|eauto].
      rewrite Ht. unfold needs_spec. cbn. intuition discriminate. }
    destruct (autman_go fuel args l Hp He) as (o & O1 & O2 & O3 & O4 & O5). exists o. rewrite Ht in O1. split; auto. rewrite O3.
    assert (E : exists spc, read_reference W o = Ok (RefSpec spc n)).
    { unfold told in Hn. destruct (named_spec l) as [f|]; [|destruct Hn; eauto]. destruct Hn as (text & R & H1 & H2 & ->).
      destruct (O4 f eq_refl) as (_ & X & _). eauto. }
    destruct E as [spc E]. rewrite E. cbn [bind]. destruct (input_of W l) as [text|]; auto.
    destruct (aut_aut_loadver n text) as [[[L v]|]| |]; cbn [bind]; auto.
    unfold task_of in O1. unfold autman_write. destruct (ao_run o); try discriminate O1. reflexivity.
  Qed.
  Lemma checks : forall fuel args l n text, plainly args l -> asked_task l = CheckSyntax -> told W l n ->
    input_of W l = Some text ->
    (forall rows, strategy_file n text rows -> exists r, handed W l ("1" ++ nl) "" r /\ autman key date fuel W args = Ok r) /\
    (forall (v1 : bool) A, AutIOSpec.writable n A -> aut_aut_dumpver A n (if v1 then 1 else 0) = Ok (text, 0) -> short_lines text ->
       exists r, handed W l ((if v1 then "1" else "0") ++ nl) "" r /\ autman key date fuel W args = Ok r).
  Proof.
    intros fuel args l n text Hp Ht Hn Hi. destruct (told_go fuel args l n Hp Ht Hn) as (o & _ & E). rewrite E, Hi. split.
    - intros rows HS. destruct (file_loads _ _ _ HS) as (L & A & E1 & _). rewrite E1. cbn [bind].
      change (zdec 1) with "1". rewrite hand_ok. eexists. split; [apply handing|reflexivity].
    - intros v1 A Hw Hd Hs. destruct (dump_load v1 n A Hw) as (text' & D & HL). rewrite D in Hd. injection Hd as ->.
      destruct (HL Hs) as (L & EL & _). rewrite EL. cbn [bind].
      replace (zdec (if v1 then 1 else 0)) with (if v1 then "1" else "0") by (destruct v1; reflexivity). rewrite hand_ok.
      eexists. split; [apply handing|reflexivity].
  Qed.
End Run.
