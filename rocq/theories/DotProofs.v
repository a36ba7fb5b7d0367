(** Proofs: the DOT writer. *)
From Coq Require Import List ZArith Lia Bool Arith Ascii String.
From Verif Require Import Base Strs Ptree Form FSpec Automaton AutIO AutIOSpec AutIOProofs AutWrite JsonSpec JsonProofs JsonWrite
  FormatSpec WriteProofs.
Import ListNotations.
Open Scope string_scope.
Open Scope list_scope.
Open Scope Z_scope.
Local Notation combine := List.combine (only parsing).

Definition style_of (f : dot_flags) : dot_style := DotStyle (DOT_AUT_BINARY f) (DOT_AUT_EDGEINPUT f) (DOT_AUT_ATTRIB f).

(** ** What is shown of some variables *)
Definition entry (f : dot_flags) (p : vdecl * Z) : string :=
  if DOT_AUT_BINARY f then fst (fst p) else (fst (fst p) ++ "=" ++ zdec (snd p))%string.
Definition kept (f : dot_flags) (p : vdecl * Z) : bool := negb (DOT_AUT_BINARY f && (snd p =? 0)).
Lemma filter_all : forall A (p : A -> bool) l, (forall x, In x l -> p x = true) -> filter p l = l.
Proof. induction l; cbn; intros H; auto. rewrite H, IHl; auto. Qed.
Lemma shown_eq : forall f (vars : list vdecl) (vals : vec), shown (style_of f) vars vals = map (entry f) (filter (kept f) (combine vars vals)).
Proof.
  intros f vars vals. unfold shown, entry, kept. cbn [style_of dot_binary]. destruct (DOT_AUT_BINARY f); cbn [andb]; auto.
  rewrite (filter_all _ (fun _ => negb false)); auto.
Qed.
(** [last] is the last position of a kept entry, -1 if there is none *)
Definition last_kept (f : dot_flags) (l : list (vdecl * Z)) (last : Z) : Prop :=
  (last = -1 /\ forall p, In p l -> kept f p = false) \/
  (exists a p b, l = a ++ p :: b /\ last = Z.of_nat (List.length a) /\ kept f p = true /\ forall x, In x b -> kept f x = false).
Lemma last_none : forall f l last, last_kept f l last -> (last <? 0) = match filter (kept f) l with [] => true | _ => false end.
Proof.
  intros f l last [[-> H]|(a & p & b & -> & -> & Hp & Hb)].
  - assert (filter (kept f) l = []) as ->; auto. clear -H. induction l; cbn in *; auto. rewrite (H a) by auto. auto.
  - rewrite (proj2 (Z.ltb_ge _ _)) by lia. rewrite filter_app. cbn. rewrite Hp.
    destruct (filter (kept f) a); reflexivity.
Qed.
Definition tailed (k : list string) (tail : string) : string :=
  match k with [] => "" | _ => (between ", " k ++ tail)%string end.
Definition entry_at (f : dot_flags) (last : Z) (tail : string) (i : nat) (p : vdecl * Z) : string :=
  if kept f p then (entry f p ++ (if (Z.of_nat i =? last)%Z then tail else ", "))%string else "".
Fixpoint entries_from (f : dot_flags) (last : Z) (tail : string) (i : nat) (l : list (vdecl * Z)) : string :=
  match l with [] => "" | p :: r => (entry_at f last tail i p ++ entries_from f last tail (S i) r)%string end.
Lemma entries_none : forall f last tail l i, (forall p, In p l -> kept f p = false) -> entries_from f last tail i l = "".
Proof.
  induction l as [|p l IH]; intros i H; [reflexivity|]. cbn [entries_from]. unfold entry_at. rewrite H by (cbn; auto).
  rewrite IH; auto. intros. apply H. cbn. auto.
Qed.
Lemma entries_some : forall f tail p b a i, kept f p = true -> (forall x, In x b -> kept f x = false) ->
  entries_from f (Z.of_nat (i + List.length a)) tail i (a ++ p :: b) =
  (between ", " (map (entry f) (filter (kept f) (a ++ p :: b))) ++ tail)%string.
Proof.
  intros f tail p b a i Hp Hb. revert i. induction a as [|x a IH]; intros i.
  - cbn [List.app entries_from filter List.length]. rewrite Hp. unfold entry_at. rewrite Hp.
    rewrite (proj2 (Z.eqb_eq _ _)) by lia. rewrite entries_none by auto. rewrite string_app_nil.
    assert (filter (kept f) b = []) as ->; [|reflexivity]. clear -Hb. induction b; cbn in *; auto. rewrite (Hb a) by auto. auto.
  - cbn [List.app entries_from filter List.length]. replace (i + S (List.length a))%nat with (S i + List.length a)%nat by lia.
    rewrite IH. unfold entry_at. rewrite (proj2 (Z.eqb_neq _ _)) by lia. destruct (kept f x); [|reflexivity].
    cbn [map]. assert (exists y l, map (entry f) (filter (kept f) (a ++ p :: b)) = y :: l) as (y & l & ->).
    { rewrite filter_app. cbn. rewrite Hp. destruct (filter (kept f) a); cbn; eauto. }
    rewrite between_cons, !string_app_assoc. reflexivity.
Qed.
Lemma entries_text : forall f last tail l, last_kept f l last ->
  entries_from f last tail 0 l =
  match filter (kept f) l with [] => "" | k => (between ", " (map (entry f) k) ++ tail)%string end.
Proof.
  intros f last tail l [[-> H]|(a & p & b & -> & -> & Hp & Hb)].
  - rewrite entries_none by auto. assert (filter (kept f) l = []) as ->; auto.
    clear -H. induction l; cbn in *; auto. rewrite (H a) by auto. auto.
  - change (Z.of_nat (List.length a)) with (Z.of_nat (0 + List.length a)). rewrite (entries_some f tail p b a 0 Hp Hb). destruct (filter (kept f) (a ++ p :: b)) eqn:E; [|reflexivity].
    rewrite filter_app in E. cbn in E. rewrite Hp in E. destruct (filter (kept f) a); discriminate.
Qed.

(** ** The loops of the code *)
(** the values of the variables are found at [offset] *)
Definition part (st : vec) (offset : nat) (vars : list vdecl) (vals : vec) : Prop :=
  List.length vals = List.length vars /\ forall i z, nth_error vals i = Some z -> nth_error st (offset + i) = Some z.
Lemma nth_combine : forall A B (l : list A) (k : list B) i p, nth_error (combine l k) i = Some p ->
  nth_error l i = Some (fst p) /\ nth_error k i = Some (snd p).
Proof.
  induction l as [|x l IH]; intros [|y k] [|i] p H; try discriminate; cbn in *.
  - injection H as <-. auto.
  - apply IH. auto.
Qed.
Lemma edge_entry_eq : forall f vars vals st offset last tail i p, part st offset vars vals ->
  nth_error (combine vars vals) i = Some p ->
  edge_entry f (vlist vars) st offset last tail i = Ok (entry_at f last tail i p).
Proof.
  intros f vars vals st offset last tail i p [Hl Hv] Hp. apply nth_combine in Hp. destruct Hp as [H1 H2].
  unfold edge_entry, at_state, entry_at, kept, entry. rewrite (Hv _ _ H2). cbn [bind].
  destruct (DOT_AUT_BINARY f && (snd p =? 0)); cbn [negb]; [reflexivity|].
  destruct (item_name_vlist vars i (fst p) H1) as [-> _]. cbn [bind].
  destruct (Z.of_nat i =? last), (DOT_AUT_BINARY f); rewrite ?string_app_assoc; reflexivity.
Qed.
Lemma edge_loop : forall f vars vals st offset last tail, part st offset vars vals ->
  forall l i, (forall j p, nth_error l j = Some p -> nth_error (combine vars vals) (i + j) = Some p) ->
  exists ts, map_out (edge_entry f (vlist vars) st offset last tail) (seq i (List.length l)) = Ok ts /\
    cat ts = entries_from f last tail i l.
Proof.
  intros f vars vals st offset last tail HP. induction l as [|p l IH]; intros i H.
  - exists []. split; reflexivity.
  - cbn [List.length seq map_out]. rewrite (edge_entry_eq f vars vals st offset last tail i p); auto.
    2:{ rewrite <- (Nat.add_0_r i). apply H. reflexivity. }
    cbn [bind]. destruct (IH (S i)) as (ts & E1 & E2).
    { intros j x Hx. replace (S i + j)%nat with (i + S j)%nat by lia. apply H. exact Hx. }
    rewrite E1. cbn [bind]. eexists. split; [reflexivity|]. cbn [cat fold_right entries_from]. rewrite <- E2. reflexivity.
Qed.
Lemma combine_same : forall A B (l : list A) (k : list B), List.length k = List.length l -> List.length (combine l k) = List.length l.
Proof. intros. rewrite combine_length. lia. Qed.
Lemma edge_print : forall f vars vals st offset last tail, part st offset vars vals ->
  last_kept f (combine vars vals) last ->
  for_print (tree_size (vlist vars)) (edge_entry f (vlist vars) st offset last tail) =
  Ok (tailed (shown (style_of f) vars vals) tail).
Proof.
  intros f vars vals st offset last tail HP Hk. unfold for_print.
  destruct (edge_loop f vars vals st offset last tail HP (combine vars vals) 0) as (ts & E1 & E2); auto.
  rewrite vlist_size. rewrite combine_same in E1 by apply HP. rewrite E1. cbn [bind]. rewrite E2, entries_text by auto.
  rewrite shown_eq. destruct (filter (kept f) (combine vars vals)); reflexivity.
Qed.

(** ** The buffer *)
Definition lim (s : string) : option string := if input_string_len <=? Z.of_nat (String.length s) then None else Some s.
Lemma snp_lim : forall a b, snp_if (lim a) b = lim (a ++ b).
Proof.
  intros a b. unfold lim. destruct (Z.leb_spec input_string_len (Z.of_nat (String.length a))).
  - rewrite (proj2 (Z.leb_le _ _)); [reflexivity|]. rewrite length_app. lia.
  - reflexivity.
Qed.
Lemma snp_empty : forall b, snp "" b = lim b.
Proof. reflexivity. Qed.
Lemma lim_none : forall a b, lim a = None -> lim (a ++ b) = None.
Proof.
  intros a b. unfold lim. destruct (Z.leb_spec input_string_len (Z.of_nat (String.length a))); [|discriminate].
  intros _. rewrite (proj2 (Z.leb_le _ _)); [reflexivity|]. rewrite length_app. lia.
Qed.
Lemma buf_entry_eq : forall f vars vals st offset last tail i p b, part st offset vars vals ->
  nth_error (combine vars vals) i = Some p ->
  buf_entry f (vlist vars) st offset last tail i (lim b) = Ok (lim (b ++ entry_at f last tail i p)).
Proof.
  intros f vars vals st offset last tail i p b [Hl Hv] Hp. apply nth_combine in Hp. destruct Hp as [H1 H2].
  unfold buf_entry, at_state, entry_at, kept, entry. rewrite (Hv _ _ H2). cbn [bind].
  destruct (DOT_AUT_BINARY f && (snd p =? 0)); cbn [negb]; [rewrite string_app_nil; reflexivity|].
  destruct (item_name_vlist vars i (fst p) H1) as [-> _]. cbn [bind].
  destruct (Z.of_nat i =? last), (DOT_AUT_BINARY f); rewrite ?snp_lim, ?string_app_assoc; auto;
    destruct (String.eqb_spec tail ""); subst; rewrite ?string_app_nil, ?string_app_assoc; reflexivity.
Qed.
Lemma buf_loop : forall f vars vals st offset last tail, part st offset vars vals ->
  forall l i b, (forall j p, nth_error l j = Some p -> nth_error (combine vars vals) (i + j) = Some p) ->
  snp_loop (buf_entry f (vlist vars) st offset last tail) i (List.length l) (lim b) =
  Ok (lim (b ++ entries_from f last tail i l)).
Proof.
  intros f vars vals st offset last tail HP. induction l as [|p l IH]; intros i b H.
  - cbn. rewrite string_app_nil. reflexivity.
  - cbn [List.length snp_loop]. destruct (lim b) as [b'|] eqn:E.
    + rewrite <- E. rewrite (buf_entry_eq f vars vals st offset last tail i p b); auto.
      2:{ rewrite <- (Nat.add_0_r i). apply H. reflexivity. }
      cbn [bind]. rewrite IH.
      * cbn [entries_from]. rewrite string_app_assoc. reflexivity.
      * intros j x Hx. replace (S i + j)%nat with (i + S j)%nat by lia. apply H. exact Hx.
    + rewrite lim_none by auto. reflexivity.
Qed.
Lemma buf_print : forall f vars vals st offset last tail b, part st offset vars vals ->
  last_kept f (combine vars vals) last ->
  snp_loop (buf_entry f (vlist vars) st offset last tail) 0 (tree_size (vlist vars)) (lim b) =
  Ok (lim (b ++ tailed (shown (style_of f) vars vals) tail)).
Proof.
  intros f vars vals st offset last tail b HP Hk.
  assert (H := buf_loop f vars vals st offset last tail HP (combine vars vals) 0 b ltac:(auto)).
  rewrite vlist_size. rewrite combine_same in H by apply HP. rewrite H. rewrite entries_text by auto.
  rewrite shown_eq. destruct (filter (kept f) (combine vars vals)); reflexivity.
Qed.

(** ** The last entry *)
Lemma last_nonzero_kept : forall f vars vals st offset, DOT_AUT_BINARY f = true -> part st offset vars vals ->
  exists last, last_nonzero st offset (List.length vars) = Ok last /\ last_kept f (combine vars vals) last.
Proof.
  intros f vars vals st offset Hb [Hl Hv].
  assert (K : forall n, (n <= List.length vars)%nat -> exists last, last_nonzero st offset n = Ok last /\
    last_kept f (firstn n (combine vars vals)) last).
  { induction n as [|n IH]; intros Hn.
    - exists (-1). split; auto. left. split; auto. intros p [].
    - destruct (nth_error (combine vars vals) n) as [p|] eqn:Ep.
      2:{ apply nth_error_None in Ep. rewrite combine_same in Ep by auto. lia. }
      destruct (nth_combine _ _ _ _ _ _ Ep) as [_ H2]. cbn [last_nonzero]. unfold at_state. rewrite (Hv _ _ H2). cbn [bind].
      assert (F : firstn (S n) (combine vars vals) = firstn n (combine vars vals) ++ [p]).
      { clear -Ep. revert n Ep. induction (combine vars vals) as [|x l IH]; intros [|n] Ep; try discriminate; cbn in *.
        - congruence.
        - rewrite <- IH by auto. reflexivity. }
      rewrite F. destruct (snd p =? 0) eqn:Ez.
      + destruct IH as (last & H1 & H3); [lia|]. exists last. split; auto.
        assert (Hk : kept f p = false) by (unfold kept; rewrite Hb, Ez; reflexivity).
        destruct H3 as [[-> H3]|(a & x & b & E & Hlast & Hx & Hb')].
        * left. split; auto. intros x Hx. apply in_app_or in Hx. destruct Hx as [Hx|[<-|[]]]; auto.
        * right. exists a, x, (b ++ [p]). rewrite E. split; [rewrite <- app_assoc; reflexivity|]. repeat split; auto.
          intros y Hy. apply in_app_or in Hy. destruct Hy as [Hy|[<-|[]]]; auto.
      + exists (Z.of_nat n). split; auto. right. exists (firstn n (combine vars vals)), p, []. repeat split; auto.
        * rewrite firstn_length, combine_same by auto. rewrite Nat.min_l by lia. reflexivity.
        * unfold kept. rewrite Ez, andb_false_r. reflexivity.
        * intros x []. }
  destruct (K (List.length vars)) as (last & H1 & H2); auto. exists last. split; auto.
  rewrite firstn_all2 in H2; auto. rewrite combine_same; auto.
Qed.
Lemma last_all_kept : forall f (l : list (vdecl * Z)), DOT_AUT_BINARY f = false -> last_kept f l (Z.of_nat (List.length l) - 1).
Proof.
  intros f l Hb. assert (K : forall p, kept f p = true) by (intros; unfold kept; rewrite Hb; reflexivity).
  destruct l as [|p l] using rev_ind; [left; split; [reflexivity|intros p []]|].
  right. exists l, p, []. repeat split; auto; [rewrite app_length; cbn; lia|intros x []].
Qed.

(** ** Nodes and edges *)
Definition nullb {A} (l : list A) : bool := match l with [] => true | _ => false end.
Lemma between_app : forall sep a b, a <> [] -> b <> [] -> between sep (a ++ b) = (between sep a ++ sep ++ between sep b)%string.
Proof.
  intros sep a b Ha Hb. induction a as [|x a IH]; [congruence|]. destruct a as [|y a].
  - destruct b; [congruence|reflexivity].
  - change ((x :: y :: a) ++ b) with (x :: (y :: a ++ b)). rewrite !between_cons, !string_app_assoc.
    change (y :: a ++ b) with ((y :: a) ++ b). rewrite IH by discriminate. reflexivity.
Qed.
Definition env_text (edge : bool) (e s : list string) : string :=
  if edge then "" else match e with [] => "" | _ => (between ", " e ++ (if negb (nullb s) then ", " else ""))%string end.
Definition sys_text (edge : bool) (s : list string) : string :=
  if nullb s && edge then "{}" else match s with [] => "" | _ => between ", " s end.
Lemma body_text : forall edge e s, (if nullb e && nullb s then "{}" else (env_text edge e s ++ sys_text edge s)%string) =
  braces_if_none ((if edge then [] else e) ++ s).
Proof.
  intros edge e s. unfold env_text, sys_text. destruct edge, e as [|x e], s as [|y s]; try reflexivity.
  - cbn [nullb andb negb]. rewrite !string_app_nil, app_nil_r. reflexivity.
  - cbn [nullb andb negb]. unfold braces_if_none. change ((x :: e) ++ y :: s) with (x :: (e ++ y :: s)) at 1.
    cbv iota. rewrite between_app by discriminate. rewrite string_app_assoc. reflexivity.
Qed.
Lemma part_env : forall st (E S : list vdecl), List.length st = List.length (E ++ S) ->
  part st 0 E (firstn (List.length E) st).
Proof.
  intros st E S H. rewrite app_length in H. split; [rewrite firstn_length; lia|].
  intros i z Hz. cbn. rewrite <- Hz. symmetry. clear H. revert i z Hz. generalize (List.length E). induction st as [|x st IH]; intros [|n] [|i] z Hz;
    try discriminate; auto. cbn in *. eapply IH; eauto.
Qed.
Lemma nth_skipn : forall A n (l : list A) i, nth_error (skipn n l) i = nth_error l (n + i).
Proof. induction n; intros [|x l] i; auto. - destruct i; reflexivity. - apply IHn. Qed.
Lemma part_sys : forall st (E S : list vdecl), List.length st = List.length (E ++ S) ->
  part st (List.length E) S (skipn (List.length E) st).
Proof.
  intros st E S H. rewrite app_length in H. split; [rewrite skipn_length; lia|].
  intros i z Hz. rewrite nth_skipn in Hz. exact Hz.
Qed.
Lemma last_any : forall f vars vals st offset, part st offset vars vals ->
  exists last, (if DOT_AUT_BINARY f then last_nonzero st offset (List.length vars) else Ok (Z.of_nat (List.length vars) - 1)) = Ok last /\
    last_kept f (combine vars vals) last.
Proof.
  intros f vars vals st offset HP. destruct (DOT_AUT_BINARY f) eqn:E.
  - eapply last_nonzero_kept; eauto.
  - eexists. split; [reflexivity|]. rewrite <- (combine_same _ _ vars vals) by apply HP. apply last_all_kept. auto.
Qed.
Lemma last_null : forall f vars vals last, last_kept f (combine vars vals) last ->
  (last <? 0) = nullb (shown (style_of f) vars vals).
Proof. intros f vars vals last H. rewrite (last_none _ _ _ H), shown_eq. destruct (filter (kept f) (combine vars vals)); reflexivity. Qed.
Lemma last_null' : forall f vars vals last, last_kept f (combine vars vals) last ->
  (0 <=? last) = negb (nullb (shown (style_of f) vars vals)).
Proof. intros. rewrite <- (last_null f vars vals last) by auto. rewrite Z.leb_antisym. reflexivity. Qed.

Lemma node_str_eq : forall f E S A x c, List.length (astate x) = List.length (E ++ S) ->
  node_str f (vlist E) (vlist S) (Z.of_nat c) x =
  Ok (lim (in_quotes (dot_id (style_of f) E S
     (FRow (Z.of_nat c) (astate x) (ainit x) (amode x) (argrad x) (map (anode_index A) (atrans x)))))).
Proof.
  intros f E S A x c Hl. unfold node_str, last_env, last_sys.
  assert (PE := part_env _ E S Hl). assert (PS := part_sys _ E S Hl).
  destruct (last_any f _ _ _ _ PE) as (le & Ele & Hle). destruct (last_any f _ _ _ _ PS) as (ls & Els & Hls).
  rewrite !vlist_size. rewrite Ele, Els. cbn [bind].
  rewrite (last_null f _ _ _ Hle), (last_null f _ _ _ Hls), (last_null' f _ _ _ Hls).
  unfold flag_all. rewrite orb_false_r.
  set (e := shown (style_of f) E (firstn (List.length E) (astate x))).
  set (s := shown (style_of f) S (skipn (List.length E) (astate x))).
  assert (B1 : (if DOT_AUT_ATTRIB f
     then snp_if (snp "" (q ++ zdec (Z.of_nat c) ++ ";" ++ bs ++ "n")) ("(" ++ zdec (amode x) ++ ", " ++ zdec (argrad x) ++ ")" ++ bs ++ "n")
     else snp "" (q ++ zdec (Z.of_nat c) ++ ";" ++ bs ++ "n")) =
     lim (q ++ zdec (Z.of_nat c) ++ ";" ++ bs ++ "n" ++ (if DOT_AUT_ATTRIB f then "(" ++ zdec (amode x) ++ ", " ++ zdec (argrad x) ++ ")" ++ bs ++ "n" else ""))%string).
  { rewrite snp_empty. destruct (DOT_AUT_ATTRIB f); rewrite ?snp_lim, ?string_app_assoc, ?string_app_nil; reflexivity. }
  rewrite B1. clear B1.
  match goal with |- context [lim ?x] => set (b1 := x) end.
  assert (B2 : (if nullb e && nullb s then Ok (snp_if (lim b1) "{}")
    else b <- (if negb (DOT_AUT_EDGEINPUT f)
          then snp_loop (buf_entry f (vlist E) (astate x) 0 le (if negb (nullb s) && negb (DOT_AUT_EDGEINPUT f) then ", " else "")) 0 (List.length E) (lim b1)
          else Ok (lim b1)) ;;
         if nullb s && DOT_AUT_EDGEINPUT f then Ok (snp_if b "{}")
         else snp_loop (buf_entry f (vlist S) (astate x) (List.length E) ls "") 0 (List.length S) b) =
    Ok (lim (b1 ++ braces_if_none ((if DOT_AUT_EDGEINPUT f then [] else e) ++ s)))).
  { rewrite <- body_text. destruct (nullb e && nullb s) eqn:En; [rewrite snp_lim; reflexivity|].
    assert (HE := buf_print f _ _ _ _ le (if negb (nullb s) && negb (DOT_AUT_EDGEINPUT f) then ", " else "") b1 PE Hle).
    rewrite vlist_size in HE. rewrite HE. clear HE. fold e. unfold env_text, sys_text.
    destruct (DOT_AUT_EDGEINPUT f); cbn [negb]; rewrite ?andb_true_r, ?andb_false_r; cbn [bind].
    - destruct (nullb s) eqn:Es; [rewrite snp_lim; reflexivity|].
      assert (HS := buf_print f _ _ _ _ ls "" b1 PS Hls).
      rewrite vlist_size in HS. rewrite HS. clear HS. fold s. unfold tailed. destruct s; rewrite ?string_app_nil; reflexivity.
    - match goal with |- context [lim (b1 ++ ?y)] => set (z := y) end.
      assert (HS := buf_print f _ _ _ _ ls "" (b1 ++ z) PS Hls).
      rewrite vlist_size in HS. rewrite HS. clear HS. fold s. rewrite string_app_assoc. unfold z, tailed. clearbody e s.
      destruct e, s; cbn [nullb negb]; rewrite ?string_app_nil; reflexivity. }
  cbv zeta. rewrite B2. cbn [bind]. rewrite snp_lim. do 2 f_equal. unfold b1, in_quotes, dot_id.
  cbn [f_id f_state f_init f_mode f_rgrad f_trans style_of dot_binary dot_edge_input dot_attributes].
  change (DotStyle (DOT_AUT_BINARY f) (DOT_AUT_EDGEINPUT f) (DOT_AUT_ATTRIB f)) with (style_of f). fold e s.
  destruct (DOT_AUT_ATTRIB f); rewrite !string_app_assoc; reflexivity.
Qed.

Lemma deref_nth : forall A t, In t (map aid A) -> exists k y, anode_index A t = Z.of_nat k /\ nth_error A k = Some y /\
  deref A t = Some y /\ aid y = t.
Proof.
  intros A t H. unfold anode_index, deref.
  assert (K : forall A c, In t (map aid A) -> exists k y, anode_index_from A t c = c + Z.of_nat k /\ nth_error A k = Some y /\
    find (fun x => Nat.eqb (aid x) t) A = Some y /\ aid y = t).
  { clear. induction A as [|x A IH]; intros c H; [destruct H|]. cbn [anode_index_from find].
    destruct (Nat.eqb_spec (aid x) t) as [E|E].
    - exists 0%nat, x. cbn. repeat split; auto. lia.
    - destruct H as [H|H]; [congruence|]. destruct (IH (c + 1) H) as (k & y & H1 & H2 & H3 & H4).
      exists (S k), y. cbn. repeat split; auto. lia. }
  destruct (K A 0 H) as (k & y & H1 & H2 & H3 & H4). exists k, y. repeat split; auto.
Qed.
Definition label_text (l : option string) : string :=
  match l with None => "" | Some l => ("[label=" ++ in_quotes l ++ "]")%string end.
Definition row_for (A : aut) (k : nat) (y : anode) : frow :=
  FRow (Z.of_nat k) (astate y) (ainit y) (amode y) (argrad y) (map (anode_index A) (atrans y)).
Lemma edge_str_eq : forall f E S A t, In t (map aid A) -> (forall x, In x A -> List.length (astate x) = List.length (E ++ S)) ->
  exists k y, anode_index A t = Z.of_nat k /\ nth_error A k = Some y /\
    edge_str f (vlist E) (vlist S) A t =
    Ok (in_quotes (dot_id (style_of f) E S (row_for A k y)) ++ label_text (dot_label (style_of f) E (row_for A k y)))%string.
Proof.
  intros f E S A t Ht HA. destruct (deref_nth A t Ht) as (k & y & Hk & Hy & Hd & _). exists k, y. split; [auto|]. split; [auto|].
  assert (Hl : List.length (astate y) = List.length (E ++ S)) by (apply HA; eapply nth_error_In; eauto).
  unfold edge_str. rewrite Hd. unfold last_env, last_sys.
  assert (PE := part_env _ E S Hl). assert (PS := part_sys _ E S Hl).
  destruct (last_any f _ _ _ _ PE) as (le & Ele & Hle). destruct (last_any f _ _ _ _ PS) as (ls & Els & Hls).
  assert (HE := fun tail => edge_print f _ _ _ _ le tail PE Hle).
  assert (HS := fun tail => edge_print f _ _ _ _ ls tail PS Hls).
  rewrite !vlist_size in *. rewrite Ele, Els. cbn [bind].
  rewrite (last_null f _ _ _ Hle), (last_null f _ _ _ Hls), (last_null' f _ _ _ Hls).
  unfold flag_all. rewrite orb_false_r. rewrite !HE, !HS, Hk. clear HE HS Ele Els.
  unfold dot_id, dot_label, row_for. cbn [f_id f_state f_init f_mode f_rgrad f_trans style_of dot_binary dot_edge_input dot_attributes].
  change (DotStyle (DOT_AUT_BINARY f) (DOT_AUT_EDGEINPUT f) (DOT_AUT_ATTRIB f)) with (style_of f).
  set (e := shown (style_of f) E (firstn (List.length E) (astate y))).
  set (s := shown (style_of f) S (skipn (List.length E) (astate y))).
  rewrite <- body_text.
  assert (B : (if nullb e && nullb s then Ok "{}"
    else a <- (if negb (DOT_AUT_EDGEINPUT f)
        then Ok (tailed e (if negb (nullb s) && negb (DOT_AUT_EDGEINPUT f) then ", " else ""))
        else Ok "") ;;
      b <- (if nullb s && DOT_AUT_EDGEINPUT f then Ok "{}" else Ok (tailed s "")) ;;
      Ok (a ++ b)%string) =
    Ok (if nullb e && nullb s then "{}" else (env_text (DOT_AUT_EDGEINPUT f) e s ++ sys_text (DOT_AUT_EDGEINPUT f) s)%string)).
  { unfold env_text, sys_text, tailed. clearbody e s. destruct e, s, (DOT_AUT_EDGEINPUT f); cbn [nullb negb andb bind]; rewrite ?string_app_nil; reflexivity. }
  rewrite B. clear B. cbn [bind].
  match goal with |- context [if nullb e && nullb s then "{}" else ?z] => set (body := if nullb e && nullb s then "{}" else z) end.
  assert (L : (if DOT_AUT_EDGEINPUT f
     then c <- (if nullb e then Ok "{}" else Ok (tailed e "")) ;;
          Ok ("[label=" ++ q ++ c ++ q ++ "]")%string else Ok "") =
     Ok (label_text (if DOT_AUT_EDGEINPUT f then Some (braces_if_none e) else None))).
  { unfold tailed. clearbody e. destruct (DOT_AUT_EDGEINPUT f); [|reflexivity]. destruct e; cbn [nullb bind]; [reflexivity|].
    rewrite string_app_nil. unfold label_text, in_quotes. rewrite !string_app_assoc. reflexivity. }
  rewrite L. clear L. cbn [bind]. f_equal. unfold in_quotes. rewrite !string_app_assoc.
  destruct (DOT_AUT_ATTRIB f); rewrite ?string_app_assoc; reflexivity.
Qed.

(** ** The graph *)
Definition row_statements (s : dot_style) (E S : list vdecl) (rows : list frow) (r : frow) : list dot_statement :=
    DotNode (dot_id s E S r) ::
    (if f_init r then [DotEdge "" (dot_id s E S r) None] else []) ++
    flat_map (fun k => match nth_error rows (Z.to_nat k) with
                       | Some t => [DotEdge (dot_id s E S r) (dot_id s E S t) (dot_label s E t)]
                       | None => []
                       end) (f_trans r).
Lemma statements_eq : forall s E S rows, dot_statements s E S rows = flat_map (row_statements s E S rows) rows.
Proof. reflexivity. Qed.
Lemma map_out_map : forall A B (f : A -> out B) (g : A -> B) l, (forall x, In x l -> f x = Ok (g x)) -> map_out f l = Ok (map g l).
Proof.
  induction l as [|x l IH]; intros H; [reflexivity|]. cbn [map_out map]. rewrite H by (cbn; auto). cbn [bind].
  rewrite IH by (intros; apply H; cbn; auto). reflexivity.
Qed.
Lemma rows_nth : forall A k y, nth_error A k = Some y -> nth_error (rows_aut A) k = Some (row_for A k y).
Proof.
  intros A k y H. destruct (nth_error (rows_aut A) k) as [r|] eqn:E.
  - destruct (rows_from_nth A A 0 k r E) as (x & Hx & ->). assert (x = y) by congruence. subst. reflexivity.
  - apply nth_error_None in E. unfold rows_aut in E. rewrite rows_from_length in E.
    assert (k < List.length A)%nat by (apply nth_error_Some; congruence). lia.
Qed.
(** the statements before the first row whose identifier is too long *)
Definition shortb (s : dot_style) (E S : list vdecl) (r : frow) : bool :=
  Z.of_nat (String.length (in_quotes (dot_id s E S r))) <? input_string_len.
Fixpoint before (A : Type) (p : A -> bool) (l : list A) : list A :=
  match l with [] => [] | x :: r => if p x then x :: before A p r else [] end.
Lemma dot_nodes_eq : forall f E S A nodes c, incl nodes A -> closed_aut A ->
  (forall x, In x A -> List.length (astate x) = List.length (E ++ S)) ->
  dot_nodes f (vlist E) (vlist S) A nodes (Z.of_nat c) =
  Ok (all_of (map statement_text (flat_map (row_statements (style_of f) E S (rows_aut A))
        (before frow (shortb (style_of f) E S) (rows_from A nodes c)))),
      forallb (shortb (style_of f) E S) (rows_from A nodes c)).
Proof.
  intros f E S A. induction nodes as [|x nodes IH]; intros c Hi Hc HA; [reflexivity|]. cbn [dot_nodes rows_from before forallb].
  rewrite (node_str_eq f E S A) by (apply HA, Hi; cbn; auto). cbn [bind]. unfold lim.
  change (FRow (Z.of_nat c) (astate x) (ainit x) (amode x) (argrad x) (map (anode_index A) (atrans x))) with (row_for A c x).
  unfold shortb at 1 3. rewrite (Z.ltb_antisym input_string_len).
  destruct (input_string_len <=? _); [reflexivity|]. cbn [negb andb].
  assert (Hin : In x A) by (apply Hi; cbn; auto).
  set (s := in_quotes (dot_id (style_of f) E S (row_for A c x))).
  rewrite (map_out_map nat string _ (fun t =>
    match nth_error (rows_aut A) (Z.to_nat (anode_index A t)) with
    | Some r => ("    " ++ s ++ " -> " ++ in_quotes (dot_id (style_of f) E S r) ++ label_text (dot_label (style_of f) E r) ++ nl)%string
    | None => ""
    end)).
  2:{ intros t Ht. destruct (edge_str_eq f E S A t) as (k & y & Hk & Hy & He); auto. { apply (Hc x); auto. }
      rewrite He, Hk, Nat2Z.id, (rows_nth _ _ _ Hy). cbn [bind]. rewrite !string_app_assoc. reflexivity. }
  cbn [bind]. replace (Z.of_nat c + 1) with (Z.of_nat (Datatypes.S c)) by lia.
  rewrite IH; auto. 2:{ intros y Hy. apply Hi. cbn. auto. }
  cbn [bind fst snd]. f_equal. f_equal. cbn [flat_map]. rewrite map_app, all_of_app.
  rewrite <- !string_app_assoc. f_equal.
  unfold row_statements at 1. cbn [map]. rewrite all_of_cons, map_app, all_of_app.
  cbn [statement_text]. fold s. rewrite !string_app_assoc. do 3 f_equal. f_equal.
  - cbn [row_for f_init]. destruct (ainit x); [|reflexivity]. cbn [map]. rewrite all_of_cons. cbn [statement_text].
    fold s. rewrite !string_app_assoc. reflexivity.
  - cbn [row_for f_trans]. rewrite <- all_of_cat. clear IH. induction (atrans x) as [|t l IHl]; [reflexivity|].
    cbn [map flat_map]. rewrite map_app, all_of_app, all_of_cons. f_equal; [|exact IHl].
    destruct (nth_error (rows_aut A) (Z.to_nat (anode_index A t))) as [r|]; [|reflexivity].
    cbn [map]. rewrite all_of_cons. change (all_of []) with "". rewrite string_app_nil. cbn [statement_text].
    fold s. unfold label_text. destruct (dot_label (style_of f) E r); rewrite ?string_app_assoc; reflexivity.
Qed.

(** ** The whole text *)
Definition dot_header : string :=
  ("/* created using gr1c, version 0.13.4 */" ++ line_end ++ "digraph A {" ++ line_end ++
   "    " ++ in_quotes "" ++ " [shape=none]" ++ line_end)%string.
Lemma before_all : forall A p l, forallb p l = true -> before A p l = l.
Proof. induction l as [|x l IH]; cbn; intros H; auto. apply andb_true_iff in H. destruct H as [-> H]. rewrite IH; auto. Qed.
Lemma shortb_iff : forall s E S r, shortb s E S r = true <-> dot_short s E S r.
Proof. intros. unfold shortb, dot_short, input_string_len. apply Z.ltb_lt. Qed.
Lemma dot_written : forall f E S A, closed_aut A ->
  (forall x, In x A -> List.length (astate x) = List.length (E ++ S)) ->
  (forall r, In r (rows_aut A) -> dot_short (style_of f) E S r) ->
  dot_aut_dump f A (vlist E) (vlist S) = Ok (dot_file (dot_statements (style_of f) E S (rows_aut A)), 0).
Proof.
  intros f E S A Hc HA Hs. unfold dot_aut_dump.
  rewrite (dot_nodes_eq f E S A A 0 (incl_refl A) Hc HA : dot_nodes f (vlist E) (vlist S) A A 0 = _). cbn [bind fst snd].
  fold (rows_aut A). assert (F : forallb (shortb (style_of f) E S) (rows_aut A) = true).
  { apply forallb_forall. intros r Hr. apply shortb_iff. auto. }
  rewrite F, before_all by auto. rewrite statements_eq. unfold dot_file, in_quotes. cbn [GR1C_VERSION].
  unfold GR1C_VERSION. rewrite !string_app_assoc. reflexivity.
Qed.
Lemma dot_cut : forall f E S A, closed_aut A ->
  (forall x, In x A -> List.length (astate x) = List.length (E ++ S)) ->
  (exists r, In r (rows_aut A) /\ ~ dot_short (style_of f) E S r) ->
  exists a r b, rows_aut A = a ++ r :: b /\ (forall x, In x a -> dot_short (style_of f) E S x) /\ ~ dot_short (style_of f) E S r /\
  dot_aut_dump f A (vlist E) (vlist S) =
    Ok ((dot_header ++ all_of (map statement_text (flat_map (row_statements (style_of f) E S (rows_aut A)) a)))%string, -1).
Proof.
  intros f E S A Hc HA (r0 & Hr0 & Hs0). unfold dot_aut_dump.
  rewrite (dot_nodes_eq f E S A A 0 (incl_refl A) Hc HA : dot_nodes f (vlist E) (vlist S) A A 0 = _). cbn [bind fst snd].
  fold (rows_aut A).
  assert (K : forall l, In r0 l -> exists a r b, l = a ++ r :: b /\ (forall x, In x a -> dot_short (style_of f) E S x) /\
    ~ dot_short (style_of f) E S r /\ before frow (shortb (style_of f) E S) l = a /\ forallb (shortb (style_of f) E S) l = false).
  { induction l as [|x l IH]; intros Hi; [destruct Hi|]. cbn [before forallb]. destruct (shortb (style_of f) E S x) eqn:Ex.
    - destruct Hi as [->|Hi]; [apply shortb_iff in Ex; contradiction|]. destruct (IH Hi) as (a & r & b & -> & H1 & H2 & H3 & H4).
      exists (x :: a), r, b. split; [reflexivity|]. split; [|split; [assumption|split; [|assumption]]].
      + intros y [<-|Hy]; auto. apply shortb_iff. auto.
      + rewrite H3. reflexivity.
    - exists [], x, l. split; [reflexivity|]. split; [intros y []|]. split; [|split; reflexivity]. intros H. apply shortb_iff in H. congruence. }
  destruct (K _ Hr0) as (a & r & b & H1 & H2 & H3 & H4 & H5). exists a, r, b. repeat (split; [assumption|]).
  rewrite H4, H5. unfold dot_header, in_quotes, GR1C_VERSION. rewrite !string_app_assoc. reflexivity.
Qed.
