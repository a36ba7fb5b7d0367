(** Proofs about logging.c (Logging.v). *)
From Coq Require Import List ZArith Bool Arith Ascii String Lia.
From Verif Require Import Base Strs PrintProofs TextProofs Logging LogSpec.
Import ListNotations.
Open Scope string_scope.
Open Scope list_scope.
Open Scope Z_scope.

Lemma cat_app : forall a b, String.concat "" (a ++ b) = (String.concat "" a ++ String.concat "" b)%string.
Proof.
  assert (C : forall x l, String.concat "" (x :: l) = (x ++ String.concat "" l)%string).
  { intros x [|y l]; cbn; [rewrite str_nil_r; reflexivity|reflexivity]. }
  induction a as [|x a IH]; intros b; [reflexivity|]. cbn [app]. rewrite !C, IH, str_assoc. reflexivity.
Qed.
Lemma cat_cons : forall x l, String.concat "" (x :: l) = (x ++ String.concat "" l)%string.
Proof. intros x [|y l]; cbn; [rewrite str_nil_r; reflexivity|reflexivity]. Qed.

(** ** Formats *)
Lemma format_complete : forall ps more, (forall p, In p ps -> good_piece p) ->
  log_format (String.concat "" (map directive ps)) (flat_map argument ps ++ more) = Ok (String.concat "" (map result ps)).
Proof.
  induction ps as [|p ps IH]; intros more H; [reflexivity|]. cbn [map flat_map]. rewrite !cat_cons.
  assert (X := IH more (fun q Hq => H q (or_intror Hq))). pose proof (H p (or_introl eq_refl)) as G.
  destruct p as [c|c|z|s|t]; cbn [directive argument result app String.append] in *; cbn [log_format].
  - destruct (Ascii.eqb_spec c "%") as [->|_]; [cbn in G; congruence|]. rewrite X. reflexivity.
  - cbn [Ascii.eqb Bool.eqb]. destruct G as (G1 & G2 & G3).
    destruct (Ascii.eqb_spec c "f") as [->|_]; [congruence|]. destruct (Ascii.eqb_spec c "d") as [->|_]; [congruence|].
    destruct (Ascii.eqb_spec c "s") as [->|_]; [congruence|]. rewrite X. reflexivity.
  - cbn. rewrite X. reflexivity.
  - cbn. rewrite X. reflexivity.
  - cbn. rewrite X. reflexivity.
Qed.
Lemma format_sound : forall n fmt args text, (String.length fmt <= n)%nat -> log_format fmt args = Ok text -> formatted fmt args text.
Proof.
  assert (S : forall p r a s, good_piece p -> formatted r a s -> formatted (directive p ++ r)%string (argument p ++ a) (result p ++ s)%string).
  { intros p r a s G (ps & more & H1 & -> & -> & ->). exists (p :: ps), more. split; [intros q [<-|Hq]; auto|].
    cbn [map flat_map]. rewrite !cat_cons, app_assoc. auto. }
  induction n as [|n IH]; intros fmt args text L E.
  { destruct fmt; [|cbn in L; lia]. injection E as <-. exists [], args. repeat split. intros p []. }
  destruct fmt as [|c r]; [injection E as <-; exists [], args; repeat split; intros p []|]. cbn [log_format] in E. cbn [String.length] in L.
  destruct (Ascii.eqb_spec c "%") as [->|Hc].
  - destruct r as [|k r]; [discriminate E|]. cbn [String.length] in L.
    destruct (Ascii.eqb_spec k "f") as [->|K1].
    { destruct args as [|[z|s|t] a]; try discriminate E. apply bind_ok in E. destruct E as (s & E & X). injection X as <-.
      exact (S (PutDouble t) r a s I (IH r a s ltac:(lia) E)). }
    destruct (Ascii.eqb_spec k "d") as [->|K2].
    { destruct args as [|[z|s|t] a]; try discriminate E. apply bind_ok in E. destruct E as (s & E & X). injection X as <-.
      exact (S (PutInt z) r a s I (IH r a s ltac:(lia) E)). }
    destruct (Ascii.eqb_spec k "s") as [->|K3].
    { destruct args as [|[z|t|t] a]; try discriminate E. apply bind_ok in E. destruct E as (s & E & X). injection X as <-.
      exact (S (PutStr t) r a s I (IH r a s ltac:(lia) E)). }
    apply bind_ok in E. destruct E as (s & E & X). injection X as <-.
    exact (S (Escaped k) r args s (conj K2 (conj K1 K3)) (IH r args s ltac:(lia) E)).
  - apply bind_ok in E. destruct E as (s & E & X). injection X as <-. exact (S (Plain c) r args s Hc (IH r args s ltac:(lia) E)).
Qed.
Lemma format_iff : forall fmt args text, log_format fmt args = Ok text <-> formatted fmt args text.
Proof.
  intros fmt args text. split; [apply format_sound with (n := String.length fmt); lia|].
  intros (ps & more & H & -> & -> & ->). apply format_complete. exact H.
Qed.

(** ** States *)
Definition stands (st : lstate) (w : logged) : Prop :=
  match w with
  | NoLog => l_fp st = None
  | ToStdout => l_fp st = Some Stdout
  | ToFile f => exists n, l_fp st = Some (Handle n f) /\ in_use (Handle n f) st = true
  | Closed => exists n f, l_fp st = Some (Handle n f) /\ in_use (Handle n f) st = false
  end.
Definition fits (st : lstate) (s : logged * bool) : Prop := stands st (fst s) /\ snd s = (Z.land (l_opt st) 1 =? 0).
Lemma even_bit : forall z, Z.even z = (Z.land z 1 =? 0).
Proof.
  intros z. rewrite Zeven_mod. change 1 with (Z.ones 1). rewrite Z.land_ones by lia. change (2 ^ 1) with 2.
  unfold Zeq_bool. rewrite Z.eqb_compare. reflexivity.
Qed.
Lemma told_app : forall pl a b, told pl (a ++ b) = (told pl a ++ told pl b)%string.
Proof. intros. unfold told. rewrite filter_app, map_app, cat_app. reflexivity. Qed.
(** [st'] comes from [st] by writing [o] *)
Definition adds (st st' : lstate) (o : list (place * string)) : Prop :=
  forall pl, told pl (visible st') = (told pl (visible st) ++ told pl o)%string.
Lemma adds_nothing : forall st st', l_out st' = l_out st -> adds st st' [].
Proof. intros st st' H pl. unfold visible. rewrite H. cbn. rewrite str_nil_r. reflexivity. Qed.
Lemma adds_put : forall d s st, adds st (put d s st) [(shown d, s)].
Proof. intros d s st pl. unfold visible. cbn [put l_out]. rewrite map_app, told_app. reflexivity. Qed.
Lemma adds_trans : forall a b c o1 o2, adds a b o1 -> adds b c o2 -> adds a c (o1 ++ o2).
Proof. intros a b c o1 o2 H1 H2 pl. rewrite H2, H1, told_app, str_assoc. reflexivity. Qed.
Lemma adds_same : forall a b o o', (forall pl, told pl o = told pl o') -> adds a b o -> adds a b o'.
Proof. intros a b o o' H H1 pl. rewrite H1, H. reflexivity. Qed.
Lemma told_empty : forall pl q, told q [(pl, ""%string)] = ""%string.
Proof. intros pl q. unfold told. cbn. destruct (place_eqb pl q); reflexivity. Qed.
Lemma adds_empty : forall st pl, adds st st [(pl, ""%string)].
Proof. intros st pl q. rewrite told_empty, str_nil_r. reflexivity. Qed.
Lemma put_fits : forall d s st x, fits st x -> fits (put d s st) x.
Proof. intros d s st [w t] [H1 H2]. split; [|exact H2]. destruct w; exact H1. Qed.

Lemma stands_place : forall st w pl, stands st w -> place_of w = Some pl ->
  exists p, l_fp st = Some p /\ in_use p st = true /\ shown (Stream p) = pl.
Proof.
  intros st w pl H E. destruct w as [| |f|]; try discriminate E; injection E as <-; cbn [stands] in H.
  - exists Stdout. auto.
  - destruct H as (n & H1 & H2). exists (Handle n f). auto.
Qed.
(** where a stream that can be written to leads *)
Lemma use_place : forall st w p, stands st w -> l_fp st = Some p -> in_use p st = true -> place_of w = Some (shown (Stream p)).
Proof.
  intros st w p H E U. destruct w as [| |f|]; cbn [stands] in H.
  - congruence.
  - assert (X : p = Stdout) by congruence. rewrite X. reflexivity.
  - destruct H as (n & H1 & H2). assert (X : p = Handle n f) by congruence. rewrite X. reflexivity.
  - destruct H as (n & f & H1 & H2). assert (X : p = Handle n f) by congruence. rewrite X in U. congruence.
Qed.
Lemma write_ok : forall st w pl p s, stands st w -> place_of w = Some pl -> l_fp st = Some p -> write p s st = Ok (put (Stream p) s st) /\ shown (Stream p) = pl.
Proof.
  intros st w pl p s H E Ep. destruct (stands_place st w pl H E) as (q & E1 & E2 & E3). replace p with q by congruence.
  unfold write. rewrite E2. auto.
Qed.

(** names *)
Lemma prefix_len : forall k p, String.length (substring 0 k p) = Nat.min k (String.length p).
Proof. induction k as [|k IH]; intros [|c p]; cbn; auto. Qed.
Lemma prefix_all : forall k p, (String.length p <= k)%nat -> substring 0 k p = p.
Proof. induction k as [|k IH]; intros [|c p] H; cbn in *; auto; [lia|]. rewrite IH by lia. reflexivity. Qed.
Lemma len_app : forall a b, String.length (a ++ b)%string = (String.length a + String.length b)%nat.
Proof. induction a as [|c a IH]; intros b; cbn; auto. Qed.
Lemma name_short : forall now pid p, let base := match p with Some p => substring 0 255 p | None => ("gr1c-" ++ zdec pid)%string end in
  (String.length ("-" ++ m_day now ++ ".log") + 1 <=? 256 - String.length base)%nat = (String.length (log_name now pid p) <=? 255)%nat /\
  ((String.length (log_name now pid p) <= 255)%nat -> (base ++ "-" ++ m_day now ++ ".log")%string = log_name now pid p).
Proof.
  intros now pid p base. unfold log_name. set (t := ("-" ++ m_day now ++ ".log")%string).
  assert (T : (5 <= String.length t)%nat) by (unfold t; cbn [String.append String.length]; rewrite len_app; cbn; lia). clearbody t.
  destruct p as [p|]; subst base.
  - rewrite prefix_len, len_app. split.
    + apply Bool.eq_iff_eq_true. rewrite !Nat.leb_le. lia.
    + intros H. rewrite prefix_all by lia. reflexivity.
  - rewrite (len_app _ t). split; [|reflexivity]. apply Bool.eq_iff_eq_true. rewrite !Nat.leb_le. lia.
Qed.

(** ** Lines for another stream *)
Lemma lines_ok : forall now ls texts, Forall2 line_of ls texts -> forall st, l_fp st = Some Stdout -> l_opt st = 1 ->
  exists st', log_lines now ls st = Ok st' /\ adds st st' [(OnStdout, String.concat "" (map (fun s => s ++ newline)%string texts))] /\
    l_open st' = l_open st /\ l_count st' = l_count st.
Proof.
  intros now ls texts H. induction H as [|[f a] s ls texts H _ IH]; intros st E1 E2.
  - exists st. split; [reflexivity|]. split; [|auto]. exact (adds_empty st OnStdout).
  - cbn [log_lines]. unfold log_line, logprint_startline. rewrite E1, E2. change (Z.land 1 1 =? 0) with false. cbn [bind].
    unfold logprint_raw. rewrite E1. pose proof H as H'. unfold line_of in H'. cbn [fst snd] in H'. apply format_iff in H'. rewrite H'. cbn [bind].
    assert (X : exists st1, match f with "" => Ok st | _ => write Stdout s st end = Ok st1 /\ adds st st1 [(OnStdout, s)] /\
      l_fp st1 = Some Stdout /\ l_opt st1 = 1 /\ l_open st1 = l_open st /\ l_count st1 = l_count st).
    { destruct f as [|c f].
      - exists st. split; [reflexivity|]. injection H' as <-. repeat split; auto. exact (adds_empty st OnStdout).
      - exists (put (Stream Stdout) s st). split; [reflexivity|]. split; [exact (adds_put (Stream Stdout) s st)|]. repeat split; auto. }
    destruct X as (st1 & -> & A1 & F1 & F2 & F3 & F4). cbn [bind]. unfold logprint_endline. rewrite F1.
    change (write Stdout lnewline st1) with (Ok (put (Stream Stdout) lnewline st1)). cbn [bind].
    destruct (IH (put (Stream Stdout) lnewline st1) F1 F2) as (st2 & E & A2 & G1 & G2).
    exists st2. split; [exact E|]. split; [|cbn in G1, G2; split; congruence].
    eapply adds_same; [|eapply adds_trans; [exact A1|eapply adds_trans; [exact (adds_put (Stream Stdout) lnewline st1)|exact A2]]].
    intros pl. unfold told. cbn [app filter map fst snd shown]. destruct (place_eqb OnStdout pl); cbn [map snd]; [|reflexivity].
    rewrite !cat_cons. cbn [String.concat]. rewrite !str_nil_r, !str_assoc. reflexivity.
Qed.
Lemma lines_only : forall now ls st st', l_fp st = Some Stdout -> l_opt st = 1 -> log_lines now ls st = Ok st' -> exists texts, Forall2 line_of ls texts.
Proof.
  intros now. induction ls as [|[f a] ls IH]; intros st st' E1 E2 H; [exists []; constructor|].
  cbn [log_lines] in H. apply bind_ok in H. destruct H as (st1 & H1 & H). unfold log_line, logprint_startline in H1. rewrite E1, E2 in H1.
  change (Z.land 1 1 =? 0) with false in H1. cbn [bind] in H1. unfold logprint_raw in H1. rewrite E1 in H1. apply bind_ok in H1. destruct H1 as (st0 & H0 & H1).
  apply bind_ok in H0. destruct H0 as (s & F & H0).
  assert (X : l_fp st1 = Some Stdout /\ l_opt st1 = 1).
  { assert (Y : l_fp st0 = Some Stdout /\ l_opt st0 = 1) by (destruct f; injection H0 as <-; auto). destruct Y as [Y1 Y2].
    unfold logprint_endline in H1. rewrite Y1 in H1. injection H1 as <-. auto. }
  destruct (IH st1 st' (proj1 X) (proj2 X) H) as (texts & T). exists (s :: texts). constructor; [|exact T].
  unfold line_of. apply format_iff. exact F.
Qed.

(** ** One call *)
Section Calls.
  Variables (pid : Z) (can_open : string -> bool).
  Lemma close_ok : forall st w, stands st w -> w <> Closed -> exists st', closelogfile st = Ok st' /\
    stands st' (match w with ToFile _ => Closed | _ => w end) /\ l_opt st' = l_opt st /\ l_out st' = l_out st.
  Proof.
    intros st w H Hw. unfold closelogfile. destruct w as [| |f|]; cbn [stands] in H; [| | |congruence].
    - rewrite H. exists st. auto.
    - rewrite H. exists st. auto.
    - destruct H as (n & H1 & H2). rewrite H1, H2. eexists. split; [reflexivity|]. split; [|auto]. exists n, f. split; [reflexivity|].
      cbn [in_use l_open]. apply Bool.not_true_iff_false. intros X. apply existsb_exists in X. destruct X as (k & X & E). apply filter_In in X.
      destruct X as [_ X]. rewrite E in X. discriminate X.
  Qed.
  Lemma close_only : forall st w st', stands st w -> closelogfile st = Ok st' -> w <> Closed.
  Proof.
    intros st w st' H E ->. cbn [stands] in H. destruct H as (n & f & H1 & H2). unfold closelogfile in E. rewrite H1, H2 in E. discriminate E.
  Qed.
  Lemma call_ok : forall now op s o s', log_does pid can_open now op s o s' -> forall st, fits st s ->
    exists st', log_call pid can_open now op st = Ok (Some st') /\ fits st' s' /\ adds st st' o.
  Proof.
    intros now op s o s' H st HF. destruct H; destruct HF as [HS HT]; cbn [fst snd] in HS, HT; cbn [log_call].
    - eexists. split; [reflexivity|]. split; [split; [destruct b; reflexivity|exact HT]|apply adds_nothing; reflexivity].
    - eexists. split; [reflexivity|]. split; [split; [destruct w; exact HS|apply even_bit]|apply adds_nothing; reflexivity].
    - destruct (name_short now pid p) as [N1 N2]. unfold openlogfile. cbv zeta in *. rewrite N1, (N2 H0).
      destruct (Nat.leb_spec (String.length (log_name now pid p)) 255) as [_|X]; [|lia].
      destruct (close_ok st w HS H) as (st1 & E & _ & E2 & E3). rewrite E. cbn [bind]. rewrite H1. eexists. split; [reflexivity|].
      split; [|apply adds_nothing; exact E3]. split; [|cbn [snd l_opt]; rewrite E2; exact HT].
      cbn [fst stands]. exists (l_count st1). split; [reflexivity|]. cbn [in_use l_open existsb]. rewrite Nat.eqb_refl. reflexivity.
    - destruct (name_short now pid p) as [N1 _]. unfold openlogfile. cbv zeta in *. rewrite N1.
      destruct (Nat.leb_spec (String.length (log_name now pid p)) 255) as [X|_]; [lia|].
      eexists. split; [reflexivity|]. split; [apply put_fits; split; assumption|exact (adds_put Stderr _ st)].
    - destruct (close_ok st w HS H) as (st1 & E & E1 & E2 & E3). rewrite E. cbn [bind]. eexists. split; [reflexivity|].
      split; [split; [exact E1|cbn [snd]; rewrite E2; exact HT]|apply adds_nothing; exact E3].
    - destruct (stands_place st w pl HS H) as (p & E1 & E2 & E3). unfold logprint. rewrite E1. apply format_iff in H0. rewrite H0. cbn [bind].
      unfold write. rewrite E2. cbn [bind]. eexists. split; [reflexivity|]. split; [apply put_fits; split; assumption|].
      assert (X : stamp now st = time_mark t now) by (unfold stamp, time_mark; rewrite HT; reflexivity). rewrite X, <- E3. apply adds_put.
    - unfold logprint. cbn [stands] in HS. rewrite HS. eexists. split; [reflexivity|]. split; [apply put_fits; split; assumption|exact (adds_put Stderr _ st)].
    - destruct (stands_place st w pl HS H) as (p & E1 & E2 & E3). unfold logprint_startline. rewrite E1, <- HT. destruct t.
      + unfold write. rewrite E2. cbn [bind]. eexists. split; [reflexivity|]. split; [apply put_fits; split; assumption|]. rewrite <- E3. apply adds_put.
      + eexists. split; [reflexivity|]. split; [split; assumption|]. eapply adds_same; [|apply adds_nothing; reflexivity].
        intros q. unfold told. cbn. destruct (place_eqb pl q); reflexivity.
    - cbn [stands] in HS. destruct HS as (n & f & E1 & E2). unfold logprint_startline. rewrite E1, <- HT. eexists. split; [reflexivity|].
      split; [split; [exists n, f; auto|assumption]|apply adds_nothing; reflexivity].
    - unfold logprint_startline. cbn [stands] in HS. rewrite HS. eexists. split; [reflexivity|]. split; [apply put_fits; split; assumption|exact (adds_put Stderr _ st)].
    - destruct (stands_place st w pl HS H) as (p & E1 & E2 & E3). unfold logprint_raw. rewrite E1. apply format_iff in H0. rewrite H0. cbn [bind].
      destruct f as [|c f].
      + injection H0 as <-. eexists. split; [reflexivity|]. split; [split; assumption|]. eapply adds_same; [|apply adds_nothing; reflexivity].
        intros q. unfold told. cbn. destruct (place_eqb pl q); reflexivity.
      + unfold write. rewrite E2. cbn [bind]. eexists. split; [reflexivity|]. split; [apply put_fits; split; assumption|]. rewrite <- E3. apply adds_put.
    - cbn [stands] in HS. destruct HS as (n & f & E1 & E2). unfold logprint_raw. rewrite E1. eexists. split; [reflexivity|].
      split; [split; [exists n, f; auto|assumption]|apply adds_nothing; reflexivity].
    - unfold logprint_raw. cbn [stands] in HS. rewrite HS. eexists. split; [reflexivity|]. split; [apply put_fits; split; assumption|exact (adds_put Stderr _ st)].
    - destruct (stands_place st w pl HS H) as (p & E1 & E2 & E3). unfold logprint_endline. rewrite E1. unfold write. rewrite E2. cbn [bind].
      eexists. split; [reflexivity|]. split; [apply put_fits; split; assumption|]. rewrite <- E3. apply adds_put.
    - unfold log_aside. cbv zeta.
      destruct (lines_ok now ls texts H (setlogopt 1 (setlogstream (Some Stdout) st)) eq_refl eq_refl) as (st1 & E & A & G1 & G2).
      rewrite E. cbn [bind]. eexists. split; [reflexivity|]. split.
      + split; [|exact HT]. cbn [fst]. destruct w as [| |f|]; cbn [stands] in *.
        * cbn. rewrite HS. reflexivity.
        * cbn. rewrite HS. reflexivity.
        * destruct HS as (n & E1 & E2). exists n. cbn [setlogopt setlogstream l_fp]. rewrite E1. split; [reflexivity|].
          cbn [in_use l_open setlogopt setlogstream] in *. rewrite G1. exact E2.
        * destruct HS as (n & f & E1 & E2). exists n, f. cbn [setlogopt setlogstream l_fp]. rewrite E1. split; [reflexivity|].
          cbn [in_use l_open setlogopt setlogstream] in *. rewrite G1. exact E2.
      + exact A.
  Qed.
  Lemma call_only : forall now op s st st', fits st s -> log_call pid can_open now op st = Ok (Some st') ->
    exists o s', log_does pid can_open now op s o s'.
  Proof.
    intros now op [w t] st st' [HS HT] E. cbn [fst snd] in HS, HT. destruct op as [b|z|p| |f a| |f a| |ls]; cbn [log_call] in E.
    - eexists _, _. constructor.
    - eexists _, _. constructor.
    - destruct (name_short now pid p) as [N1 N2]. unfold openlogfile in E. cbv zeta in *. rewrite N1 in E.
      destruct (Nat.leb_spec (String.length (log_name now pid p)) 255) as [X|X]; [|eexists _, _; apply ld_long; exact X].
      apply bind_ok in E. destruct E as (st1 & E1 & E). rewrite (N2 X) in E. destruct (can_open (log_name now pid p)) eqn:C; [|discriminate E].
      eexists _, _. apply ld_open; auto. eapply close_only; eauto.
    - apply bind_ok in E. destruct E as (st1 & E1 & E). eexists _, _. apply ld_close. eapply close_only; eauto.
    - apply bind_ok in E. destruct E as (st1 & E1 & E). unfold logprint in E1. destruct (l_fp st) as [p|] eqn:Ep.
      + apply bind_ok in E1. destruct E1 as (s & F & E1). unfold write in E1. destruct (in_use p st) eqn:U; [|discriminate E1].
        eexists _, _. eapply ld_print; [exact (use_place st w p HS Ep U)|apply format_iff; exact F].
      + assert (w = NoLog) as -> by (destruct w as [| |g|]; cbn [stands] in HS; auto; [congruence|destruct HS as (n & X & _); congruence|destruct HS as (n & g & X & _); congruence]).
        eexists _, _. apply ld_print_none.
    - apply bind_ok in E. destruct E as (st1 & E1 & E). unfold logprint_startline in E1. destruct (l_fp st) as [p|] eqn:Ep.
      + destruct (in_use p st) eqn:U; [eexists _, _; eapply ld_start; exact (use_place st w p HS Ep U)|].
        rewrite <- HT in E1. destruct t; [unfold write in E1; rewrite U in E1; discriminate E1|].
        assert (w = Closed) as ->.
        { destruct w as [| |g|]; cbn [stands] in HS; auto; try congruence.
          - assert (Y : p = Stdout) by congruence. rewrite Y in U. discriminate U.
          - destruct HS as (n & X & Y). assert (Z : p = Handle n g) by congruence. rewrite Z in U. congruence. }
        eexists _, _. apply ld_start_closed.
      + assert (w = NoLog) as -> by (destruct w as [| |g|]; cbn [stands] in HS; auto; [congruence|destruct HS as (n & X & _); congruence|destruct HS as (n & g & X & _); congruence]).
        eexists _, _. apply ld_start_none.
    - apply bind_ok in E. destruct E as (st1 & E1 & E). unfold logprint_raw in E1. destruct (l_fp st) as [p|] eqn:Ep.
      + apply bind_ok in E1. destruct E1 as (s & F & E1).
        destruct (in_use p st) eqn:U; [eexists _, _; eapply ld_raw; [exact (use_place st w p HS Ep U)|apply format_iff; exact F]|].
        destruct f as [|c f]; [|unfold write in E1; rewrite U in E1; discriminate E1].
        assert (w = Closed) as ->.
        { destruct w as [| |g|]; cbn [stands] in HS; auto; try congruence.
          - assert (Y : p = Stdout) by congruence. rewrite Y in U. discriminate U.
          - destruct HS as (n & X & Y). assert (Z : p = Handle n g) by congruence. rewrite Z in U. congruence. }
        eexists _, _. apply ld_raw_closed.
      + assert (w = NoLog) as -> by (destruct w as [| |g|]; cbn [stands] in HS; auto; [congruence|destruct HS as (n & X & _); congruence|destruct HS as (n & g & X & _); congruence]).
        eexists _, _. apply ld_raw_none.
    - apply bind_ok in E. destruct E as (st1 & E1 & E). unfold logprint_endline in E1. destruct (l_fp st) as [p|] eqn:Ep; [|discriminate E1].
      unfold write in E1. destruct (in_use p st) eqn:U; [|discriminate E1]. eexists _, _. eapply ld_end. exact (use_place st w p HS Ep U).
    - apply bind_ok in E. destruct E as (st1 & E1 & E). unfold log_aside in E1. cbv zeta in E1. apply bind_ok in E1. destruct E1 as (st2 & E1 & _).
      destruct (lines_only now ls (setlogopt 1 (setlogstream (Some Stdout) st)) st2 eq_refl eq_refl E1) as (texts & T).
      eexists _, _. apply ld_aside. exact T.
  Qed.
  Lemma call_exit : forall now op s st, fits st s -> (log_call pid can_open now op st = Ok None <->
    fst s <> Closed /\ exists p, op = LOpen p /\ (String.length (log_name now pid p) <= 255)%nat /\ can_open (log_name now pid p) = false).
  Proof.
    intros now op [w t] st [HS HT]. cbn [fst snd] in *. split.
    - intros E. destruct op as [b|z|p| |f a| |f a| |ls]; cbn [log_call] in E; try discriminate E;
        try (apply bind_ok in E; destruct E as (st1 & _ & E); discriminate E).
      destruct (name_short now pid p) as [N1 N2]. unfold openlogfile in E. cbv zeta in *. rewrite N1 in E.
      destruct (Nat.leb_spec (String.length (log_name now pid p)) 255) as [X|X]; [|discriminate E].
      apply bind_ok in E. destruct E as (st1 & E1 & E). rewrite (N2 X) in E. destruct (can_open (log_name now pid p)) eqn:C; [discriminate E|].
      split; [eapply close_only; eauto|]. exists p. auto.
    - intros (Hw & p & -> & HL & HC). cbn [log_call]. destruct (name_short now pid p) as [N1 N2]. unfold openlogfile. cbv zeta in *. rewrite N1, (N2 HL).
      destruct (Nat.leb_spec (String.length (log_name now pid p)) 255) as [_|X]; [|lia].
      destruct (close_ok st w HS Hw) as (st1 & E & _). rewrite E. cbn [bind]. rewrite HC. reflexivity.
  Qed.

  (** ** Sessions *)
  Lemma session_from : forall h s o s', log_history pid can_open h s o s' -> forall st, fits st s ->
    exists st', log_session pid can_open h st = Ok (Some st') /\ fits st' s' /\ adds st st' o.
  Proof.
    intros h s o s' H. induction H as [s|now op h s o s1 o1 s2 H _ IH]; intros st HF.
    - exists st. split; [reflexivity|]. split; [exact HF|apply adds_nothing; reflexivity].
    - destruct (call_ok _ _ _ _ _ H st HF) as (st1 & E & F1 & A1). destruct (IH st1 F1) as (st2 & E2 & F2 & A2).
      exists st2. cbn [log_session]. rewrite E. cbn [bind]. split; [exact E2|]. split; [exact F2|]. eapply adds_trans; eauto.
  Qed.
  Lemma session_back : forall h st s st', fits st s -> log_session pid can_open h st = Ok (Some st') -> exists o s', log_history pid can_open h s o s'.
  Proof.
    induction h as [|[now op] h IH]; intros st s st' HF E; [eexists _, _; constructor|].
    cbn [log_session] in E. apply bind_ok in E. destruct E as (x & E1 & E). destruct x as [st1|]; [|discriminate E].
    destruct (call_only _ _ _ _ _ HF E1) as (o & s1 & D). destruct (call_ok _ _ _ _ _ D st HF) as (st1' & E1' & F1 & _).
    replace st1' with st1 in F1 by congruence. destruct (IH st1 s1 st' F1 E) as (o' & s' & D'). eexists _, _. econstructor; eauto.
  Qed.
  Lemma start_fits : fits log_start (NoLog, true).
  Proof. split; reflexivity. Qed.
  Lemma session_ok : forall h o s', log_history pid can_open h (NoLog, true) o s' ->
    exists st, log_session pid can_open h log_start = Ok (Some st) /\ forall pl, told pl (visible st) = told pl o.
  Proof.
    intros h o s' H. destruct (session_from h _ _ _ H log_start start_fits) as (st & E & _ & A). exists st. split; [exact E|]. exact A.
  Qed.
  Lemma session_only : forall h st, log_session pid can_open h log_start = Ok (Some st) ->
    exists o s', log_history pid can_open h (NoLog, true) o s' /\ forall pl, told pl (visible st) = told pl o.
  Proof.
    intros h st E. destruct (session_back h _ _ _ start_fits E) as (o & s' & H). exists o, s'. split; [exact H|].
    destruct (session_ok h o s' H) as (st' & E' & A). replace st with st' by congruence. exact A.
  Qed.
  Lemma session_exit_from : forall h st s, fits st s -> (log_session pid can_open h st = Ok None <->
    exists h1 now p h2 o w t, h = h1 ++ (now, LOpen p) :: h2 /\ log_history pid can_open h1 s o (w, t) /\ w <> Closed /\
      (String.length (log_name now pid p) <= 255)%nat /\ can_open (log_name now pid p) = false).
  Proof.
    induction h as [|[now op] h IH]; intros st s HF.
    - split; [discriminate|]. intros (h1 & now & p & h2 & o & w & t & E & _). destruct h1; discriminate E.
    - cbn [log_session]. split.
      + intros E. apply bind_ok in E. destruct E as (x & E1 & E). destruct x as [st1|].
        * destruct (call_only _ _ _ _ _ HF E1) as (o & s1 & D). destruct (call_ok _ _ _ _ _ D st HF) as (st1' & E1' & F1 & _).
          replace st1' with st1 in F1 by congruence. apply (IH st1 s1 F1) in E. destruct E as (h1 & now' & p & h2 & o' & w & t & -> & H & X).
          exists ((now, op) :: h1), now', p, h2, (o ++ o'), w, t. split; [reflexivity|]. split; [econstructor; eauto|exact X].
        * apply (call_exit now op s st HF) in E1. destruct E1 as (Hw & p & -> & H1 & H2). destruct s as [w t].
          exists [], now, p, h, [], w, t. split; [reflexivity|]. split; [constructor|]. auto.
      + intros (h1 & now' & p & h2 & o & w & t & E & H & Hw & H1 & H2). destruct h1 as [|[n' op'] h1].
        * injection E as -> -> ->. inversion H; subst. assert (X : log_call pid can_open now' (LOpen p) st = Ok None).
          { apply (call_exit now' (LOpen p) (w, t) st HF). split; [exact Hw|]. eauto. }
          rewrite X. reflexivity.
        * injection E as -> -> ->. inversion H as [|? ? ? ? o1 s1 o2 ? D D']; subst.
          destruct (call_ok _ _ _ _ _ D st HF) as (st1 & E1 & F1 & _). rewrite E1. cbn [bind]. apply (IH st1 s1 F1).
          exists h1, now', p, h2, o2, w, t. auto.
  Qed.
  Lemma session_exit : forall h, log_session pid can_open h log_start = Ok None <->
    exists h1 now p h2 o w t, h = h1 ++ (now, LOpen p) :: h2 /\ log_history pid can_open h1 (NoLog, true) o (w, t) /\ w <> Closed /\
      (String.length (log_name now pid p) <= 255)%nat /\ can_open (log_name now pid p) = false.
  Proof. intros h. exact (session_exit_from h log_start _ start_fits). Qed.
End Calls.
Lemma history_one : forall pid can_open h o s o' s', log_history pid can_open h (NoLog, true) o s -> log_history pid can_open h (NoLog, true) o' s' ->
  forall pl, told pl o = told pl o'.
Proof.
  intros pid can_open h o s o' s' H H' pl. destruct (session_ok _ _ _ _ _ H) as (st & E & A). destruct (session_ok _ _ _ _ _ H') as (st' & E' & A').
  rewrite <- A, <- A'. congruence.
Qed.

(** ** What the interface does not say *)
Lemma opened_closed : forall pid can_open day, can_open (log_name day pid None) = true -> (String.length (log_name day pid None) <= 255)%nat ->
  exists st, fits st (Closed, true) /\ forall r, log_session pid can_open ((day, LOpen None) :: (day, LClose) :: r) log_start = log_session pid can_open r st.
Proof.
  intros pid can_open day H1 H2.
  destruct (call_ok pid can_open day (LOpen None) (NoLog, true) [] (ToFile (log_name day pid None), true) ltac:(apply ld_open; auto; discriminate) log_start start_fits)
    as (st1 & E1 & F1 & _).
  destruct (call_ok pid can_open day LClose _ _ _ (ld_close pid can_open day (ToFile (log_name day pid None)) true ltac:(discriminate)) st1 F1) as (st2 & E2 & F2 & _).
  exists st2. split; [exact F2|]. intros r. cbn [log_session]. rewrite E1. cbn [bind]. rewrite E2. reflexivity.
Qed.
Lemma close_then : forall pid can_open now day f args text, can_open (log_name day pid None) = true ->
  (String.length (log_name day pid None) <= 255)%nat -> formatted f args text ->
  log_session pid can_open [(day, LOpen None); (day, LClose); (now, LPrint f args)] log_start = Crash /\
  log_session pid can_open [(day, LOpen None); (day, LClose); (day, LOpen None)] log_start = Crash.
Proof.
  intros pid can_open now day f args text H1 H2 HF. destruct (opened_closed pid can_open day H1 H2) as (st & [HS _] & HE).
  cbn [fst stands] in HS. destruct HS as (n & g & E1 & E2). rewrite !HE. apply format_iff in HF. cbn [log_session log_call]. split.
  - unfold logprint. rewrite E1, HF. cbn [bind]. unfold write. rewrite E2. reflexivity.
  - unfold openlogfile. destruct (name_short day pid None) as [N1 _]. cbv zeta in *. rewrite N1.
    destruct (Nat.leb_spec (String.length (log_name day pid None)) 255) as [_|X]; [|lia]. unfold closelogfile. rewrite E1, E2. reflexivity.
Qed.
Lemma aside_leaves : exists h now st st', log_session 1 (fun _ => true) h log_start = Ok (Some st) /\
  log_session 1 (fun _ => true) (h ++ [(now, LPrint "a" [])]) log_start = Ok (Some st') /\
  told OnStderr (visible st') = ""%string /\ told OnStdout (visible st') = (told OnStdout (visible st) ++ ("12:00 a" ++ newline))%string /\
  (forall t o s, log_history 1 (fun _ => true) [(now, LPrint "a" [])] (NoLog, t) o s -> told OnStdout o = ""%string /\ told OnStderr o = warning).
Proof.
  exists [(Moment "20150102" "12:00", LAside [])], (Moment "20150102" "12:00"). eexists _, _. split; [reflexivity|]. split; [reflexivity|].
  split; [reflexivity|]. split; [reflexivity|]. intros t o s H. inversion H as [|? ? ? ? ? ? ? ? D D']; subst. inversion D; subst; [discriminate|].
  inversion D'; subst. split; reflexivity.
Qed.
Lemma percent_end : exists args, log_format "100%" args = Crash /\ forall text, ~ formatted "100%" args text.
Proof. exists []. split; [reflexivity|]. intros text H. apply format_iff in H. discriminate H. Qed.

Lemma log_instance : let noon := Moment "20150102" "2015-01-02 12:00:00" in
  let calls := map (fun op => (noon, op)) [LSet true; LPrint "n = %d of %s" [AInt 3; AStr "x"]; LOpen (Some "rg"%string); LOpt 1; LStart; LRaw "50%%" []; LEnd;
    LAside [("END"%string, [])]; LClose] in
  exists st o s, log_session 7 (fun _ => true) calls log_start = Ok (Some st) /\
  log_history 7 (fun _ => true) calls (NoLog, true) o s /\ s = (Closed, false) /\
  told OnStdout (visible st) = ("2015-01-02 12:00:00 n = 3 of x" ++ newline ++ "END" ++ newline)%string /\
  told (InFile "rg-20150102.log") (visible st) = ("50%" ++ newline)%string /\ told OnStderr (visible st) = ""%string.
Proof.
  intros noon calls.
  assert (X : exists st, log_session 7 (fun _ => true) calls log_start = Ok (Some st) /\
    told OnStdout (visible st) = ("2015-01-02 12:00:00 n = 3 of x" ++ newline ++ "END" ++ newline)%string /\
    told (InFile "rg-20150102.log") (visible st) = ("50%" ++ newline)%string /\ told OnStderr (visible st) = ""%string).
  { eexists. split; [vm_compute; reflexivity|]. repeat (match goal with |- _ /\ _ => split end); vm_compute; reflexivity. }
  destruct X as (st & E & T1 & T2 & T3). destruct (session_only _ _ _ _ E) as (o & s & H & _). exists st, o, s.
  repeat (split; [assumption|]). split; [|auto].
  destruct (session_from _ _ _ _ _ _ H log_start start_fits) as (st' & E' & F & _). rewrite E in E'. injection E' as <-.
  vm_compute in E. injection E as <-. destruct F as [F1 F2]. destruct s as [w t]. cbn [fst snd] in *. rewrite F2. f_equal.
  destruct w as [| |f|]; cbn in F1; try discriminate F1; [|reflexivity]. destruct F1 as (n & F1 & F3). injection F1 as <- <-. discriminate F3.
Qed.
