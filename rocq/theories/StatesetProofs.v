(** Proofs about print_support (Statesets.v). *)
From Coq Require Import List ZArith Bool Ascii String Arith Lia.
From Verif Require Import Base Bdd Support Strs SupportProofs EnumProofs PrintProofs TextProofs Logging LogSpec LogProofs Statesets StatesetSpec.
Import ListNotations.
Open Scope string_scope.
Open Scope list_scope.
Open Scope Z_scope.

(** ** Lines *)
(** what is written for the bits from position [i] on *)
Fixpoint spaced (i : nat) (s : vec) : string :=
  match s with
  | [] => ""
  | b :: r => ((if (0 <? i)%nat && (i mod 4 =? 0)%nat then " " else "") ++ String (bit_char b) (spaced (S i) r))%string
  end.
Lemma spaced_mod : forall s i j, (0 < i)%nat -> (0 < j)%nat -> (i mod 4 = j mod 4)%nat -> spaced i s = spaced j s.
Proof.
  induction s as [|b r IH]; intros i j Hi Hj E; [reflexivity|]. cbn [spaced]. rewrite E.
  destruct (Nat.ltb_spec 0 i) as [_|X]; [|lia]. destruct (Nat.ltb_spec 0 j) as [_|X]; [|lia].
  rewrite (IH (S i) (S j)); try lia; [reflexivity|].
  rewrite <- (Nat.add_1_r i), <- (Nat.add_1_r j). rewrite Nat.add_mod, E, <- Nat.add_mod by lia. reflexivity.
Qed.
Lemma spaced_fours : forall s gs, fours s gs -> spaced 0 s = String.concat " " (map bits_text gs).
Proof.
  intros s gs H. induction H as [|g H1 H2|g r gs H1 H2 H IH]; [reflexivity| |].
  - destruct g as [|a [|b [|c [|d [|e g]]]]]; cbn in H2; [congruence| | | | |lia]; reflexivity.
  - destruct g as [|a [|b [|c [|d [|e g]]]]]; try discriminate H1. destruct r as [|x r]; [congruence|].
    assert (X : exists h t, map bits_text gs = h :: t) by (inversion H; subst; cbn; eauto). destruct X as (h & t & X). cbn [map]. rewrite X in *. cbn [String.concat] in *.
    cbn [app spaced]. cbn [spaced] in IH. cbn [Nat.ltb Nat.leb andb Nat.modulo Nat.divmod fst Nat.sub Nat.eqb snd String.append] in *.
    cbn [bits_text fold_right String.append]. rewrite <- IH. do 5 f_equal. f_equal. apply spaced_mod; cbn; lia.
Qed.
Lemma fours_exists : forall n s, (List.length s <= n)%nat -> exists gs, fours s gs.
Proof.
  induction n as [|n IH]; intros s H.
  - destruct s; [|cbn in H; lia]. eexists. constructor.
  - destruct s as [|a [|b [|c [|d [|e r]]]]]; [eexists; constructor|eexists; apply fours_last; [discriminate|cbn; lia]..|].
    destruct (IH (e :: r)) as (gs & G); [cbn in *; lia|]. exists ([a;b;c;d] :: gs). exact (fours_more [a;b;c;d] (e :: r) gs eq_refl ltac:(discriminate) G).
Qed.
Lemma line_is : forall s x, state_line s x <-> x = spaced 0 s.
Proof.
  intros s x. split.
  - intros (gs & H & ->). symmetry. apply spaced_fours. exact H.
  - intros ->. destruct (fours_exists _ s (le_n _)) as (gs & H). exists gs. split; [exact H|]. apply spaced_fours. exact H.
Qed.
Fixpoint no_blank (s : string) : string := match s with "" => "" | String c r => if Ascii.eqb c " " then no_blank r else String c (no_blank r) end%string.
Lemma spaced_bits : forall s i, no_blank (spaced i s) = bits_text s.
Proof.
  induction s as [|b r IH]; intros i; [reflexivity|]. cbn [spaced bits_text fold_right].
  assert (X : no_blank (String (bit_char b) (spaced (S i) r)) = String (bit_char b) (bits_text r)).
  { cbn [no_blank]. rewrite IH. unfold bit_char. destruct (b =? 0); reflexivity. }
  destruct ((0 <? i)%nat && (i mod 4 =? 0)%nat); cbn [String.append]; [cbn [no_blank Ascii.eqb Bool.eqb]|]; exact X.
Qed.
Lemma bits_inj : forall s s', Forall isbit s -> Forall isbit s' -> bits_text s = bits_text s' -> s = s'.
Proof.
  induction s as [|b s IH]; intros [|b' s'] H H' E; try discriminate E; [reflexivity|]. inversion H as [|? ? B H1]; inversion H' as [|? ? B' H1']; subst.
  injection E as E1 E2. f_equal; [|apply IH; auto]. destruct B as [->| ->], B' as [->| ->]; auto; discriminate E1.
Qed.
Lemma line_read : forall n n' s s' x, bitvec n s -> bitvec n' s' -> state_line s x -> state_line s' x -> s = s'.
Proof.
  intros n n' s s' x [_ H] [_ H'] L L'. apply line_is in L. apply line_is in L'. apply bits_inj; auto. rewrite <- (spaced_bits s 0), <- (spaced_bits s' 0). congruence.
Qed.

(** ** Writing *)
Definition same (a b : lstate) : Prop := l_fp a = l_fp b /\ l_opt a = l_opt b /\ l_open a = l_open b /\ l_count a = l_count b.
Lemma same_trans : forall a b c, same a b -> same b c -> same a c.
Proof. intros a b c (A & B & C & D) (E & F & G & H). repeat split; congruence. Qed.
Lemma same_use : forall p a b, same a b -> in_use p a = in_use p b.
Proof. intros p a b (_ & _ & H & _). unfold in_use. rewrite H. reflexivity. Qed.
Definition writes (pl : place) (st st' : lstate) (x : string) : Prop := adds st st' [(pl, x)] /\ same st' st.
Lemma writes_none : forall pl st, writes pl st st "".
Proof. intros pl st. split; [apply adds_empty|]. repeat split. Qed.
Lemma writes_app : forall pl a b c x y, writes pl a b x -> writes pl b c y -> writes pl a c (x ++ y)%string.
Proof.
  intros pl a b c x y [H1 H2] [H3 H4]. split; [|eapply same_trans; eauto]. eapply adds_same; [|eapply adds_trans; [exact H1|exact H3]].
  intros q. unfold told. cbn. destruct (place_eqb pl q); cbn; rewrite ?str_nil_r; reflexivity.
Qed.
Lemma writes_put : forall p x st, writes (shown (Stream p)) st (put (Stream p) x st) x.
Proof. intros p x st. split; [apply adds_put|repeat split]. Qed.
Section Write.
  Variables (p : fptr).
  Notation open_at st := (l_fp st = Some p /\ in_use p st = true).
  Lemma open_same : forall a b, same b a -> open_at a -> open_at b.
  Proof. intros a b H [H1 H2]. split; [destruct H as [X _]; congruence|rewrite (same_use p b a H); exact H2]. Qed.
  Lemma bits_ok : forall s i st, Forall isbit s -> open_at st -> exists st', print_bits i s st = Ok st' /\ writes (shown (Stream p)) st st' (spaced i s).
  Proof.
    induction s as [|b s IH]; intros i st HB HO; [exists st; split; [reflexivity|apply writes_none]|].
    inversion HB as [|? ? B HB']; subst. cbn [print_bits spaced]. destruct HO as [O1 O2].
    assert (X : exists st1, (if (0 <? i)%nat && (i mod 4 =? 0)%nat then logprint_raw " " [] st else Ok st) = Ok st1 /\
      writes (shown (Stream p)) st st1 (if (0 <? i)%nat && (i mod 4 =? 0)%nat then " " else "")).
    { destruct ((0 <? i)%nat && (i mod 4 =? 0)%nat); [|exists st; split; [reflexivity|apply writes_none]].
      unfold logprint_raw. rewrite O1. cbn [log_format Ascii.eqb Bool.eqb bind]. unfold write. rewrite O2. eexists. split; [reflexivity|apply writes_put]. }
    destruct X as (st1 & -> & W1). cbn [bind]. destruct (open_same st st1 (proj2 W1) (conj O1 O2)) as [O3 O4].
    assert (X : exists st2, logprint_raw "%d" [AInt b] st1 = Ok st2 /\ writes (shown (Stream p)) st1 st2 (String (bit_char b) "")).
    { unfold logprint_raw. rewrite O3. assert (F : log_format "%d" [AInt b] = Ok (String (bit_char b) "")) by (destruct B as [->| ->]; reflexivity).
      rewrite F. cbn [bind]. unfold write. rewrite O4. eexists. split; [reflexivity|apply writes_put]. }
    destruct X as (st2 & -> & W2). cbn [bind]. destruct (IH (S i) st2 HB' (open_same st1 st2 (proj2 W2) (conj O3 O4))) as (st3 & E & W3).
    exists st3. split; [exact E|]. eapply writes_app; [exact W1|]. exact (writes_app _ _ _ _ _ _ W2 W3).
  Qed.
  Definition line_text (now : moment) (st : lstate) (s : vec) : string := (stamp now st ++ spaced 0 s ++ newline)%string.
  Lemma stamp_same : forall now a b, same a b -> stamp now a = stamp now b.
  Proof. intros now a b (_ & H & _). unfold stamp. rewrite H. reflexivity. Qed.
  Lemma state_ok : forall now s st, Forall isbit s -> open_at st ->
    exists st', print_state now s st = Ok st' /\ writes (shown (Stream p)) st st' (line_text now st s).
  Proof.
    intros now s st HB [O1 O2]. unfold print_state.
    assert (X : exists st1, logprint_startline now st = Ok st1 /\ writes (shown (Stream p)) st st1 (stamp now st)).
    { unfold logprint_startline, stamp. rewrite O1. destruct (Z.land (l_opt st) 1 =? 0); [|exists st; split; [reflexivity|apply writes_none]].
      unfold write. rewrite O2. eexists. split; [reflexivity|apply writes_put]. }
    destruct X as (st1 & -> & W1). cbn [bind]. destruct (open_same st st1 (proj2 W1) (conj O1 O2)) as [O3 O4].
    destruct (bits_ok s 0 st1 HB (conj O3 O4)) as (st2 & -> & W2). cbn [bind]. destruct (open_same st1 st2 (proj2 W2) (conj O3 O4)) as [O5 O6].
    unfold logprint_endline. rewrite O5. unfold write. rewrite O6. eexists. split; [reflexivity|].
    eapply writes_app; [exact W1|]. eapply writes_app; [exact W2|]. apply writes_put.
  Qed.
  Lemma cube_ok : forall g c l, visits g c l -> (forall v, In v l -> Forall isbit v) -> forall fuel now st, (List.length l <= fuel)%nat -> open_at st ->
    exists st', print_cube fuel now c g st = Ok st' /\ writes (shown (Stream p)) st st' (String.concat "" (map (line_text now st) l)).
  Proof.
    intros g c l H. induction H; intros HB fuel now st HL HO.
    - destruct fuel as [|fuel]; [cbn in HL; lia|]. cbn [print_cube]. rewrite H.
      destruct (state_ok now c st (HB c (or_introl eq_refl)) HO) as (st' & E & W). exists st'. split; [exact E|]. exact W.
    - destruct fuel as [|fuel]; [cbn in HL; lia|]. cbn [print_cube]. rewrite H.
      destruct (state_ok now c st (HB c (or_introl eq_refl)) HO) as (st1 & -> & W1). cbn [bind].
      destruct (IHvisits (fun v Hv => HB v (or_intror Hv)) fuel now st1 ltac:(cbn in HL; lia) (open_same st st1 (proj2 W1) HO)) as (st2 & E & W2).
      exists st2. split; [exact E|]. cbn [map]. rewrite cat_cons. eapply writes_app; [exact W1|].
      rewrite (map_ext (line_text now st) (line_text now st1)); [exact W2|]. intros s. unfold line_text. rewrite (stamp_same now st1 st (proj2 W1)). reflexivity.
  Qed.
  Lemma cubes_all : forall n cs fuel now st, (2 ^ n <= fuel)%nat -> (forall c, In c cs -> List.length (slice 0 n c) = n /\ Forall islit (slice 0 n c)) -> open_at st ->
    exists st', print_cubes fuel now n cs st = Ok st' /\
      writes (shown (Stream p)) st st' (String.concat "" (map (line_text now st) (List.concat (map (fun c => completions (slice 0 n c)) cs)))).
  Proof.
    intros n cs. induction cs as [|c cs IH]; intros fuel now st HL HC HO; [exists st; split; [reflexivity|apply writes_none]|].
    destruct (HC c (or_introl eq_refl)) as [C1 C2]. cbn [print_cubes map List.concat].
    destruct (cube_ok (slice 0 n c) _ _ (visits_all (slice 0 n c))) with (fuel := fuel) (now := now) (st := st) as (st1 & -> & W1); auto.
    { intros v Hv. apply completions_spec in Hv. eapply completes_bits; eauto. }
    { pose proof (completions_length (slice 0 n c)) as X. rewrite C1 in X. lia. }
    cbn [bind]. destruct (IH fuel now st1 HL (fun d Hd => HC d (or_intror Hd)) (open_same st st1 (proj2 W1) HO)) as (st2 & E & W2).
    exists st2. split; [exact E|]. rewrite map_app, cat_app. eapply writes_app; [exact W1|].
    rewrite (map_ext (line_text now st) (line_text now st1)); [exact W2|]. intros s. unfold line_text. rewrite (stamp_same now st1 st (proj2 W1)). reflexivity.
  Qed.
End Write.

(** ** States *)
Lemma slice_ok : forall m n X cs c, (n <= m)%nat -> cubes_ok m X cs -> In c cs -> List.length (slice 0 n c) = n /\ Forall islit (slice 0 n c).
Proof.
  intros m n X cs c Hn [H _] Hc. rewrite Forall_forall in H. destruct (H c Hc) as (H1 & H2 & _). unfold slice. cbn [skipn]. split.
  - rewrite firstn_length. lia.
  - rewrite <- (firstn_skipn n c) in H2. apply Forall_app in H2. tauto.
Qed.
Lemma states_listed : forall m n X cs, about_states m n X -> cubes_ok m X cs ->
  lists_states m n X (List.concat (map (fun c => completions (slice 0 n c)) cs)).
Proof.
  intros m n X cs [Hn HX] HC.
  assert (D : forall i, (i < m)%nat -> depends m X i -> (0 <= i < 0 + n)%nat).
  { apply (depends_slice m 0 n X (fun s => ev X (s ++ zeros (m - n)))); [lia|]. intros v [V1 V2]. unfold slice. cbn [skipn].
    rewrite <- (firstn_skipn n v) at 1 2. rewrite <- (firstn_skipn n v) in V2. apply Forall_app in V2. destruct V2 as [V2 V3].
    rewrite (firstn_skipn n v). rewrite <- (firstn_skipn n v) at 1. apply HX; [split; [rewrite firstn_length; lia|exact V2]|split; [rewrite skipn_length; lia|exact V3]|apply bitvec_zeros]. }
  destruct (enum_slices m 0 n X cs Hn HC D) as [N L]. split; [exact N|]. intros s. rewrite (L s). cbn [zeros repeat app]. rewrite Nat.sub_0_r. split.
  - intros [B E]. split; [exact B|]. exists (zeros (m - n)). split; [apply bitvec_zeros|exact E].
  - intros [B (a & A & E)]. split; [exact B|]. rewrite <- E. apply HX; auto using bitvec_zeros.
Qed.
(** the text for a list of states *)
Lemma log_ok : forall m n X cs fuel now st p, about_states m n X -> cubes_ok m X cs -> (2 ^ n <= fuel)%nat ->
  l_fp st = Some p -> in_use p st = true ->
  exists st' ls xs, print_support fuel now n cs None st = Ok st' /\ lists_states m n X ls /\ Forall2 state_line ls xs /\
    l_fp st' = l_fp st /\ l_opt st' = l_opt st /\
    forall q, told q (visible st') = (told q (visible st) ++
      if place_eqb (shown (Stream p)) q then String.concat "" (map (fun x => time_mark (Z.even (l_opt st)) now ++ x ++ newline) xs) else "")%string.
Proof.
  intros m n X cs fuel now st p HX HC HL O1 O2. pose proof (states_listed m n X cs HX HC) as L. set (ls := List.concat _) in L.
  destruct (cubes_all p n cs fuel now st HL (fun c Hc => slice_ok m n X cs c (proj1 HX) HC Hc) (conj O1 O2)) as (st' & E & W & S). fold ls in W.
  exists st', ls, (map (spaced 0) ls). split; [exact E|]. split; [exact L|]. split.
  { clear. induction ls as [|s ls IH]; constructor; auto. apply line_is. reflexivity. }
  destruct S as (S1 & S2 & _). split; [exact S1|]. split; [exact S2|]. intros q. rewrite W. f_equal. unfold told. cbn [filter fst map snd].
  destruct (place_eqb (shown (Stream p)) q); cbn [map snd String.concat]; [|reflexivity]. rewrite map_map. f_equal. apply map_ext. intros s.
  unfold line_text, stamp, time_mark. rewrite even_bit. reflexivity.
Qed.
Lemma stream_ok : forall m n X cs fuel now st p, about_states m n X -> cubes_ok m X cs -> (2 ^ n <= fuel)%nat -> in_use p st = true ->
  exists st' ls xs, print_support fuel now n cs (Some p) st = Ok st' /\ lists_states m n X ls /\ Forall2 state_line ls xs /\
    (l_fp st <> None -> l_fp st' = l_fp st) /\ l_opt st' = l_opt st /\
    forall q, told q (visible st') = (told q (visible st) ++
      if place_eqb (shown (Stream p)) q then String.concat "" (map (fun x => x ++ newline) xs) else "")%string.
Proof.
  intros m n X cs fuel now st p HX HC HL O2.
  destruct (log_ok m n X cs fuel now (setlogopt 1 (setlogstream (Some p) st)) p HX HC HL eq_refl O2) as (st' & ls & xs & E & L & F & _ & _ & T).
  cbn [print_support] in *. rewrite E. cbn [bind]. eexists _, ls, xs. split; [reflexivity|]. split; [exact L|]. split; [exact F|].
  split; [intros N; cbn; destruct (l_fp st); congruence|]. split; [reflexivity|]. exact T.
Qed.
Lemma none_crash : forall m n X cs fuel now st v, cubes_ok m X cs -> (0 < fuel)%nat -> l_fp st = None -> bitvec m v -> ev X v = true ->
  print_support fuel now n cs None st = Crash.
Proof.
  intros m n X cs fuel now st v [_ HC] HL O HV HE. specialize (HC v HV). rewrite HE in HC. destruct cs as [|c cs]; [discriminate HC|].
  cbn [print_support print_cubes]. destruct fuel as [|fuel]; [lia|].
  assert (B : forall s i a, l_fp a = None -> exists b, print_bits i s a = Ok b /\ l_fp b = None).
  { induction s as [|x s IH]; intros i a A; [exists a; auto|]. cbn [print_bits].
    assert (Y : exists b, (if (0 <? i)%nat && (i mod 4 =? 0)%nat then logprint_raw " " [] a else Ok a) = Ok b /\ l_fp b = None).
    { destruct ((0 <? i)%nat && (i mod 4 =? 0)%nat); [|exists a; auto]. unfold logprint_raw. rewrite A. eexists. split; [reflexivity|exact A]. }
    destruct Y as (b & -> & B). cbn [bind]. unfold logprint_raw. rewrite B. cbn [bind]. apply IH. exact B. }
  assert (P : forall s, print_state now s st = Crash).
  { intros s. unfold print_state, logprint_startline. rewrite O. cbn [bind]. destruct (B s 0%nat (put Stderr no_log st) O) as (b & -> & B'). cbn [bind].
    unfold logprint_endline. rewrite B'. reflexivity. }
  cbn [print_cube]. destruct (saturated_cube _ _); rewrite P; reflexivity.
Qed.
Lemma line_one : forall s, exists x, state_line s x /\ forall y, state_line s y -> y = x.
Proof. intros s. exists (spaced 0 s). split; [apply line_is; reflexivity|]. intros y H. apply line_is. exact H. Qed.
Lemma state_twice : exists X st', wf 3 X /\ print_support 2 (Moment "" "") 1 (robdd_oracle 0%nat X) (Some Stdout) log_start = Ok st' /\
  told OnStdout (visible st') = (("1" ++ newline) ++ ("1" ++ newline))%string /\ holds 3 1 X [1] /\ ~ holds 3 1 X [0].
Proof.
  exists (mk 3 (fun v => (nth 0 v 0 =? 1) && negb (nth 1 v 0 =? nth 2 v 0))). eexists. split; [apply wf_mk|]. split; [vm_compute; reflexivity|].
  split; [vm_compute; reflexivity|]. split.
  - exists [0; 1]. split; [split; [reflexivity|repeat (constructor; [unfold isbit; auto|]); constructor]|vm_compute; reflexivity].
  - intros (a & A & E). rewrite ev_mk in E; [discriminate E|]. apply (bitvec_app 1 2 [0] a); [split; [reflexivity|repeat constructor]|exact A].
Qed.
Lemma states_example : let X := mk 5 (fun v => (nth 0 v 0 =? 1) && (nth 2 v 0 =? 0) && (nth 4 v 0 =? 1) && (nth 3 v 0 =? 1)) in
  about_states 5 5 X /\ cubes_ok 5 X (robdd_oracle 0%nat X) /\
  exists st', print_support 32 (Moment "" "") 5 (robdd_oracle 0%nat X) (Some Stdout) log_start = Ok st' /\
  told OnStdout (visible st') = (("1001 1" ++ newline) ++ ("1101 1" ++ newline))%string.
Proof.
  intros X. split; [|split].
  - split; [lia|]. intros s a b _ [A _] [B _]. destruct a; [|discriminate A]. destruct b; [|discriminate B]. reflexivity.
  - apply robdd_oracle_ok. apply wf_mk.
  - eexists. split; [vm_compute; reflexivity|vm_compute; reflexivity].
Qed.
