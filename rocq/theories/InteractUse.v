(** What the answers of the interactive mode tell about each other, and what following
    sysnext achieves. *)
From Coq Require Import List ZArith Bool Arith Lia String.
From Verif Require Import Base Game Bdd Support SupportProofs Strs Ptree Form Solve FSpec SolveProofs Levels
  Automaton Synth SynthBdd SynthSpec AutIOSpec Interactive InteractSpec InteractLevels InteractProofs InteractRun InteractText.
Import ListNotations.
Open Scope list_scope.
Open Scope nat_scope.

Lemma book_app : forall F h c, book_after F (h ++ [c]) = update F (book_after F h) c.
Proof. intros. unfold book_after. rewrite fold_left_app. reflexivity. Qed.

Section Use.
  Variable F : fspec.
  Variable orc : oracle.
  Variable fuel : nat.
  Hypothesis Hr : ready F orc fuel.
  Notation GW := (game_with F).
  Notation replies := (replies F orc fuel).
  Notation alive := (alive F orc fuel).
  Notation shown_env := (shown_env F orc fuel).
  Notation shown_sys := (shown_sys F orc fuel).
  Notation follows := (follows F orc fuel).

  Lemma replies_answers : forall h c a, Forall (valid F) h -> valid F c -> replies h c a ->
    answers F (book_after F h) c a.
  Proof.
    intros h c a Hh Hc (l & Hl & Hlen). destruct Hr as (H1 & H2 & H3 & H4 & H5 & H6).
    destruct (asked_last F H1 H2 H3 H4 orc H5 fuel h c _ H6 Hh Hc Hl) as (l0 & a0 & E & _ & Ha).
    apply app_inj_tail in E. destruct E as [_ ->]. exact Ha.
  Qed.
  Lemma stuck_app : forall h c, gets_stuck F (opening F) (h ++ [c]) <->
    gets_stuck F (opening F) h \/ stuck F (book_after F h) c.
  Proof.
    intros h c. split.
    - intros (h0 & c0 & t & E & Hs). destruct (exists_last (l := c0 :: t)) as (t' & z & Et); [discriminate|].
      rewrite Et, app_assoc in E. apply app_inj_tail in E. destruct E as [E ->].
      destruct t' as [|c1 t'].
      + cbn in Et. inversion Et; subst. rewrite app_nil_r. right. exact Hs.
      + left. cbn in Et. inversion Et; subst. exists h0, c1, t'. split; auto.
    - intros [(h0 & c0 & t & -> & Hs)|Hs].
      + exists h0, c0, (t ++ [c]). split; auto. rewrite <- app_assoc. reflexivity.
      + exists h, c, []. split; auto.
  Qed.
  Lemma alive_iff : forall h, Forall (valid F) h -> (alive h <-> ~ gets_stuck F (opening F) h).
  Proof.
    intros h Hh. destruct Hr as (H1 & H2 & H3 & H4 & H5 & H6).
    destruct (asked_ok F H1 H2 H3 H4 orc H5 fuel H6 h Hh) as (HC & HO). split.
    - intros (l & Hl) Hs. rewrite (HC Hs) in Hl. discriminate.
    - intros Hs. destruct (HO Hs) as (l & Hl & _). exists l. exact Hl.
  Qed.
  Lemma replies_exist : forall h c, Forall (valid F) h -> valid F c -> alive h ->
    ~ stuck F (book_after F h) c -> exists a, replies h c a.
  Proof.
    intros h c Hh Hc Ha Hs. apply alive_iff in Ha; auto.
    assert (Hn : ~ gets_stuck F (opening F) (h ++ [c])) by (rewrite stuck_app; tauto).
    assert (Hv : Forall (valid F) (h ++ [c])) by (apply Forall_app; auto).
    destruct Hr as (H1 & H2 & H3 & H4 & H5 & H6).
    destruct (asked_ok F H1 H2 H3 H4 orc H5 fuel H6 _ Hv) as (_ & HO).
    destruct (HO Hn) as (l & Hl & _).
    destruct (asked_last F H1 H2 H3 H4 orc H5 fuel h c _ H6 Hh Hc Hl) as (l0 & a0 & -> & Hlen & _).
    exists a0, l0. auto.
  Qed.
  Lemma not_sysnext_replies : forall h c, Forall (valid F) h -> valid F c -> alive h ->
    (forall s e i, c <> SysNext s e i) -> exists a, replies h c a.
  Proof.
    intros h c Hh Hc Ha Hn. apply replies_exist; auto. destruct c; cbn [stuck]; auto.
    exfalso. eapply Hn. reflexivity.
  Qed.
  Lemma stuck_crash : forall h c, Forall (valid F) h -> valid F c ->
    stuck F (book_after F h) c -> asked F orc fuel (h ++ [c]) = Crash.
  Proof.
    intros h c Hh Hc Hs. destruct Hr as (H1 & H2 & H3 & H4 & H5 & H6).
    assert (Hv : Forall (valid F) (h ++ [c])) by (apply Forall_app; auto).
    destruct (asked_ok F H1 H2 H3 H4 orc H5 fuel H6 _ Hv) as (HC & _). apply HC. apply stuck_app. auto.
  Qed.
  Lemma alive_step : forall h c a, replies h c a -> alive (h ++ [c]).
  Proof. intros h c a (l & Hl & _). exists (l ++ [a]). exact Hl. Qed.
  Lemma alive_nil : alive [].
  Proof.
    apply alive_iff; [constructor|]. intros (h & c & t & E & _). destruct h; discriminate.
  Qed.
  Lemma alive_quiet : forall h, Forall (valid F) h -> (forall c, In c h -> forall s e i, c <> SysNext s e i) ->
    alive h.
  Proof.
    induction h as [|c h IH] using rev_ind; intros Hv Hn; [apply alive_nil|].
    apply Forall_app in Hv. destruct Hv as [Hh Hc]. inversion Hc; subst.
    destruct (not_sysnext_replies h c) as (a & Ha); auto.
    - apply IH; auto. intros c0 H0. apply Hn. apply in_or_app. auto.
    - apply Hn. apply in_or_app. right. left. reflexivity.
    - eapply alive_step; eauto.
  Qed.

  (** *** the lists of moves *)
  Lemma env_listed : forall h u l, Forall (valid F) h -> In u (fs_states F) -> replies h (EnvNext u) (AMoves l) ->
    lists l (legal_env (GW (now (book_after F h))) u).
  Proof.
    intros h u l Hh Hu H. apply replies_answers in H; auto. cbn [answers] in H.
    destruct (fs_evars F) as [|v0 vs]; [discriminate|]. destruct H as (l0 & E & HL). inversion E. exact HL.
  Qed.
  Lemma sys_listed : forall h u e l, Forall (valid F) h -> In u (fs_states F) -> In e (fs_envs F) ->
    replies h (SysNextA u e) (AMoves l) ->
    lists l (fun y => legal_sys (GW (now (book_after F h))) u e (e ++ y)).
  Proof.
    intros h u e l Hh Hu He H. apply replies_answers in H; [|auto|cbn; auto]. cbn [answers] in H.
    destruct H as (l0 & E & HL). inversion E. exact HL.
  Qed.

  Lemma shown_env_iff : forall h u x, Forall (valid F) h -> alive h -> fs_evars F <> [] -> In u (fs_states F) ->
    (shown_env h u x <-> legal_env (GW (now (book_after F h))) u x).
  Proof.
    intros h u x Hh Ha Hev Hu. destruct (not_sysnext_replies h (EnvNext u)) as (a & Hrep); auto; [discriminate|].
    pose proof (replies_answers _ (EnvNext u) _ Hh Hu Hrep) as HA. cbn [answers] in HA.
    assert (HA' : exists l, a = AMoves l /\ lists l (legal_env (GW (now (book_after F h))) u)).
    { destruct (fs_evars F); [congruence|exact HA]. }
    destruct HA' as (l & -> & HL). split.
    - intros (l' & H1 & H2). apply (proj2 (env_listed h u l' Hh Hu H1)). exact H2.
    - intros H. exists l. split; auto. apply (proj2 HL). exact H.
  Qed.
  Lemma env_part : forall x, In x (fs_states F) -> In (firstn (List.length (fs_evars F)) x) (fs_envs F).
  Proof.
    intros x Hx. destruct Hr as (H1 & H2 & _). apply (stb F H2) in Hx. apply (enb F H2).
    destruct (split2 _ _ _ Hx) as (a & c & -> & Ha & Hc). rewrite firstn_len; [exact Ha|apply Ha].
  Qed.
  Lemma shown_sys_iff : forall h u x, Forall (valid F) h -> alive h -> In u (fs_states F) -> In x (fs_states F) ->
    (shown_sys h u x <-> may_sys (now (book_after F h)) u x = true).
  Proof.
    intros h u x Hh Ha Hu Hx. pose proof (env_part x Hx) as He.
    destruct (not_sysnext_replies h (SysNextA u (firstn (List.length (fs_evars F)) x))) as (a & Hrep); auto;
      [cbn; auto|discriminate|].
    pose proof (replies_answers _ (SysNextA u (firstn (List.length (fs_evars F)) x)) _ Hh (Logic.conj Hu He) Hrep) as HA.
    cbn [answers] in HA. destruct HA as (l & -> & HL).
    assert (Ex : (firstn (List.length (fs_evars F)) x ++ out_of F x) = x) by apply firstn_skipn.
    split.
    - intros (l' & H1 & H2). apply (proj2 (sys_listed h u _ l' Hh Hu He H1)) in H2. rewrite Ex in H2. apply H2.
    - intros H. exists l. split; auto. apply (proj2 HL). rewrite Ex. repeat split; auto.
  Qed.
  Lemma may_env_of : forall h u x, Forall (valid F) h -> alive h -> fs_evars F <> [] -> In u (fs_states F) ->
    In x (fs_envs F) -> (shown_env h u x <-> may_env (now (book_after F h)) u x = true).
  Proof.
    intros h u x Hh Ha Hev Hu Hx. rewrite shown_env_iff by auto. split; [intros H; apply H|intros H; split; auto].
  Qed.

  Lemma alive_before : forall h c, Forall (valid F) h -> valid F c -> alive (h ++ [c]) -> alive h.
  Proof.
    intros h c Hh Hc Ha. apply alive_iff in Ha; [|apply Forall_app; auto]. apply alive_iff; auto.
    intros H. apply Ha. apply stuck_app. auto.
  Qed.
  Lemma pair_eqb : forall a b u x : vec, vec_eqb u a && vec_eqb x b = true <-> u = a /\ x = b.
  Proof. intros. rewrite andb_true_iff, !vec_eqb_iff. tauto. Qed.
  Lemma neg_pair : forall a b u x : vec, negb (vec_eqb u a && vec_eqb x b) = true <-> ~ (u = a /\ x = b).
  Proof. intros. rewrite negb_true_iff, <- pair_eqb. destruct (vec_eqb u a && vec_eqb x b); intuition congruence. Qed.
  Lemma neg_eqb : forall a b : vec, negb (vec_eqb a b) = true <-> a <> b.
  Proof. intros. rewrite negb_true_iff, <- vec_eqb_iff. destruct (vec_eqb a b); intuition congruence. Qed.
  Lemma env_edit : forall h c u x, Forall (valid F) h -> valid F c -> alive (h ++ [c]) -> fs_evars F <> [] ->
    In u (fs_states F) -> In x (fs_envs F) ->
    (shown_env (h ++ [c]) u x <->
     match c with
     | RestrictEnv s e => shown_env h u x /\ ~ (u = s /\ x = e)
     | RelaxEnv s e => shown_env h u x \/ (u = s /\ x = e)
     | BlockEnv e => shown_env h u x /\ x <> e
     | Clear => shown_env [] u x
     | _ => shown_env h u x
     end).
  Proof.
    intros h c u x Hh Hc Ha Hev Hu Hx. pose proof (alive_before h c Hh Hc Ha) as Ha'.
    assert (Hhc : Forall (valid F) (h ++ [c])) by (apply Forall_app; auto).
    rewrite (may_env_of (h ++ [c]) u x Hhc Ha Hev Hu Hx), book_app.
    pose proof (may_env_of h u x Hh Ha' Hev Hu Hx) as E.
    destruct c; cbn [update now edit with_env with_sys may_env]; try (rewrite E; tauto).
    - rewrite E, andb_true_iff, neg_pair. tauto.
    - rewrite E, orb_true_iff, pair_eqb. tauto.
    - rewrite E, andb_true_iff, neg_eqb. tauto.
    - rewrite (may_env_of [] u x (Forall_nil _) alive_nil Hev Hu Hx). tauto.
  Qed.
  Lemma sys_edit : forall h c u x, Forall (valid F) h -> valid F c -> alive (h ++ [c]) ->
    In u (fs_states F) -> In x (fs_states F) ->
    (shown_sys (h ++ [c]) u x <->
     match c with
     | RestrictSys s s' => shown_sys h u x /\ ~ (u = s /\ x = s')
     | RelaxSys s s' => shown_sys h u x \/ (u = s /\ x = s')
     | BlockSys y => shown_sys h u x /\ out_of F x <> y
     | Clear => shown_sys [] u x
     | _ => shown_sys h u x
     end).
  Proof.
    intros h c u x Hh Hc Ha Hu Hx. pose proof (alive_before h c Hh Hc Ha) as Ha'.
    assert (Hhc : Forall (valid F) (h ++ [c])) by (apply Forall_app; auto).
    rewrite (shown_sys_iff (h ++ [c]) u x Hhc Ha Hu Hx), book_app.
    pose proof (shown_sys_iff h u x Hh Ha' Hu Hx) as E.
    destruct c; cbn [update now edit with_env with_sys may_sys]; try (rewrite E; tauto).
    - rewrite E, andb_true_iff, neg_pair. tauto.
    - rewrite E, orb_true_iff, pair_eqb. tauto.
    - rewrite E, andb_true_iff, neg_eqb. tauto.
    - rewrite (shown_sys_iff [] u x (Forall_nil _) alive_nil Hu Hx). tauto.
  Qed.
  Lemma env_loaded : forall u x, fs_evars F <> [] -> In u (fs_states F) -> In x (fs_envs F) ->
    (shown_env [] u x <-> legal_env (game_of F) u x).
  Proof. intros. rewrite shown_env_iff by (auto using alive_nil). cbn. tauto. Qed.
  Lemma sys_loaded : forall u x, In u (fs_states F) -> In x (fs_states F) ->
    (shown_sys [] u x <-> legal_sys (game_of F) u (firstn (List.length (fs_evars F)) x) x).
  Proof.
    intros u x Hu Hx. rewrite shown_sys_iff by (auto using alive_nil). unfold legal_sys. cbn. tauto.
  Qed.
  (** the whole game is the one shown *)
  Lemma rules_shown : forall h s s', Forall (valid F) h -> alive h -> In s (fs_states F) -> In s' (fs_states F) ->
    (shown_sys h s s' <-> g_str (GW (now (book_after F h))) s s' = true).
  Proof. intros. apply shown_sys_iff; auto. Qed.

  (** *** following sysnext *)
  Section Follow.
    Variable r : rules.
    Variables (i K : nat) (Y : nat -> vec -> bool).
    Hypothesis HS : sublevels F r i K Y.
    Notation b := {| now := r; win := r; lev := r |}.

    Lemma in_top : forall s, In s (fs_states F) -> (Y K s = true <-> sys_wins (GW r) s).
    Proof.
      intros s Hs. destruct HS as (W & X & HW & HL).
      rewrite (lad_top _ _ _ _ _ _ _ _ HL s Hs : Y K s = W s). auto.
    Qed.
    Lemma above : forall s a c, In s (fs_states F) -> a <= c <= K -> Y a s = true -> Y c s = true.
    Proof.
      intros s a c Hs Hac Ha. destruct HS as (W & X & HW & HL).
      apply (lad_mono _ _ _ _ _ _ _ _ HL s Hs a c Hac Ha).
    Qed.
    Lemma index_low : forall s j, In s (fs_states F) -> sys_wins (GW r) s -> index_in K Y s j -> j <= K.
    Proof.
      intros s j Hs Hw (Hj & Hf & _). apply in_top in Hw; auto.
      destruct (Nat.eq_dec j (K + 1)) as [->|]; [|lia].
      replace (K + 1 - 1) with K in Hf by lia. congruence.
    Qed.
    Lemma answer_split : forall s e s', legal_sys (GW r) s e s' -> s' = e ++ out_of F s'.
    Proof. intros s e s' (_ & <- & _). symmetry. apply firstn_skipn. Qed.
    Lemma forced : forall s e T, forces (GW r) T s -> legal_env (GW r) s e ->
      (forall u, In u (fs_states F) -> T u = true -> Y K u = true) ->
      exists y, good_answer F b s e T y.
    Proof.
      intros s e T HF He HT. destruct (HF e He) as (s' & Hl & Ht). exists (out_of F s').
      unfold good_answer. cbn [now win lev].
      rewrite <- (answer_split _ _ _ Hl). split; auto. split; auto.
      apply in_top; [apply Hl|]. apply HT; auto. apply Hl.
    Qed.
    Lemma some_answer : forall s e j, In s (fs_states F) -> sgoal F i s = false -> legal_env (GW r) s e ->
      index_in K Y s j -> j <= K -> exists y, sys_choice F b s e Y j y.
    Proof.
      intros s e j Hs Hg He (Hj & Hf & Ht) HjK. specialize (Ht HjK).
      pose proof HS as (W & X & HW & HL).
      destruct j as [|j]; [lia|]. cbn [Nat.sub] in Hf. rewrite Nat.sub_0_r in Hf.
      pose proof Ht as Hx. apply (lad_union _ _ _ _ _ _ _ _ HL) in Hx; [|lia|auto].
      destruct Hx as (q & Hq & Hx). pose proof Hx as Hx0.
      apply (lad_step _ _ _ _ _ _ _ _ HL) in Hx; [|lia|auto|auto]. destruct Hx as [[Hx _]|[Hx|[_ Hx]]].
      - congruence.
      - destruct (forced s e (Y j) Hx He) as (y & Hy).
        { intros u Hu. apply above; auto. lia. }
        exists y. left. replace (S j - 1) with j by lia. exact Hy.
      - destruct (forced s e (X (S j) q) Hx He) as (y & Hy).
        { intros u Hu HX. apply (above u (S j)); [auto|lia|]. apply (lad_union _ _ _ _ _ _ _ _ HL); [lia|auto|eauto]. }
        assert (Hy' : good_answer F b s e (Y (S j)) y).
        { destruct Hy as (A1 & A2 & A3). split; auto. split; auto.
          apply (lad_union _ _ _ _ _ _ _ _ HL); [lia|apply A1|eauto]. }
        (* is there an answer into the level below? *)
        destruct (existsb (fun y => vec_eqb (firstn (List.length (fs_evars F)) y) e && may_sys r s y && Y j y && Y K y)
          (fs_states F)) eqn:Ex.
        + apply existsb_exists in Ex. destruct Ex as (s' & Hs' & Ex).
          apply andb_true_iff in Ex. destruct Ex as [Ex E4]. apply andb_true_iff in Ex. destruct Ex as [Ex E3].
          apply andb_true_iff in Ex. destruct Ex as [E1 E2]. apply vec_eqb_iff in E1.
          assert (Hl : legal_sys (GW r) s e s') by (repeat split; auto).
          exists (out_of F s'). left. replace (S j - 1) with j by lia. unfold good_answer.
          cbn [now win lev]. rewrite <- (answer_split _ _ _ Hl). repeat split; auto. apply in_top; auto.
        + exists y. right. split; auto. intros z (A1 & A2 & A3). replace (S j - 1) with j in A3 by lia.
          cbn [now win lev] in A1, A2.
          assert (Hc : existsb (fun y => vec_eqb (firstn (List.length (fs_evars F)) y) e && may_sys r s y && Y j y && Y K y)
            (fs_states F) = true); [|congruence].
          apply existsb_exists. exists (e ++ z). destruct A1 as (B1 & B2 & B3). split; auto.
          rewrite A3. cbn [g_str game_with] in B3. rewrite B3. cbn [g_env game_with] in B2.
          rewrite (proj2 (in_top _ B1) A2). rewrite !andb_true_r. apply vec_eqb_iff. exact B2.
    Qed.
    (** no answer goes up, and if the only environment goal holds every answer goes down *)
    Lemma answer_level : forall s e j y, In s (fs_states F) -> index_in K Y s j -> j <= K ->
      sys_choice F b s e Y j y ->
      In (e ++ y) (fs_states F) /\ sys_wins (GW r) (e ++ y) /\ Y j (e ++ y) = true.
    Proof.
      intros s e j y Hs (Hj & Hf & Ht) HjK [(A1 & A2 & A3)|(_ & (A1 & A2 & A3))].
      - split; [apply A1|]. split; auto. apply (above _ (j - 1)); auto; [apply A1|lia].
      - split; [apply A1|]. split; auto.
    Qed.
    Lemma answer_down : List.length (fs_egoals F) <= 1 -> forall s e j y, In s (fs_states F) ->
      sgoal F i s = false -> (forall g, In g (fs_egoals F) -> holds F g s = true) -> legal_env (GW r) s e ->
      index_in K Y s j -> j <= K -> sys_choice F b s e Y j y -> Y (j - 1) (e ++ y) = true.
    Proof.
      intros Hle s e j y Hs Hg Heg He (Hj & Hf & Ht) HjK [(A1 & A2 & A3)|(Hno & _)]; auto. exfalso.
      specialize (Ht HjK). pose proof HS as (W & X & HW & HL). destruct j as [|j]; [lia|].
      apply (lad_union _ _ _ _ _ _ _ _ HL) in Ht; [|lia|auto]. destruct Ht as (q & Hq & Hx).
      apply (lad_step _ _ _ _ _ _ _ _ HL) in Hx; [|lia|auto|auto]. destruct Hx as [[Hx _]|[Hx|[Hx _]]].
      - congruence.
      - destruct (forced s e (Y j) Hx He) as (z & Hz).
        { intros u Hu. apply above; auto. lia. }
        apply (Hno z). replace (S j - 1) with j by lia. exact Hz.
      - assert (Hh : holds F (nth q (egoals1 F) FTrue) s = true); [|congruence].
        unfold egoals1 in *. destruct (fs_egoals F) as [|g l].
        + cbn in Hq. replace q with 0 by lia. reflexivity.
        + destruct l; [|cbn in Hle; lia]. cbn in Hq. replace q with 0 by lia. apply Heg. left. reflexivity.
    Qed.
  End Follow.

  (** the rules in force, after "refresh levels" *)
  Lemma refreshed : forall h, book_after F (h ++ [RefreshLevels]) =
    {| now := now (book_after F h); win := now (book_after F h); lev := now (book_after F h) |}.
  Proof. intros h. rewrite book_app. reflexivity. Qed.

  Lemma sysnext_shows : forall h s e i l, Forall (valid F) h -> valid F (SysNext s e i) ->
    replies (h ++ [RefreshLevels]) (SysNext s e i) (AMoves l) ->
    forall K Y j, sublevels F (now (book_after F h)) i K Y -> index_in K Y s j ->
    lists l (sys_choice F {| now := now (book_after F h); win := now (book_after F h); lev := now (book_after F h) |} s e Y j).
  Proof.
    intros h s e i l Hh Hv H K Y j HS HI.
    apply replies_answers in H; [|apply Forall_app; split; auto; repeat constructor|auto].
    rewrite refreshed in H. cbn [answers lev] in H. destruct H as (l0 & E & HL). inversion E. subst. eauto.
  Qed.

  (** sysnext has an answer at winning states where the goal does not hold *)
  Lemma sysnext_answers : forall h s e i, Forall (valid F) h -> alive h -> valid F (SysNext s e i) ->
    sys_wins (GW (now (book_after F h))) s -> sgoal F i s = false -> legal_env (GW (now (book_after F h))) s e ->
    exists l, replies (h ++ [RefreshLevels]) (SysNext s e i) (AMoves l) /\ l <> [] /\
      forall y, In y l -> legal_sys (GW (now (book_after F h))) s e (e ++ y) /\
                          sys_wins (GW (now (book_after F h))) (e ++ y).
  Proof.
    intros h s e i Hh Ha Hv Hw Hg He. destruct Hv as (V1 & V2 & V3).
    destruct Hr as (H1 & H2 & H3 & H4 & H5 & H6).
    destruct (sublevels_exist F H1 H2 H3 (now (book_after F h)) i V3) as (K & Y & HS).
    destruct (index_exist F _ i K Y s HS V1) as (j & HI).
    pose proof (index_low _ _ _ _ HS s j V1 Hw HI) as HjK.
    destruct (some_answer _ _ _ _ HS s e j V1 Hg He HI HjK) as (y & Hy).
    destruct (replies_exist (h ++ [RefreshLevels]) (SysNext s e i)) as (a & Hrep).
    - apply Forall_app; split; auto; repeat constructor.
    - cbn; auto.
    - destruct (not_sysnext_replies h RefreshLevels) as (a & HA); auto; [exact I|discriminate|]. eapply alive_step; eauto.
    - rewrite refreshed. cbn [stuck lev]. intros Hst. destruct (Hst K Y HS) as (((_ & HI2) & Hf) & _).
      assert (EK : Y K s = true) by (apply (in_top _ _ _ _ HS); auto).
      destruct Hf as (Hf & _). replace (K + 1 - 1) with K in Hf by lia. congruence.
    - pose proof (replies_answers (h ++ [RefreshLevels]) (SysNext s e i) a) as HA.
      destruct HA as (l & -> & HL); [apply Forall_app; split; auto; repeat constructor|cbn; auto|auto|].
      rewrite refreshed in HL. cbn [lev] in HL. specialize (HL K Y j HS HI). exists l. split; auto. split.
      + intros ->. apply (proj2 HL) in Hy. exact Hy.
      + intros z Hz. apply (proj2 HL) in Hz. destruct Hz as [(A1 & A2 & _)|(_ & (A1 & A2 & _))]; auto.
  Qed.

  Lemma follow_wins : forall h i p, Forall (valid F) h -> i < List.length (fs_sgoals F) -> In (p 0) (fs_states F) ->
    sys_wins (GW (now (book_after F h))) (p 0) -> follows h i p ->
    forall t, (forall t', t' < t -> sgoal F i (p t') = false) ->
    In (p t) (fs_states F) /\ sys_wins (GW (now (book_after F h))) (p t).
  Proof.
    intros h i p Hh Hi H0 Hw Hp. induction t as [|t IH]; intros Hno; [auto|].
    destruct IH as [IH1 IH2]; [intros; apply Hno; lia|].
    destruct (Hp t) as (e & y & l & He & Hrep & Hy & ->); [intros; apply Hno; lia|].
    destruct Hr as (H1 & H2 & H3 & H4 & H5 & H6).
    destruct (sublevels_exist F H1 H2 H3 (now (book_after F h)) i Hi) as (K & Y & HS).
    destruct (index_exist F _ i K Y (p t) HS IH1) as (j & HI).
    pose proof (index_low _ _ _ _ HS (p t) j IH1 IH2 HI) as HjK.
    apply (proj2 (sysnext_shows h (p t) e i l Hh (Logic.conj IH1 (Logic.conj (proj1 He) Hi)) Hrep K Y j HS HI)) in Hy.
    destruct (answer_level _ _ _ _ HS (p t) e j y IH1 HI HjK Hy) as (A1 & A2 & _). auto.
  Qed.
  Lemma first_or_none : forall (g : nat -> bool) t, (exists t', t' < t /\ g t' = true) \/ (forall t', t' < t -> g t' = false).
  Proof.
    intros g. induction t as [|t [IH|IH]].
    - right. intros; lia.
    - left. destruct IH as (t' & H1 & H2). exists t'. split; auto.
    - destruct (g t) eqn:E; [left; exists t; auto|]. right. intros t' Ht. destruct (Nat.eq_dec t' t) as [->|]; auto.
      apply IH. lia.
  Qed.
  Lemma follow_reaches : List.length (fs_egoals F) <= 1 ->
    forall h i p, Forall (valid F) h -> i < List.length (fs_sgoals F) -> In (p 0) (fs_states F) ->
    sys_wins (GW (now (book_after F h))) (p 0) -> follows h i p ->
    (forall g, In g (fs_egoals F) -> infinitely_often (holds F g) p) ->
    exists t, sgoal F i (p t) = true /\
      forall t', t' <= t -> In (p t') (fs_states F) /\ sys_wins (GW (now (book_after F h))) (p t').
  Proof.
    intros Hle h i p Hh Hi H0 Hw Hp Heg. pose proof (follow_wins h i p Hh Hi H0 Hw Hp) as HA.
    destruct Hr as (H1 & H2 & H3 & H4 & H5 & H6).
    destruct (sublevels_exist F H1 H2 H3 (now (book_after F h)) i Hi) as (K & Y & HS).
    (* the first time the goal holds *)
    assert (Hfirst : (exists t, sgoal F i (p t) = true) ->
      exists t, sgoal F i (p t) = true /\ forall t', t' < t -> sgoal F i (p t') = false).
    { intros (t & Ht). revert t Ht. induction t as [t IH] using lt_wf_ind. intros Ht.
      destruct (first_or_none (fun q => sgoal F i (p q)) t) as [(t' & L & G)|Hn]; [eauto|]. exists t. auto. }
    cut (exists t, sgoal F i (p t) = true).
    { intros He. destruct (Hfirst He) as (t & Ht & Hn). exists t. split; auto.
      intros t' Ht'. apply HA. intros q Hq. apply Hn. lia. }
    (* one step *)
    assert (Hstep : forall t j, (forall t', t' <= t -> sgoal F i (p t') = false) -> j <= K -> Y j (p t) = true ->
      Y j (p (S t)) = true /\
      ((forall g, In g (fs_egoals F) -> holds F g (p t) = true) -> exists j', j' < j /\ Y j' (p (S t)) = true)).
    { intros t j Hno Hj HY. pose proof (Hno t (le_n _)) as Hg.
      destruct (HA t) as (S1 & S2); [intros; apply Hno; lia|].
      destruct (Hp t Hno) as (e & y & l & He & Hrep & Hy & ->).
      destruct (index_exist F _ i K Y (p t) HS S1) as (q & HI).
      pose proof (index_low _ _ _ _ HS (p t) q S1 S2 HI) as Hq.
      apply (proj2 (sysnext_shows h (p t) e i l Hh (Logic.conj S1 (Logic.conj (proj1 He) Hi)) Hrep K Y q HS HI)) in Hy.
      destruct (answer_level _ _ _ _ HS (p t) e q y S1 HI Hq Hy) as (A1 & A2 & A3).
      assert (Hqj : q <= j).
      { destruct (le_lt_dec q j); auto. exfalso. destruct HI as (I1 & I2 & _).
        rewrite (above _ _ _ _ HS (p t) j (q - 1)) in I2; auto; [discriminate|lia]. }
      split; [apply (above _ _ _ _ HS _ q); auto; lia|].
      intros HE. exists (q - 1). split; [destruct HI as (I1 & _); lia|].
      eapply (answer_down _ _ _ _ HS Hle (p t) e q y); eauto. }
    assert (Hgoal : forall t j, j <= K -> Y j (p t) = true -> forall d,
      (forall t', t' < t + d -> sgoal F i (p t') = false) -> Y j (p (t + d)) = true).
    { intros t j Hj HY. induction d as [|d IH]; intros Hno.
      - rewrite Nat.add_0_r. auto.
      - rewrite Nat.add_succ_r. apply Hstep; auto.
        + intros. apply Hno. lia.
        + apply IH. intros. apply Hno. lia. }
    assert (Hmain : forall N j t, j < N -> j <= K -> Y j (p t) = true -> exists t', sgoal F i (p t') = true).
    { induction N as [|N IH]; intros j t Hj HjK HY; [lia|].
      assert (Ht1 : exists t1, t <= t1 /\ forall g, In g (fs_egoals F) -> holds F g (p t1) = true).
      { destruct (fs_egoals F) as [|g [|]]; [|destruct (Heg g (or_introl eq_refl) t) as (t1 & L1 & G1)|cbn in Hle; lia].
        - exists t. split; [lia|]. intros g [].
        - exists t1. split; [lia|]. intros g' [<-|[]]. exact G1. }
      destruct Ht1 as (t1 & L1 & G1).
      destruct (first_or_none (fun q => sgoal F i (p q)) (S t1)) as [(t' & _ & Hg)|Hno]; [eauto|].
      assert (HY1 : Y j (p t1) = true).
      { replace t1 with (t + (t1 - t)) by lia. apply Hgoal; auto. intros. apply Hno. lia. }
      destruct (Hstep t1 j) as (_ & Hdown); auto; [intros; apply Hno; lia|].
      destruct (Hdown G1) as (j' & Lj & HY2). apply (IH j' (S t1)); auto; lia. }
    apply (Hmain (S K) K 0); auto. apply (in_top _ _ _ _ HS); auto.
  Qed.
End Use.
