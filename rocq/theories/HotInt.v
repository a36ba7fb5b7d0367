(** Strategies over integer variables and the strategies over bits that stand for them. *)
From Coq Require Import List ZArith Lia Bool Arith String.
From Verif Require Import Base Strs Game Bdd Support EnumProofs Ptree Form Solve FSpec Nonbool RSpec
  PtreeProofs ExpProofs SolveProofs RealProofs Automaton AutProofs Synth SynthSpec NonboolProofs EncProofs
  PipeProofs PipeVerdict NbStateProofs NbProps MainProofs
  Hotswap HotSpec HotCore HotLoad Metric MetricSpec AddSpec AddLoad RgIso.
Import ListNotations.
Open Scope list_scope.
Open Scope nat_scope.

(** the same specification with other system goals *)
Definition regoal (gs : list form) (F : fspec) : fspec := {|
  fs_evars := fs_evars F; fs_svars := fs_svars F;
  fs_einit := fs_einit F; fs_sinit := fs_sinit F;
  fs_etrans := fs_etrans F; fs_strans := fs_strans F;
  fs_egoals := fs_egoals F; fs_sgoals := gs
|}.

Section Int.
  Variables (flags : init_flags_t) (R : rspec).
  Hypothesis HT : well_typed R.
  Hypothesis HN : NoDup (names (rs_vars R)).
  Hypothesis HB : bits_distinct (rs_vars R).
  Let vs := rs_vars R.
  Let es := rs_evars R.
  Let ss := rs_svars R.
  Let F := fspec_of R.
  Let F' := solver_spec (-1) flags R.
  Notation GF := (game_of F).
  Notation GF' := (game_of F').
  Let E := expandS vs.
  Let h (x : anode) : anode := set_state (enc vs (astate x)) x.

  Lemma fits_repr : forall s, In s (fs_states F) -> repr vs s.
  Proof. exact (state_repr R). Qed.
  Lemma fits_enc : forall s, In s (fs_states F) -> In (enc vs s) (fs_states F').
  Proof. intros s Hs. apply (enc_state flags R HT), fits_repr. auto. Qed.
  Lemma enc_inj : forall s s', In s (fs_states F) -> In s' (fs_states F) -> enc vs s = enc vs s' -> s = s'.
  Proof. intros s s' H H' Q. apply (repr_inj R); auto; apply fits_repr; auto. Qed.
  Lemma env_enc : forall s, In s (fs_states F) -> g_env GF' (enc vs s) = enc es (g_env GF s).
  Proof. intros s Hs. apply (genv' flags R), fits_repr; auto. Qed.
  Lemma env_inj : forall e e', In e (fs_envs F) -> In e' (fs_envs F) -> enc es e = enc es e' -> e = e'.
  Proof.
    intros e e' H H' Q. rewrite <- (dec_enc es e), <- (dec_enc es e'); [congruence| |]; apply (env_repr R); auto.
  Qed.
  Lemma env_in : forall s, In s (fs_states F) -> In (g_env GF s) (fs_envs F).
  Proof. exact (genv_in R HN HB). Qed.
  Lemma str_enc : forall s s', In s (fs_states F) -> In s' (fs_states F) -> g_str GF' (enc vs s) (enc vs s') = g_str GF s s'.
  Proof.
    intros s s' Hs Hs'. pose proof (str_ok flags R HT HN HB s s' Hs (fits_repr _ Hs') (env_in _ Hs')) as K.
    apply eq_true_iff_eq. fold F F' vs in K. tauto.
  Qed.
  Lemma etr_enc : forall s e, In s (fs_states F) -> In e (fs_envs F) -> g_etr GF' (enc vs s) (enc es e) = g_etr GF s e.
  Proof.
    intros s e Hs He. pose proof (etr_ok flags R HT HN HB s e Hs (env_repr R _ He)) as K.
    apply eq_true_iff_eq. fold F F' vs es in K. tauto.
  Qed.
  Lemma noenv_enc : es = [] -> forall s, In s (fs_states F) -> g_etr GF' (enc vs s) [] = g_etr GF s [].
  Proof.
    intros He s Hs. change (@nil Z) with (enc [] []) at 1. rewrite <- He at 1. apply etr_enc; auto.
    unfold fs_envs. change (fs_evars F) with es. rewrite He. left. reflexivity.
  Qed.
  Lemma evars_iff : fs_evars F' = [] <-> es = [].
  Proof. exact (evars' flags R). Qed.
  Lemma holds_enc : forall s f, In s (fs_states F) -> typed R [] f -> holds F' (E f) (enc vs s) = holds F f s.
  Proof. intros s f Hs Hf. exact (goal_ok flags R HN HB s f Hs Hf). Qed.
  Lemma egoals_eq : fs_egoals F' = map E (rs_egoals R).
  Proof. exact (F'_egoals flags R). Qed.
  Lemma egoal_typed : forall f, In f (rs_egoals R) -> typed R [] f.
  Proof. destruct (typedR0 R HT) as (Ty & _). intros f Hf. apply Ty. rewrite !in_app_iff. tauto. Qed.
  Lemma sgoal_typed : forall f, In f (rs_sgoals R) -> typed R [] f.
  Proof. destruct (typedR0 R HT) as (Ty & _). intros f Hf. apply Ty. rewrite !in_app_iff. tauto. Qed.
  Lemma sgoals_eq : rs_sgoals R <> [] -> F' = regoal (map E (rs_sgoals R)) F'.
  Proof.
    intros H. transitivity (regoal (fs_sgoals F') F'); [reflexivity|]. f_equal. unfold F'. rewrite (F'_sgoals flags R).
    unfold fdefaults. cbn [rs_sgoals]. destruct (rs_sgoals R); [congruence|reflexivity].
  Qed.
  (** the encodings of states are closed under the moves of the game *)
  Lemma enc_closed : closed_play F' (fun t => exists s, t = enc vs s /\ In s (fs_states F)).
  Proof.
    intros t t' (s & -> & Hs) Ht' Hst Hl.
    destruct (move_ok flags R HT HN HB s t' Hs Ht' Hst) as (s' & Q & Hs' & _); [|eauto].
    intros Hn. apply Hl. exact Hn.
  Qed.
  Lemma enc_moves : (forall s, In s (fs_states F) -> exists e, legal_env GF s e) ->
    forall t, (exists s, t = enc vs s /\ In s (fs_states F)) -> exists e, legal_env GF' t e.
  Proof.
    intros Hm t (s & -> & Hs). destruct (Hm s Hs) as (e & He). exists (enc es e). apply (env_ok flags R HT HN HB s Hs). eauto.
  Qed.

  (** ** Automata *)
  Lemma ws_In : forall A y, In y (with_states (enc vs) A) <-> exists x, In x A /\ y = h x.
  Proof. intros A y. unfold with_states. rewrite in_map_iff. split; intros (x & K1 & K2); exists x; auto. Qed.
  Lemma h_id : forall x, aid (h x) = aid x /\ atrans (h x) = atrans x /\ amode (h x) = amode x /\
    argrad (h x) = argrad x /\ ainit (h x) = ainit x /\ astate (h x) = enc vs (astate x).
  Proof. intros x. unfold h. destruct x. repeat split; reflexivity. Qed.
  Lemma ws_ids : forall A, ids (with_states (enc vs) A) = ids A.
  Proof. intros A. unfold ids, with_states. rewrite map_map. apply map_ext. intros x. apply h_id. Qed.
  Definition fitA (A : aut) : Prop := forall x, In x A -> In (astate x) (fs_states F).
  Definition back (B : aut) : aut := with_states (dec vs) B.
  Lemma back_ok : forall B, (forall y, In y B -> exists s, astate y = enc vs s /\ In s (fs_states F)) ->
    fitA (back B) /\ B = with_states (enc vs) (back B).
  Proof.
    intros B H. assert (K : forall y, In y B -> In (dec vs (astate y)) (fs_states F) /\ enc vs (dec vs (astate y)) = astate y).
    { intros y Hy. destruct (H y Hy) as (s & -> & Hs). rewrite dec_enc by (apply fits_repr; auto). auto. }
    split.
    - intros x Hx. unfold back, with_states in Hx. apply in_map_iff in Hx. destruct Hx as (y & <- & Hy).
      rewrite set_state_state. apply K; auto.
    - unfold back, with_states. rewrite map_map. rewrite <- (map_id B) at 1. apply map_ext_in. intros y Hy.
      rewrite set_state_state, set_state_set. rewrite (proj2 (K y Hy)). symmetry. apply set_state_id.
  Qed.
  Lemma h_inj : forall x y, In (astate x) (fs_states F) -> In (astate y) (fs_states F) -> h x = h y -> x = y.
  Proof.
    intros x y Hx Hy Q. destruct (h_id x) as (X1 & X2 & X3 & X4 & X5 & X6). destruct (h_id y) as (Y1 & Y2 & Y3 & Y4 & Y5 & Y6).
    rewrite Q in *. assert (astate x = astate y) by (apply enc_inj; auto; congruence).
    destruct x as [a1 a2 a3 a4 a5 a6], y as [b1 b2 b3 b4 b5 b6]; cbn in *. subst; reflexivity.
  Qed.

  Section One.
    Variable A : aut.
    Hypothesis HA : fitA A.
    Let A' := with_states (enc vs) A.
    Lemma in_h : forall x, In x A -> In (h x) A'.
    Proof. intros x Hx. apply ws_In. eauto. Qed.
    (** a run of A' is one of A *)
    Lemma run_back : forall p' : nat -> anode, (forall t, In (p' t) A' /\ In (aid (p' (S t))) (atrans (p' t))) ->
      exists p, (forall t, In (p t) A /\ In (aid (p (S t))) (atrans (p t))) /\ forall t, p' t = h (p t).
    Proof.
      intros p' Hp. exists (fun t => set_state (dec vs (astate (p' t))) (p' t)).
      assert (K : forall t, exists x, In x A /\ p' t = h x /\ set_state (dec vs (astate (p' t))) (p' t) = x).
      { intros t. destruct (proj1 (ws_In _ _) (proj1 (Hp t))) as (x & Hx & Q). exists x. split; auto. split; auto.
        rewrite Q. unfold h at 2. rewrite set_state_set. rewrite (proj2 (proj2 (proj2 (proj2 (proj2 (h_id x)))))).
        rewrite dec_enc by (apply fits_repr; auto). apply set_state_id. }
      assert (K' : forall t, p' t = h (set_state (dec vs (astate (p' t))) (p' t))).
      { intros t. destruct (K t) as (x & _ & Q & R1). rewrite R1. exact Q. }
      split; [|exact K']. intros t. destruct (K t) as (x & Hx & _ & Q). rewrite Q at 1. split; auto.
      pose proof (proj2 (Hp t)) as Ht. rewrite (K' t), (K' (S t)) in Ht.
      rewrite (proj1 (h_id _)), (proj1 (proj2 (h_id _))) in Ht. exact Ht.
    Qed.
    Lemma run_on : forall p : nat -> anode, (forall t, In (p t) A /\ In (aid (p (S t))) (atrans (p t))) ->
      forall t, In (h (p t)) A' /\ In (aid (h (p (S t)))) (atrans (h (p t))).
    Proof.
      intros p Hp t. destruct (Hp t) as [H1 H2]. split; [apply in_h; auto|].
      rewrite (proj1 (h_id _)), (proj1 (proj2 (h_id _))). exact H2.
    Qed.
    Lemma io_h : forall f (p : nat -> anode), typed R [] f -> (forall t, In (p t) A) ->
      (infinitely_often (holds F f) (fun t => astate (p t)) <->
       infinitely_often (holds F' (E f)) (fun t => astate (h (p t)))).
    Proof.
      intros f p Hf Hp.
      assert (K : forall t, holds F' (E f) (astate (h (p t))) = holds F f (astate (p t))).
      { intros t. rewrite (proj2 (proj2 (proj2 (proj2 (proj2 (h_id (p t))))))). apply holds_enc; auto. }
      unfold infinitely_often. split; intros H t; destruct (H t) as (t' & Hle & Hv); exists t'; (split; [auto|]);
        [rewrite K|rewrite <- K]; auto.
    Qed.
    Lemma fair_h : forall p : nat -> anode, (forall t, In (p t) A) ->
      ((forall g, In g (rs_egoals R) -> infinitely_often (holds F g) (fun t => astate (p t))) <->
       (forall g, In g (fs_egoals F') -> infinitely_often (holds F' g) (fun t => astate (h (p t))))).
    Proof.
      intros p Hp. rewrite egoals_eq. split; intros H g Hg.
      - apply in_map_iff in Hg. destruct Hg as (f & <- & Hf). apply (io_h f p); auto. apply egoal_typed; auto.
      - apply (io_h g p); auto; [apply egoal_typed; auto|]. apply H. apply in_map. auto.
    Qed.
    Lemma noenv_h : forall p : nat -> anode, (forall t, In (p t) A) ->
      ((es = [] -> forall t, g_etr GF (astate (p t)) [] = true) <->
       (fs_evars F' = [] -> forall t, g_etr GF' (astate (h (p t))) [] = true)).
    Proof.
      intros p Hp. assert (K : es = [] -> forall t, g_etr GF' (astate (h (p t))) [] = g_etr GF (astate (p t)) []).
      { intros He t. rewrite (proj2 (proj2 (proj2 (proj2 (proj2 (h_id (p t))))))). apply noenv_enc; auto. }
      rewrite evars_iff. split; intros H He t; [rewrite K|rewrite <- K]; auto.
    Qed.

    Variable gs : list form.
    Hypothesis Hgs : forall f, In f gs -> typed R [] f.
    Let G := regoal gs F.
    Let G' := regoal (map E gs) F'.
    Lemma sgoal_h : forall j s, In s (fs_states F) -> sgoal G' j (enc vs s) = sgoal G j s.
    Proof.
      intros j s Hs. unfold sgoal, G, G'. cbn [fs_sgoals regoal].
      change (holds F' (nth j (map E gs) FTrue) (enc vs s) = holds F (nth j gs FTrue) s).
      destruct (le_lt_dec (List.length gs) j) as [Hl|Hl].
      - rewrite !nth_overflow by (rewrite ?map_length; auto). reflexivity.
      - rewrite (nth_indep _ FTrue (E FTrue)) by (rewrite map_length; auto). rewrite map_nth. apply holds_enc; auto.
        apply Hgs. apply nth_In. auto.
    Qed.
    Lemma sgoal_node : forall j x, In x A -> sgoal G' j (astate (h x)) = sgoal G j (astate x).
    Proof. intros j x Hx. rewrite (proj2 (proj2 (proj2 (proj2 (proj2 (h_id x)))))). apply sgoal_h; auto. Qed.
    Lemma correct_h : correct G A <-> correct G' A'.
    Proof.
      split; intros H.
      - constructor.
        + unfold A'. rewrite ws_ids. apply H.
        + intros y t Hy Ht. apply ws_In in Hy. destruct Hy as (x & Hx & ->). rewrite (proj1 (proj2 (h_id x))) in Ht.
          destruct (co_closed _ _ H x t Hx Ht) as (z & Hz & <-). exists (h z). split; [apply in_h; auto|apply h_id].
        + intros y Hy. apply ws_In in Hy. destruct Hy as (x & Hx & ->). rewrite (proj2 (proj2 (proj2 (proj2 (proj2 (h_id x)))))).
          apply fits_enc. auto.
        + intros y z Hy Hz Ht. apply ws_In in Hy. destruct Hy as (x & Hx & ->). apply ws_In in Hz. destruct Hz as (u & Hu & ->).
          destruct (h_id x) as (_ & X2 & _ & _ & _ & X6). destruct (h_id u) as (U1 & _ & _ & _ & _ & U6). rewrite X2, U1 in Ht.
          destruct (co_safe _ _ H x u Hx Hu Ht) as (K1 & K2). rewrite X6, U6.
          change (g_str GF' (enc vs (astate x)) (enc vs (astate u)) = true /\
            (fs_evars F' <> [] -> g_etr GF' (enc vs (astate x)) (g_env GF' (enc vs (astate u))) = true)).
          rewrite str_enc by auto. split; [exact K1|]. intros Hn. rewrite env_enc, etr_enc by (auto; apply env_in; auto).
          apply K2. intros Q. apply Hn. apply evars_iff. exact Q.
        + intros y e Hy He. apply ws_In in Hy. destruct Hy as (x & Hx & ->). destruct (h_id x) as (_ & X2 & _ & _ & _ & X6).
          rewrite X6 in He. change (legal_env GF' (enc vs (astate x)) e) in He.
          apply (env_ok flags R HT HN HB _ (HA x Hx)) in He. destruct He as (e0 & -> & He).
          destruct (co_answer _ _ H x e0 Hx He) as (u & Hu & Ht & Q). exists (h u). destruct (h_id u) as (U1 & _ & _ & _ & _ & U6).
          split; [apply in_h; auto|]. rewrite U1, X2, U6. split; auto.
          change (g_env GF' (enc vs (astate u)) = enc es e0). rewrite env_enc by auto. f_equal. exact Q.
        + intros p' Hp' Hne Heg g Hg. destruct (run_back p' Hp') as (p & Hp & Q).
          cbn [G' regoal fs_sgoals] in Hg. apply in_map_iff in Hg. destruct Hg as (f & <- & Hf).
          assert (Hin : forall t, In (p t) A) by (intros t; apply Hp).
          assert (K : infinitely_often (holds F f) (fun t => astate (p t))).
          { apply (co_live _ _ H p Hp); [| |exact Hf].
            - apply (proj2 (noenv_h p Hin)). intros He t. rewrite <- Q. apply Hne. exact He.
            - apply (proj2 (fair_h p Hin)). intros g Hg t. destruct (Heg g Hg t) as (t' & K1 & K2). exists t'. rewrite <- Q. auto. }
          apply (io_h f p) in K; auto. intros t. destruct (K t) as (t' & K1 & K2). exists t'. rewrite <- Q in K2. auto.
      - constructor.
        + pose proof (co_ids _ _ H) as K. unfold A' in K. rewrite ws_ids in K. exact K.
        + intros x t Hx Ht. rewrite <- (proj1 (proj2 (h_id x))) in Ht. destruct (co_closed _ _ H (h x) t (in_h x Hx) Ht) as (z & Hz & <-).
          apply ws_In in Hz. destruct Hz as (u & Hu & ->). exists u. split; auto.
        + exact HA.
        + intros x u Hx Hu Ht. destruct (h_id x) as (_ & X2 & _ & _ & _ & X6). destruct (h_id u) as (U1 & _ & _ & _ & _ & U6).
          rewrite <- X2, <- U1 in Ht. destruct (co_safe _ _ H (h x) (h u) (in_h _ Hx) (in_h _ Hu) Ht) as (K1 & K2).
          rewrite X6, U6 in *.
          change (g_str GF' (enc vs (astate x)) (enc vs (astate u)) = true) in K1.
          change (fs_evars F' <> [] -> g_etr GF' (enc vs (astate x)) (g_env GF' (enc vs (astate u))) = true) in K2.
          rewrite str_enc in K1 by auto. split; [exact K1|]. intros Hn. rewrite env_enc, etr_enc in K2 by (auto; apply env_in; auto).
          apply K2. rewrite evars_iff. exact Hn.
        + intros x e Hx He. destruct (h_id x) as (_ & X2 & _ & _ & _ & X6).
          assert (He' : legal_env GF' (enc vs (astate x)) (enc es e)).
          { apply (env_ok flags R HT HN HB _ (HA x Hx)). exists e. split; auto. }
          rewrite <- X6 in He'. destruct (co_answer _ _ H (h x) _ (in_h _ Hx) He') as (z & Hz & Ht & Q).
          apply ws_In in Hz. destruct Hz as (u & Hu & ->). destruct (h_id u) as (U1 & _ & _ & _ & _ & U6). rewrite U1, X2 in Ht.
          exists u. split; auto. split; auto. rewrite U6 in Q. change (g_env GF' (enc vs (astate u)) = enc es e) in Q.
          rewrite env_enc in Q by auto. apply env_inj in Q; auto; first [apply env_in; auto|apply He].
        + intros p Hp Hne Heg f Hf. assert (Hin : forall t, In (p t) A) by (intros t; apply Hp).
          apply (io_h f p); auto. apply (co_live _ _ H (fun t => h (p t)) (run_on p Hp)).
          * exact (proj1 (noenv_h p Hin) Hne).
          * exact (proj1 (fair_h p Hin) Heg).
          * cbn [G' regoal fs_sgoals]. apply in_map. exact Hf.
    Qed.
    Lemma order_h : in_order G A -> in_order G' A'.
    Proof.
      intros (H1 & H2). unfold in_order. change (List.length (fs_sgoals G')) with (List.length (map E gs)).
      rewrite map_length. split.
      - intros y Hy. apply ws_In in Hy. destruct Hy as (x & Hx & ->). rewrite (proj1 (proj2 (proj2 (h_id x)))). apply H1. auto.
      - intros y z Hy Hz Ht. apply ws_In in Hy. destruct Hy as (x & Hx & ->). apply ws_In in Hz. destruct Hz as (u & Hu & ->).
        destruct (h_id x) as (_ & X2 & X3 & _). destruct (h_id u) as (U1 & _ & U3 & _). rewrite X2, U1 in Ht.
        destruct (H2 x u Hx Hu Ht) as (i & c & K1 & K2 & K3 & K4). exists i, c. rewrite X3, U3. repeat (split; auto).
        intros j Hj. rewrite sgoal_node; auto.
    Qed.
    Lemma seeks_h : seeks G A -> seeks G' A'.
    Proof.
      intros (H1 & H2). unfold seeks. change (List.length (fs_sgoals G')) with (List.length (map E gs)).
      rewrite map_length. split.
      - intros y Hy. apply ws_In in Hy. destruct Hy as (x & Hx & ->). rewrite (proj1 (proj2 (proj2 (h_id x)))). apply H1. auto.
      - intros y z Hy Hz Ht. apply ws_In in Hy. destruct Hy as (x & Hx & ->). apply ws_In in Hz. destruct Hz as (u & Hu & ->).
        destruct (h_id x) as (_ & X2 & X3 & _). destruct (h_id u) as (U1 & _ & U3 & _). rewrite X2, U1 in Ht.
        destruct (H2 x u Hx Hu Ht) as (i & c & K1 & K2 & K3 & K4 & K5). exists i, c. rewrite X3, U3. repeat (split; auto).
        + intros j Hj. rewrite sgoal_node; auto.
        + intros K. rewrite sgoal_node by auto. apply K5. auto.
        + intros K. rewrite sgoal_node in K by auto. apply K5. auto.
    Qed.
    Lemma but_h : forall a b, in_order_but G' a b A' -> in_order_but G a b A.
    Proof.
      intros a b (H1 & H2). unfold in_order_but in *. change (List.length (fs_sgoals G')) with (List.length (map E gs)) in *.
      rewrite map_length in *. split.
      - intros x Hx. rewrite <- (proj1 (proj2 (proj2 (h_id x)))). apply H1. apply in_h. auto.
      - intros x u Hx Hu Ht. destruct (h_id x) as (_ & X2 & X3 & _). destruct (h_id u) as (U1 & _ & U3 & _). rewrite <- X2, <- U1 in Ht.
        rewrite <- X3, <- U3. destruct (H2 _ _ (in_h _ Hx) (in_h _ Hu) Ht) as [K|(i & c & K1 & K2 & K3 & K4)]; [left; exact K|right].
        exists i, c. repeat (split; auto). intros j Hj. rewrite <- sgoal_node by auto. apply K4. auto.
    Qed.
    Lemma after_h : forall i, after G' i = after G i.
    Proof. intros i. unfold after. cbn [G G' regoal fs_sgoals]. rewrite map_length. reflexivity. Qed.
    Lemma skip_h : forall i, not_skipped G i A -> not_skipped G' i A'.
    Proof.
      intros i H y z Hy Hz Ht. apply ws_In in Hy. destruct Hy as (x & Hx & ->). apply ws_In in Hz. destruct Hz as (u & Hu & ->).
      destruct (h_id x) as (_ & X2 & X3 & _). destruct (h_id u) as (U1 & _ & U3 & _). rewrite X2, U1 in Ht. rewrite X3, U3, after_h.
      apply H; auto.
    Qed.
    Lemma else_h : forall i x, elsewhere G' i (h x) <-> elsewhere G i x.
    Proof. intros i x. unfold elsewhere. rewrite after_h, (proj1 (proj2 (proj2 (h_id x)))). reflexivity. Qed.
    Lemma taken_h : forall i, taken_up G' i A' <-> taken_up G i A.
    Proof.
      intros i. split.
      - intros (y & z & Hy & Hz & Ht & K1 & K2). apply ws_In in Hy. destruct Hy as (x & Hx & ->). apply ws_In in Hz. destruct Hz as (u & Hu & ->).
        destruct (h_id x) as (_ & X2 & X3 & _). destruct (h_id u) as (U1 & _ & U3 & _). exists x, u.
        rewrite X2, U1 in Ht. rewrite X3 in K1. rewrite U3 in K2. auto.
      - intros (x & u & Hx & Hu & Ht & K1 & K2). exists (h x), (h u).
        destruct (h_id x) as (_ & X2 & X3 & _). destruct (h_id u) as (U1 & _ & U3 & _). rewrite X2, U1, X3, U3.
        split; [apply in_h; auto|]. split; [apply in_h; auto|]. auto.
    Qed.
    Lemma leaves_h : forall i x, In x A -> (leaves G' i A' (h x) <-> leaves G i A x).
    Proof.
      intros i x Hx. unfold leaves. rewrite else_h. split.
      - intros (_ & K1 & y & Hy & Kn & Ht). apply ws_In in Hy. destruct Hy as (u & Hu & ->). rewrite else_h in Kn.
        rewrite (proj1 (h_id x)), (proj1 (proj2 (h_id u))) in Ht. split; auto. split; auto. exists u. auto.
      - intros (_ & K1 & u & Hu & Kn & Ht). split; [apply in_h; auto|]. split; auto. exists (h u). rewrite else_h.
        rewrite (proj1 (h_id x)), (proj1 (proj2 (h_id u))). split; [apply in_h; auto|]. auto.
    Qed.
    Lemma fit_h : forall i, exits_fit G i A -> exits_fit G' i A'.
    Proof.
      intros i (U & D & H1 & H2 & H3 & H4). exists (map h U), (map h D). split; [|split; [|split]].
      - intros y (Hy & K). pose proof Hy as Hy'. apply ws_In in Hy. destruct Hy as (x & Hx & ->). apply in_map. apply H1.
        apply leaves_h; auto. split; auto.
      - assert (HDA : forall x, In x D -> In (astate x) (fs_states F)) by (intros x Hx; apply HA; apply H3; auto).
        clear - H2 HDA HN HB. induction D as [|x D IH]; [constructor|]. inversion H2; subst. cbn [map]. constructor.
        + intros K. apply in_map_iff in K. destruct K as (y & Q & Hy). apply h_inj in Q; [congruence| |]; apply HDA; [right|left]; auto.
        + apply IH; auto. intros; apply HDA; right; auto.
      - intros y Hy. apply in_map_iff in Hy. destruct Hy as (x & <- & Hx). destruct (H3 x Hx). rewrite else_h. split; [apply in_h|]; auto.
      - rewrite !map_length. exact H4.
    Qed.
    Lemma proceeds_h : proceeds G A -> proceeds G' A'.
    Proof.
      intros H p' Hp' Hne Heg Hm. destruct (run_back p' Hp') as (p & Hp & Q).
      assert (Hin : forall t, In (p t) A) by (intros t; apply Hp).
      apply (H p Hp).
      - apply (proj2 (noenv_h p Hin)). intros He t. rewrite <- Q. apply Hne. exact He.
      - apply (proj2 (fair_h p Hin)). intros g Hg t. destruct (Heg g Hg t) as (t' & K1 & K2). exists t'. rewrite <- Q. auto.
      - intros t. pose proof (Hm t) as K. rewrite (Q t), (Q 0) in K. rewrite !(proj1 (proj2 (proj2 (h_id _)))) in K. exact K.
    Qed.
    Lemma passes_h : forall i x y, passes_goal G' i (h x) (h y) <-> passes_goal G i x y.
    Proof.
      intros i x y. unfold passes_goal. change (List.length (fs_sgoals G')) with (List.length (map E gs)). rewrite map_length.
      rewrite !(proj1 (proj2 (proj2 (h_id _)))). reflexivity.
    Qed.
    Lemma comes_h : forall i y, comes_after G' i A' (h y) <-> comes_after G i A y.
    Proof.
      intros i y. split.
      - intros (z & Hz & Ht & Hp). apply ws_In in Hz. destruct Hz as (x & Hx & ->). exists x. rewrite passes_h in Hp.
        rewrite (proj1 (h_id y)), (proj1 (proj2 (h_id x))) in Ht. auto.
      - intros (x & Hx & Ht & Hp). exists (h x). rewrite passes_h. rewrite (proj1 (h_id y)), (proj1 (proj2 (h_id x))).
        split; [apply in_h; auto|auto].
    Qed.
  End One.

  Section Two.
    Variables A B : aut.
    Hypothesis HA : fitA A.
    Hypothesis HBf : fitA B.
    Let A' := with_states (enc vs) A.
    Let B' := with_states (enc vs) B.
    Variable gs : list form.
    Let G := regoal gs F.
    Let G' := regoal (map E gs) F'.
    Lemma keeps_h : forall i, keeps G' i A' B' -> keeps G i A B.
    Proof.
      intros i (H1 & H2). split.
      - intros x Hx He. destruct (H1 (h x) (in_h A x Hx)) as (z & Hz & K). { apply else_h. auto. }
        apply ws_In in Hz. destruct Hz as (y & Hy & ->). exists y. split; auto.
        destruct (h_id x) as (X1 & X2 & X3 & X4 & X5 & X6). destruct (h_id y) as (Y1 & Y2 & Y3 & Y4 & Y5 & Y6).
        rewrite X3, X4, X5, X6, Y3, Y4, Y5, Y6 in K. destruct K as (K1 & K2 & K3 & K4). split; auto. apply enc_inj; auto.
      - intros y Hy He. destruct (H2 (h y) (in_h B y Hy)) as (z & Hz & K1 & K2).
        { rewrite (proj1 (proj2 (proj2 (proj2 (proj2 (h_id y)))))). auto. }
        apply ws_In in Hz. destruct Hz as (x & Hx & ->). exists x. split; auto.
        destruct (h_id x) as (_ & _ & _ & _ & X5 & X6). destruct (h_id y) as (_ & _ & _ & _ & _ & Y6). rewrite X5 in K2. rewrite X6, Y6 in K1.
        split; auto. apply enc_inj; auto.
    Qed.
    Lemma starts_h : forall j, starts G' j A' B' -> starts G j A B.
    Proof.
      intros j (H1 & H2). split.
      - intros y Hy He. destruct (H1 (h y) (in_h B y Hy)) as (z & Hz & K2 & K1).
        { rewrite (proj1 (proj2 (proj2 (proj2 (proj2 (h_id y)))))). auto. }
        apply ws_In in Hz. destruct Hz as (x & Hx & ->). exists x. split; auto.
        destruct (h_id x) as (_ & _ & _ & _ & X5 & X6). destruct (h_id y) as (_ & _ & _ & _ & _ & Y6). rewrite X5 in K2. rewrite X6, Y6 in K1.
        split; auto. apply enc_inj; auto.
      - intros x Hx He Hn. destruct (H2 (h x) (in_h A x Hx)) as (z & Hz & K2 & K1).
        { rewrite (proj1 (proj2 (proj2 (proj2 (proj2 (h_id x)))))). auto. }
        { intros K. apply Hn. apply (comes_h A gs j x). exact K. }
        apply ws_In in Hz. destruct Hz as (y & Hy & ->). exists y. split; auto.
        destruct (h_id y) as (_ & _ & _ & _ & X5 & X6). destruct (h_id x) as (_ & _ & _ & _ & _ & Y6). rewrite X5 in K2. rewrite X6, Y6 in K1.
        split; auto. apply enc_inj; auto.
    Qed.
  End Two.
End Int.
