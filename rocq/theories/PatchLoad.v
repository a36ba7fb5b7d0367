(** patch_localfixpoint from the files to the patched strategy. *)
From Coq Require Import List ZArith Lia Bool Arith.
From Verif Require Import Base Game Bdd BGame Support SupportProofs EnumProofs Ops OpsProofs Strs Ptree Form Solve FSpec
  SolveProofs Automaton AutProofs AutProofs2 Synth SynthSpec Reach ReachProofs ReadState Nonbool AutIO AutIOSpec
  Hotswap HotSpec HotProofs HotLoad Interactive InteractSpec InteractProofs Patch PatchMerge PatchSpec PatchSem PatchCore PatchEnd
  PatchRules PatchCommands PatchText AddMerge AddSem.
Import ListNotations.
Open Scope nat_scope.

Section Relabel.
  Variables (f : nat -> nat) (A : aut).
  Hypothesis Hf : forall a b, In a (ids A) -> In b (ids A) -> f a = f b -> a = b.
  Hypothesis Hnd : NoDup (ids A).
  Hypothesis Hcl : closed A.
  Let B := map (relabel f) A.
  Variables (F : fspec) (N : list vec) (l : list command).
  Lemma rl_unfit_by : forall x c, In x A -> (unfit_by F B (relabel f x) c <-> unfit_by F A x c).
  Proof.
    intros x c Hx. destruct c as [| | | | |s e|s e|s e|s e| |y| | |]; cbn [unfit_by]; try tauto.
    - split; intros (E & y & Hy & Ht & Ey); (split; [exact E|]).
      + apply rl_In in Hy. destruct Hy as (z & Hz & ->). exists z. split; auto. split; [|exact Ey]. apply (rl_edge f A Hf Hcl); auto.
      + exists (relabel f y). split; [apply rl_In; eauto|]. split; [apply (rl_edge f A Hf Hcl); auto|exact Ey].
    - split; intros (E & Hn); (split; [exact E|]).
      + intros y Hy Ht. apply (Hn (relabel f y)); [apply rl_In; eauto|]. apply (rl_edge f A Hf Hcl); auto.
      + intros y Hy Ht. apply rl_In in Hy. destruct Hy as (z & Hz & ->). apply (Hn z); auto. apply (rl_edge f A Hf Hcl); auto.
    - split; intros (z & Hz & Ht & Ez).
      + apply rl_In in Hz. destruct Hz as (u & Hu & ->). exists u. split; auto. split; [|exact Ez]. apply (rl_edge f A Hf Hcl); auto.
      + exists (relabel f z). split; [apply rl_In; eauto|]. split; [apply (rl_edge f A Hf Hcl); auto|exact Ez].
  Qed.
  Lemma rl_unfit : forall x, In x A -> (unfit F B l (relabel f x) <-> unfit F A l x).
  Proof. intros x Hx. split; intros (c & Hc & Hu); exists c; (split; [auto|]); apply (rl_unfit_by x c Hx); auto. Qed.
  Lemma rl_broken : forall h, broken F B l h <-> broken F A l h.
  Proof.
    intros h. split; intros (x & Hx & E & Hu).
    - apply rl_In in Hx. destruct Hx as (z & Hz & ->). exists z. split; auto. split; [exact E|]. apply rl_unfit; auto.
    - exists (relabel f x). split; [apply rl_In; eauto|]. split; [exact E|]. apply rl_unfit; auto.
  Qed.
  Lemma rl_patchable : patchable F N l A -> patchable F N l B.
  Proof.
    intros [P1 P2 P3 P4]. constructor.
    - intros x y Hx Hy E1 E2. apply rl_In in Hx, Hy. destruct Hx as (u & Hu & ->), Hy as (v & Hv & ->).
      rewrite (P1 u v); auto.
    - intros x Hx. apply rl_In in Hx. destruct Hx as (u & Hu & ->). apply (P2 u Hu).
    - intros x y Hx Hy Ht E. apply rl_In in Hx, Hy. destruct Hx as (u & Hu & ->), Hy as (v & Hv & ->).
      apply (rl_edge f A Hf Hcl u v Hu Hv) in Ht. apply (P3 u v); auto.
    - intros x y Hx Hy Ht E1 E2 E3. apply rl_In in Hx, Hy. destruct Hx as (u & Hu & ->), Hy as (v & Hv & ->).
      apply (rl_edge f A Hf Hcl u v Hu Hv) in Ht. apply rl_broken in E3.
      destruct (P4 u v Hu Hv Ht E1 E2 E3) as (z & Hz & K1 & K2 & K3). exists (relabel f z). split; [apply rl_In; eauto|].
      split; auto. split; auto. apply (rl_edge f A Hf Hcl); auto.
  Qed.
  Lemma rl_kept : forall C, starts_kept F N l B C -> starts_kept F N l A C.
  Proof.
    intros C (H1 & H2). split.
    - intros y Hy E. destruct (H1 y Hy E) as (z & Hz & Ez & Es). apply rl_In in Hz. destruct Hz as (x & Hx & ->). exists x. auto.
    - intros x Hx E Hn. apply (H2 (relabel f x)); [apply rl_In; eauto|auto|]. rewrite rl_broken; auto.
  Qed.
End Relabel.

Section Whole.
  Variable F : fspec.
  Hypothesis Hws : well_scoped F.
  Hypothesis Hbool : all_boolean F.
  Hypothesis Hsvars : fs_svars F <> [].
  Hypothesis Hgoals : fs_sgoals F <> [].
  Let k := length (fs_sgoals F).
  Let ne := length (fs_evars F).
  Let ns := length (fs_svars F).
  Let n := ne + ns.
  Variables (orc : oracle) (alloc : nat -> aut -> nat).
  Variables (ep sq : list form).
  Hypothesis Hep : parts_of (fs_etrans F) ep.
  Hypothesis Hsq : parts_of (fs_strans F) sq.
  Variables (N : list vec) (l : list command).
  Hypothesis HN : forall s, In s N -> In s (fs_states F).
  Hypothesis Hv : Forall (valid F) l.
  Hypothesis Hc : forallb is_change l = true.
  Variables (A : aut) (text changes : String.string).
  Hypothesis Hco : correct F A.
  Hypothesis Hord : in_order F A.
  Hypothesis Hw : writable (Z.of_nat n) A.
  Hypothesis Hdump : aut_aut_dump A (Z.of_nat n) = Ok text.
  Hypothesis Hsh : short_lines text.
  Hypothesis Hch : change_file N l changes.
  Notation patched fuel := (patch_localfixpoint (spec_of F) (map tree_of ep) (map tree_of sq) orc alloc fuel text changes).

  Lemma NBits : Forall (bitvec n) N.
  Proof. apply Forall_forall. intros s Hs. apply (stb F Hbool). auto. Qed.
  (** what is computed from the files *)
  Lemma patch_unfold : exists f o egs, let A' := map (relabel f) A in
    (forall a b, In a (ids A) -> In b (ids A) -> f a = f b -> a = b) /\ closed A /\
    Forall (Good ne ns) egs /\
    Forall2 (fun f d => forall s, bitvec n s -> evS n d s = holds F f s) (egoals1 F) egs /\
    (o = None <-> exists x, In x A' /\ unfit F A' l x /\ inN N (astate x) = false) /\
    (forall q, o = Some q -> locally F N (changed F l) (cs_et q) (cs_st q) /\ grown N A' (unfit F A' l) [] (cs_aff q)) /\
    forall fuel, patched fuel =
      match o with
      | None => Ok []
      | Some q => o <- all_modes N k 0 ne ns orc alloc fuel (cs_et q) (cs_st q) egs (N_BDD ne ns N) A' (cs_aff q) ;;
                  match untouched A' with [] => match o with None => Ok [] | Some B => aut_prune_deadends B end | _ => Crash end
      end.
  Proof.
    destruct (file_relabel F (Z.of_nat n) A text Hco Hw Hdump Hsh) as (f & L & EL & Eof & HneA & Hf & Hcl).
    destruct (spec_BDDs_ok F Hws Hbool) as
      (et & st & eg & sg & Hb & Hnp & Hgeg & Hgsg & _ & Hlsg & Hleg & Het & Hst & Heg & Hsg).
    destruct (first_rules F Hws Hbool N NBits ep sq Hep Hsq) as (eps & sps & et1 & st1 & E1 & E2 & E3 & E4 & Hloc).
    assert (Hegs : map_out (to_BDD (spec_of F)) (env_goals' (spec_of F)) = Ok eg).
    { unfold spec_BDDs in Hb. destruct (to_BDD (spec_of F) (env_trans (spec_of F))); cbn [bind] in Hb; try discriminate.
      destruct (to_BDD (spec_of F) (sys_trans (spec_of F))); cbn [bind] in Hb; try discriminate.
      destruct (map_out (to_BDD (spec_of F)) (env_goals' (spec_of F))); cbn [bind] in Hb; try discriminate.
      destruct (map_out (to_BDD (spec_of F)) (sys_goals (spec_of F))); cbn [bind] in Hb; try discriminate.
      congruence. }
    pose proof (co_ids _ _ Hco) as Hnd.
    pose proof (rl_correct f A Hf Hnd Hcl F Hco) as Hco'. pose proof (rl_order f A Hf Hcl F Hord) as Hord'.
    set (A' := map (relabel f) A) in *.
    destruct (steps_ok F Hbool Hsvars N NBits A' (co_ids _ _ Hco')) with (l := l) (r := loaded F) (q := CS et1 st1 []) as (o & Eo & Ho1 & Ho2); auto.
    { intros x t Hx Ht. destruct (co_closed _ _ Hco' x t Hx Ht) as (y & Hy & <-). apply in_ids. auto. }
    { intros x Hx. apply (stb F Hbool). apply (co_states _ _ Hco' x Hx). }
    { apply Hord'. }
    exists f, o, eg. cbv zeta. fold A'. split; auto. split; auto. split; auto. split; auto. split; auto. split.
    { intros q E. destruct (Ho2 q E) as (K1 & K2). split; auto. }
    intros fuel. unfold patch_localfixpoint. cbv zeta. rewrite num_env_eq, num_sys_eq. fold ne ns n. rewrite EL. cbn [bind]. rewrite Eof. cbn [bind].
    destruct Hch as (ts & Hts & Hlen & ->).
    rewrite change_lines_ok; auto.
    2:{ apply (comments_lines _ _ Hts). apply Forall_forall. intros t Ht. apply in_app_or in Ht.
        destruct Ht as [Ht|Ht]; apply in_map_iff in Ht; destruct Ht as (u & <- & _); [apply state_a_line|apply (command_a_line)]. }
    destruct (read_N_ok F Hsvars N l ts NBits Hc Hts) as (ts' & Er & Hts'). change (length (fs_evars F) + length (fs_svars F)) with n in Er.
    rewrite Er. cbn [bind]. rewrite E1. cbn [bind]. rewrite E2. cbn [bind]. rewrite Hegs. cbn [bind].
    change (length (fs_evars F)) with ne in E3, E4. change (length (fs_svars F)) with ns in E3, E4. fold n in E3, E4. rewrite E3, E4.
    assert (Hk : length (sys_goals (spec_of F)) = k) by (cbn; apply map_length). rewrite Hk.
    pose proof (run_ok F Hbool A' N l ts' Hv Hc Hts' false (CS et1 st1 [])) as Hr. fold ne ns k in Hr. rewrite Hr, Eo. cbn [bind].
    reflexivity.
  Qed.
  Hypothesis Htools : tools_ok F orc alloc.
  Lemma patch_sound : forall fuel B, patchable F N l A -> env_moves_in F (changed F l) ->
    (fs_evars F = [] -> forall s e, ~ In (RelaxEnv s e) l) ->
    patched fuel = Ok B -> B <> [] ->
    serves F (changed F l) B /\ in_order F B /\ starts_kept F N l A B.
  Proof.
    intros fuel B Hp Hmv Hre HB Hne. destruct patch_unfold as (f & o & egs & Hf & Hcl & Hgeg & Hege & _ & Ho & Eq). rewrite Eq in HB.
    destruct o as [q|]; [|congruence]. destruct (Ho q eq_refl) as ((Hnp & Het & Hst) & Hg1 & Hg2). clear Ho Eq.
    pose proof (co_ids _ _ Hco) as Hnd.
    pose proof (rl_correct f A Hf Hnd Hcl F Hco) as Hco'. pose proof (rl_order f A Hf Hcl F Hord) as Hord'.
    pose proof (rl_patchable f A Hf Hcl F N l Hp) as Hp'.
    set (A' := map (relabel f) A) in *.
    assert (Haff : forall x, In x A' -> (In (amode x, aid x) (cs_aff q) <-> unfit F A' l x)).
    { intros x Hx. rewrite Hg1 by auto. split; auto. intros [[]|H]; auto. }
    assert (Haff1 : forall h a, In (h, a) (cs_aff q) -> exists x, In x A' /\ aid x = a /\ amode x = h /\ inN N (astate x) = true).
    { intros h a Ha. destruct (Hg2 _ Ha) as [[]|(x & Hx & E & Hi)]. injection E as -> ->. exists x. auto. }
    assert (HNl : Forall (fun v => length v = length (fs_evars F) + length (fs_svars F)) N).
    { apply Forall_forall. intros s Hs. apply (SynthSpec.st_bits F Hbool). auto. }
    assert (Hlen : forall s, In s (fs_states F) -> length s = length (fs_evars F) + length (fs_svars F)).
    { intros s Hs. apply (SynthSpec.st_bits F Hbool). auto. }
    pose proof (inv_first F N l A' HNl Hlen Hco' Hord' Hp' Hc Hre (cs_aff q) Haff Haff1) as Hinv.
    destruct (NB_ok F N NBits) as (HgN & HNe).
    destruct (all_modes _ _ _ _ _ _ _ _ _ _ _ _ _ _) as [[C|]| |] eqn:E; cbn [bind] in HB; try discriminate.
    - destruct (untouched A'); [|discriminate].
      pose proof (modes_ok F Hbool orc alloc Htools (changed F l) N (cs_aff q) A' NBits (cs_et q) (cs_st q) (N_BDD ne ns N) egs
        Hnp Hgeg HgN HNe Het Hst Hege k 0 A' fuel C Hinv (Z.le_refl 0) E) as Hinv'. cbn [Z.add] in Hinv'.
      assert (Hk : 0 < k) by (unfold k; destruct (fs_sgoals F); [congruence|cbn; lia]).
      rewrite (fin_prune F (changed F l) N (cs_aff q) A' C Hk Hinv' Hmv) in HB. injection HB as <-.
      split; [apply (fin_serves F (changed F l) N (cs_aff q) A'); auto|]. split; [apply Hinv'|].
      apply (rl_kept f A Hf Hcl F N l). fold A'. split.
      + apply (iv_init _ _ _ _ _ _ _ Hinv').
      + intros x Hx Hi Hb. apply (iv_start _ _ _ _ _ _ _ Hinv' x Hx Hi).
        pose proof (hit_broken F N l A' (cs_aff q) Haff Haff1 (amode x)) as Hh. rewrite Hh.
        destruct Hb as [Hb|Hb]; [left|right; left; auto].
        destruct (inN N (astate x)) eqn:Ei; auto. exfalso. apply Hb.
        apply (inN_iff (length (fs_evars F) + length (fs_svars F))); auto. apply Hlen. apply (co_states _ _ Hco' x Hx).
    - destruct (untouched A'); [congruence|discriminate].
  Qed.
  (** an unfit node outside of N *)
  Lemma patch_refuses : forall fuel x, In x A -> unfit F A l x -> ~ In (astate x) N -> patched fuel = Ok [].
  Proof.
    intros fuel x Hx Hu HxN. destruct patch_unfold as (f & o & egs & Hf & Hcl & _ & _ & Ho & _ & Eq). rewrite Eq.
    pose proof (co_ids _ _ Hco) as Hnd.
    destruct o as [q|]; auto. exfalso. assert (K : Some q = None); [|discriminate]. apply Ho.
    exists (relabel f x). split; [apply rl_In; eauto|]. split; [apply rl_unfit; auto|].
    destruct (inN N (astate (relabel f x))) eqn:Ei; auto. exfalso. apply HxN. cbn in Ei.
    assert (Hs : length (astate x) = length (fs_evars F) + length (fs_svars F)).
    { apply (SynthSpec.st_bits F Hbool). apply (co_states _ _ Hco x Hx). }
    apply (inN_iff (length (fs_evars F) + length (fs_svars F))) in Ei; auto.
    apply Forall_forall. intros s Hs'. apply (SynthSpec.st_bits F Hbool). auto.
  Qed.
  (** no unfit node *)
  Lemma all_modes_none : forall c d fuel et st egs NB A', all_modes N c d ne ns orc alloc fuel et st egs NB A' [] = Ok (Some A').
  Proof. induction c as [|c IH]; intros; cbn [all_modes]; auto. cbn [affected_in filter map]. apply IH. Qed.
  Lemma patch_unchanged : forall fuel, (forall x, In x A -> ~ unfit F A l x) -> (forall x, In x A -> atrans x <> []) ->
    exists f, (forall a b, In a (ids A) -> In b (ids A) -> f a = f b -> a = b) /\ patched fuel = Ok (map (relabel f) A).
  Proof.
    intros fuel Hu Hd. destruct patch_unfold as (f & o & egs & Hf & Hcl & _ & _ & Ho1 & Ho2 & Eq). exists f. split; auto. rewrite Eq.
    pose proof (co_ids _ _ Hco) as Hnd.
    assert (Hu' : forall x, In x (map (relabel f) A) -> ~ unfit F (map (relabel f) A) l x).
    { intros x Hx. apply rl_In in Hx. destruct Hx as (z & Hz & ->). rewrite rl_unfit; auto. }
    assert (Hd' : forall x, In x (map (relabel f) A) -> atrans x <> []).
    { intros x Hx. apply rl_In in Hx. destruct Hx as (z & Hz & ->). cbn. intros E. apply map_eq_nil in E. apply (Hd z Hz E). }
    pose proof (rl_correct f A Hf Hnd Hcl F Hco) as Hco'.
    destruct o as [q|].
    2:{ destruct (proj1 Ho1 eq_refl) as (x & Hx & K & _). destruct (Hu' x Hx K). }
    destruct (Ho2 q eq_refl) as (_ & G1 & G2). assert (E : cs_aff q = []).
    { destruct (cs_aff q) as [|(h, a) r]; auto. exfalso. destruct (G2 (h, a) (or_introl eq_refl)) as [[]|(x & Hx & E & _)].
      destruct (proj1 (G1 x Hx)) as [[]|K]; [rewrite <- E; left; auto|]. apply (Hu' x Hx K). }
    rewrite E, all_modes_none. cbn [bind].
    assert (Eu : untouched (map (relabel f) A) = []).
    { unfold untouched. destruct (filter no_trans (map (relabel f) A)) as [|x r] eqn:Ex; [reflexivity|]. exfalso.
      assert (Hx : In x (filter no_trans (map (relabel f) A))) by (rewrite Ex; left; auto).
      apply filter_In in Hx. destruct Hx as (Hx & K). apply (Hd' x Hx). unfold no_trans in K. destruct (atrans x); [auto|discriminate]. }
    rewrite Eu. set (A' := map (relabel f) A) in *.
    assert (Hc' : closed A').
    { intros x t Hx Ht. destruct (co_closed _ _ Hco' x t Hx Ht) as (y & Hy & <-). apply in_ids. auto. }
    destruct (prune_deadends_exact A') as (keep & Ek & Hkeep); [apply Hco'|auto|]. rewrite Ek. f_equal.
    apply restrict_all; [auto|]. intros a Ha. apply Hkeep; auto. apply alive_path; auto.
  Qed.
End Whole.
