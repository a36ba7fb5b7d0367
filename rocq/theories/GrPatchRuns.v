(** What runs of gr1c-patch deliver, in the terms of GrPatchSpec.v; and runs with strategies
    that gr1c has written. *)
From Coq Require Import List ZArith Bool Arith Ascii String Lia.
From Verif Require Import Interactive InteractSpec Patch PatchSpec PatchLoad HotLoad.
From Verif Require Import Base Game Strs Ptree Form Support EnumProofs Solve SolveProofs FSpec RealProofs EncProofs Automaton AutProofs
  SynthSpec Synth Nonbool NonboolProofs RSpec PipeProofs NbStateProofs Main MainSpec PipeVerdict MainProofs FormCheck ListSpec ListProofs AutIO AutIOSpec AutIOProofs
  Lex LexSpec Parse Syntax FileSpec TextSpec TextProofs AutWrite Output JsonSpec JsonWrite FormatSpec WriteProofs AutmanProofs
  Options OptSpec OptProofs Program ProgramSpec ProgramProofs Hotswap HotSpec HotSynth Metric MetricSpec AddGoal AddSpec AddLoad HotInt IntPatch
  GrPatch GrPatchSpec GrPatchOpts GrPatchPrep GrPatchSame GrPatchProofs GrPatchMade.
Import ListNotations.
Open Scope string_scope.
Open Scope list_scope.
Open Scope Z_scope.

Section Runs.
  Variables (orc : oracle) (alloc : nat -> aut -> nat) (key : nat -> string) (date : string) (broken : string -> ptree)
            (W : world) (args : list string) (l : list popt).
  Let run (fuel : nat) : out outcome := patch_program orc alloc key date broken fuel W args.

  (** -r and -e come without -f *)
  Lemma no_goal : forall R files a q, patch_asked args l files q a -> (forall s, q <> Add s) -> goal_fits R l.
  Proof.
    intros R files a q (_ & _ & _ & _ & Hc & _ & Hq & _) Hn. unfold goal_fits. unfold conflict, asked_for in *.
    destruct (the_goal l) as [s|]; auto. exfalso.
    destruct (the_changes l) as [f|].
    - apply Hc. left. split; discriminate.
    - injection Hq as <-. exact (Hn s eq_refl).
  Qed.
  Lemma goal_is : forall R files a s g, patch_asked args l files (Add s) a -> formula_means s g -> goal_typed R g -> goal_fits R l.
  Proof.
    intros R files a s g (_ & _ & _ & _ & Hc & _ & Hq & _) Hg Ht. unfold goal_fits. unfold asked_for in Hq.
    destruct (the_changes l); [discriminate Hq|]. destruct (the_goal l) as [s'|]; auto. injection Hq as ->. exists g. auto.
  Qed.

  Lemma run_no_strategy : forall files q a R xs, patch_asked args l files q a -> spec_given W files R -> measured R l xs -> goal_fits R l ->
    String.prefix "-" a = false -> w_file W a = None ->
    exists N, forall fuel, (N <= fuel)%nat -> run fuel = Ok error_exit.
  Proof.
    intros files q a R xs HA ((text & Hi & HM) & HF & HU) Hm HG.
    exact (patch_no_aut orc alloc key date broken W args l files q a HA text R Hi HM HF HU xs Hm HG).
  Qed.
  Lemma run_no_changes : forall files a R xs f st, patch_asked args l files (Change f) a -> spec_given W files R -> measured R l xs ->
    aut_text W a st -> w_file W f = None ->
    exists N, forall fuel, (N <= fuel)%nat -> run fuel = Ok error_exit.
  Proof.
    intros files a R xs f st HA ((text & Hi & HM) & HF & HU) Hm Hst.
    refine (ch_no_file orc alloc key date broken W args l files (Change f) a HA text R Hi HM HF HU xs Hm _ st Hst f _).
    - apply (no_goal R files a _ HA). discriminate.
    - apply HA.
  Qed.
  Lemma run_remove_range : forall files a R xs d st, patch_asked args l files (Remove d) a -> spec_given W files R -> measured R l xs ->
    aut_text W a st -> 0 <= d ->
    (Z.of_nat (goal_count R) <= d -> exists N, forall fuel, (N <= fuel)%nat -> run fuel = Ok (Exits 1 "" None)) /\
    (d < Z.of_nat (goal_count R) -> (goal_count R < 3)%nat -> exists N, forall fuel, (N <= fuel)%nat -> run fuel = Ok error_exit).
  Proof.
    intros files a R xs d st HA ((text & Hi & HM) & HF & HU) Hm Hst Hd.
    assert (HG : goal_fits R l) by (apply (no_goal R files a _ HA); discriminate).
    assert (Hq : asked_for l = Some (Remove d)) by apply HA. split.
    - exact (rm_range orc alloc key date broken W args l files (Remove d) a HA text R Hi HM HF HU xs Hm HG st Hst d Hq Hd).
    - exact (rm_few orc alloc key date broken W args l files (Remove d) a HA text R Hi HM HF HU xs Hm HG st Hst d Hq Hd).
  Qed.

  Lemma run_remove : forall R A xs i, ready orc alloc key date W args l (Remove (Z.of_nat i)) R A xs ->
    (3 <= List.length (rs_sgoals R))%nat -> (i < List.length (rs_sgoals R))%nat ->
    in_order (fspec_of R) A -> not_skipped (fspec_of R) i A ->
    exists N, forall fuel, (N <= fuel)%nat -> forall r, run fuel = Ok r ->
      r = error_exit \/
      exists B, B <> [] /\ correct (without i (fspec_of R)) B /\ keeps (fspec_of R) i A B /\ writes_out key date W l R B r.
  Proof.
    intros R A xs i [(files & a & HA & ((text & Hi & HM) & HF & HU) & st & Hst & HA') Hm HT HK Hd] H3 Hik Ho Hn.
    assert (HG : goal_fits R l) by (apply (no_goal R files a _ HA); discriminate).
    assert (Hq : asked_for l = Some (Remove (Z.of_nat i))) by apply HA.
    rewrite <- (Nat2Z.id i) in Hn.
    destruct (rm_sound orc alloc key date broken W args l files _ a HA text R Hi HM HF HU xs Hm HG A st Hst HA' HK Hd HT (Z.of_nat i) Hq
      ltac:(lia) H3 ltac:(lia) Ho Hn) as (N & H). rewrite Nat2Z.id in H. exists N. exact H.
  Qed.
  Lemma run_remove_exact : forall R A xs i, ready orc alloc key date W args l (Remove (Z.of_nat i)) R A xs ->
    (3 <= List.length (rs_sgoals R))%nat -> (i < List.length (rs_sgoals R))%nat ->
    in_order (fspec_of R) A -> not_skipped (fspec_of R) i A ->
    env_moves R -> (rs_evars R <> [] \/ rs_etrans R = []) -> seeks (fspec_of R) A ->
    apart (fspec_of R) (HotSpec.after (fspec_of R) i) (HotSpec.after (fspec_of R) (HotSpec.after (fspec_of R) i)) ->
    exits_fit (fspec_of R) i A ->
    exists N, forall fuel, (N <= fuel)%nat -> exists r, run fuel = Ok r /\
      (r = error_exit <-> ~ taken_up (fspec_of R) i A \/ no_out_file W l).
  Proof.
    intros R A xs i [(files & a & HA & ((text & Hi & HM) & HF & HU) & st & Hst & HA') Hm HT HK Hd] H3 Hik Ho Hn He Hv Hs Hap Hx.
    assert (HG : goal_fits R l) by (apply (no_goal R files a _ HA); discriminate).
    assert (Hq : asked_for l = Some (Remove (Z.of_nat i))) by apply HA.
    rewrite <- (Nat2Z.id i) in Hn, Hap, Hx.
    destruct (rm_exact orc alloc key date broken W args l files _ a HA text R Hi HM HF HU xs Hm HG A st Hst HA' HK Hd HT (Z.of_nat i) Hq
      ltac:(lia) H3 ltac:(lia) Ho Hn He Hv Hs Hap Hx) as (N & H). rewrite Nat2Z.id in H. exists N. exact H.
  Qed.
  Lemma run_add : forall R A xs s g, ready orc alloc key date W args l (Add s) R A xs ->
    formula_means s g -> goal_typed R g -> (2 <= List.length (rs_sgoals R))%nat ->
    in_order (fspec_of R) A -> proceeds (fspec_of R) A ->
    exists N, forall fuel, (N <= fuel)%nat -> forall r, run fuel = Ok r ->
      r = error_exit \/
      exists i, comes_behind xs R g i /\
        (apart (fspec_of R) i (HotSpec.after (fspec_of R) i) -> new_apart (fspec_of R) g (HotSpec.after (fspec_of R) i) ->
         exists B, B <> [] /\ correct (AddSpec.with_goal (S i) g (fspec_of R)) B /\
           AddSpec.starts (fspec_of R) (HotSpec.after (fspec_of R) i) A B /\
           (env_moves R -> in_order_but (AddSpec.with_goal (S i) g (fspec_of R)) (moved i (HotSpec.after (fspec_of R) i)) (S i) B) /\
           writes_out key date W l R B r).
  Proof.
    intros R A xs s g [(files & a & HA & ((text & Hi & HM) & HF & HU) & st & Hst & HA') Hm HT HK Hd] Hg Hgt H2 Ho Hp.
    assert (HG : goal_fits R l) by exact (goal_is R files a s g HA Hg Hgt).
    assert (Hq : asked_for l = Some (Add s)) by apply HA.
    exact (GrPatchProofs.add_sound orc alloc key date broken W args l files _ a HA text R Hi HM HF HU xs Hm HG A st Hst HA' HK Hd HT s g Hq Hg Hgt H2 Ho Hp).
  Qed.

  Lemma run_change : forall R A xs f N cs, ready orc alloc key date W args l (Change f) R A xs ->
    change_given W R f N cs -> in_order (fspec_of R) A -> patchable (fspec_of R) N cs A ->
    env_moves_in (fspec_of R) (changed (fspec_of R) cs) ->
    (rs_evars R = [] -> forall s e, ~ In (RelaxEnv s e) cs) ->
    exists M, forall fuel, (M <= fuel)%nat -> forall r, run fuel = Ok r ->
      r = error_exit \/
      exists B, B <> [] /\ serves (fspec_of R) (changed (fspec_of R) cs) B /\ in_order (fspec_of R) B /\
        starts_kept (fspec_of R) N cs A B /\ writes_out key date W l R B r.
  Proof.
    intros R A xs f N cs [(files & a & HA & ((text & Hi & HM) & HF & HU) & st & Hst & HA') Hm HT HK Hd] ((ct & Ht & Hc) & HR & Hs & Hg & HN & Hv & Hch) Ho.
    assert (HG : goal_fits R l) by (apply (no_goal R files a _ HA); discriminate).
    assert (Hq : asked_for l = Some (Change f)) by apply HA.
    exact (ch_sound orc alloc key date broken W args l files _ a HA text R Hi HM HF HU xs Hm HG A st Hst HA' HK Hd HT f Hq ct N cs Ht Hc HR Hs Hg HN Hv Hch Ho).
  Qed.
  Lemma run_change_outside : forall R A xs f N cs x, ready orc alloc key date W args l (Change f) R A xs ->
    change_given W R f N cs -> in_order (fspec_of R) A ->
    In x A -> unfit (fspec_of R) A cs x -> ~ In (astate x) N ->
    exists M, forall fuel, (M <= fuel)%nat -> run fuel = Ok error_exit.
  Proof.
    intros R A xs f N cs x [(files & a & HA & ((text & Hi & HM) & HF & HU) & st & Hst & HA') Hm HT HK Hd] ((ct & Ht & Hc) & HR & Hs & Hg & HN & Hv & Hch) Ho.
    assert (HG : goal_fits R l) by (apply (no_goal R files a _ HA); discriminate).
    assert (Hq : asked_for l = Some (Change f)) by apply HA.
    exact (ch_outside orc alloc key date broken W args l files _ a HA text R Hi HM HF HU xs Hm HG A st Hst HA' f Hq ct N cs Ht Hc HR Hs Hg HN Hv Hch Ho x).
  Qed.
  Lemma run_change_unaffected : forall R A xs f N cs, ready orc alloc key date W args l (Change f) R A xs ->
    change_given W R f N cs -> in_order (fspec_of R) A ->
    (forall x, In x A -> ~ unfit (fspec_of R) A cs x) -> (forall x, In x A -> atrans x <> []) -> A <> [] ->
    exists M, forall fuel, (M <= fuel)%nat -> exists r, run fuel = Ok r /\
      (r = error_exit <-> no_out_file W l) /\
      (r = error_exit \/ exists B, same_strategy A B /\ writes_out key date W l R B r).
  Proof.
    intros R A xs f N cs [(files & a & HA & ((text & Hi & HM) & HF & HU) & st & Hst & HA') Hm HT HK Hd] ((ct & Ht & Hc) & HR & Hs & Hg & HN & Hv & Hch) Ho H1 H2 H3.
    assert (HG : goal_fits R l) by (apply (no_goal R files a _ HA); discriminate).
    assert (Hq : asked_for l = Some (Change f)) by apply HA.
    destruct (ch_unaffected orc alloc key date broken W args l files _ a HA text R Hi HM HF HU xs Hm HG A st Hst HA' HK Hd f Hq ct N cs Ht Hc HR Hs Hg HN Hv Hch Ho H1 H2 H3)
      as (M & H). exists M. intros fuel Hf. destruct (H fuel Hf) as (r & g & E & He & Hinj & Hr). exists r. split; [exact E|]. split; [exact He|].
    destruct Hr as [Hr|Hr]; auto. right. exists (map (relabel g) A). split; auto. exists g. auto.
  Qed.
End Runs.

(** ** Strategies written by gr1c *)
Lemma gr1c_ready : forall flags R orc alloc, usable R -> tools R orc alloc -> rs_sgoals R <> [] ->
  (flags = ALL_ENV_EXIST_SYS_INIT -> one_sided R) ->
  exists N, forall fuel, (N <= fuel)%nat -> forall A ev sv,
    gr1c_main orc alloc fuel MODE_SYNTHESIS flags (raw_of R) = Ok (Strategy A ev sv) ->
    let F := fspec_of R in let k := List.length (rs_sgoals R) in
    correct F A /\ in_order F A /\ seeks F A /\
    (forall i, (3 <= k)%nat -> (i < k)%nat ->
       (forall j, (j < k)%nat -> HotSpec.after F j = i -> apart F j i) -> not_skipped F i A) /\
    (forall i, (2 <= k)%nat -> (i < k)%nat -> apart F i (HotSpec.after F i) -> proceeds F A).
Proof.
  intros flags R orc alloc HU HT HG Hs. destruct (main_made flags R HU orc alloc HT Hs HG) as (N & H).
  exists N. intros fuel Hf A ev sv E F k. destruct (H fuel Hf A ev sv E) as (C & O & S). split; [exact C|]. split; [exact O|]. split; [exact S|]. split.
  - intros i Hk Hi Hap. apply order_not_skipped; auto. intros x Hx. apply (co_states _ _ C). exact Hx.
  - intros i Hk Hi Hap. exact (made_proceeds F A i Hk C S Hi Hap).
Qed.
