(** * Proofs about CleanLearning *)
From Coq Require Import QArith Qabs Qround List ZArith Bool Arith Lia Lqa Permutation.
From Verif Require Import Base BaseFacts ModelUtil ModelCount ModelRank ModelPool ModelFilter ModelLatent ModelBatched ModelLearn SpecLearn.
Import ListNotations.
Open Scope Q_scope.

(** ** The state monad *)
Lemma mbind_ok {A B} (m : M A) (f : A -> M B) s s' b : mbind m f s = (s', Ok b) ->
  exists s1 a, m s = (s1, Ok a) /\ f a s1 = (s', Ok b).
Proof. unfold mbind. destruct (m s) as [s1 [a|e]]; intro H; [eauto|discriminate]. Qed.

(** a method preserving an invariant, also when it raises *)
Definition keeps (P : clstate -> Prop) {A} (m : M A) : Prop := forall s, P s -> P (fst (m s)).
Lemma keeps_ret P {A} (a : A) : keeps P (mret a). Proof. intros s H; exact H. Qed.
Lemma keeps_lift P {A} (r : res A) : keeps P (lift r). Proof. intros s H; exact H. Qed.
Lemma keeps_fail P {A} e : keeps P (@fail A e). Proof. intros s H; exact H. Qed.
Lemma keeps_get P {A} (f : clstate -> A) : keeps P (get f). Proof. intros s H; exact H. Qed.
Lemma keeps_modify (P : clstate -> Prop) f : (forall s, P s -> P (f s)) -> keeps P (modify f). Proof. intros H s Hs; apply H, Hs. Qed.
Lemma keeps_bind P {A B} (m : M A) (f : A -> M B) : keeps P m -> (forall a, keeps P (f a)) -> keeps P (mbind m f).
Proof.
  intros Hm Hf s Hs. unfold mbind. specialize (Hm s Hs). destruct (m s) as [s1 [a|e]]; cbn in *; [apply Hf, Hm|exact Hm].
Qed.
(** knowing what a read returns *)
Lemma keeps_read (P : clstate -> Prop) {A B} (g : clstate -> A) (f : A -> M B) :
  (forall s, P s -> P (fst (f (g s) s))) -> keeps P (mbind (get g) f).
Proof. intros H s Hs. cbn. apply H, Hs. Qed.

Ltac keep :=
  repeat match goal with
  | |- keeps _ (mbind _ _) => apply keeps_bind; [|intro]
  | |- keeps _ (mret _) => apply keeps_ret
  | |- keeps _ (lift _) => apply keeps_lift
  | |- keeps _ (fail _) => apply keeps_fail
  | |- keeps _ (get _) => apply keeps_get
  | |- keeps _ (match ?x with _ => _ end) => destruct x
  | |- keeps _ (let (_, _) := ?x in _) => destruct x
  end.

Section Histories.
  Variable srt : list Q -> list nat.
  Variable minv : matrix -> res matrix.
  Variable js : nat -> jobs.
  Variable cfg : settings.

  (** an invariant about the two keyword dictionaries is kept by everything that does not write them *)
  Definition kwinv (P : option kwargs -> option (score_method * bool) -> Prop) (s : clstate) : Prop := P (c_kwargs s) (c_quality_kwargs s).

  Lemma estimate_keeps P ds th nm im : keeps (kwinv P) (estimate_noise srt minv cfg ds th nm im).
  Proof. unfold estimate_noise. keep; try (apply keeps_modify; intros s H; exact H). Qed.

  Lemma kw_min_with kw : with_min (with_min kw) = with_min kw.
  Proof. reflexivity. Qed.

  (** ** After a completed call the keyword arguments no longer change *)
  Definition settled (kw : kwargs) : Prop := kw_min kw <> None /\ (kw_cj kw <> None \/ kw_filter kw = Some ConfidentLearning).

  Definition fixed kw qk := kwinv (fun k q => k = Some kw /\ q = qk).

  Lemma with_min_id kw : kw_min kw <> None -> with_min kw = kw.
  Proof. destruct kw as [a b [m|] c d e f g h]; intro H; [reflexivity|]. now exfalso; apply H. Qed.

  Lemma process_keeps kw qk : settled kw -> keeps (fixed kw qk) process_label_issues_kwargs.
  Proof.
    intros [S1 S2]. unfold process_label_issues_kwargs. apply keeps_read. intros s [E Q]. rewrite E.
    destruct (kw_unsupported kw); [split; assumption|]. rewrite with_min_id by assumption.
    destruct (kw_cj kw); cbn; split; auto.
  Qed.

  Lemma remember_keeps kw qk : settled kw -> keeps (fixed kw qk) remember_joint.
  Proof.
    intros [S1 S2]. apply keeps_modify. intros s [E Q]. rewrite E. destruct (c_cj s); [|split; assumption].
    destruct (kw_cj kw); [split; assumption|]. destruct S2 as [S2|S2]; [congruence|]. rewrite S2. split; assumption.
  Qed.

  Lemma find_keeps_fixed kw qk ds th nm im sv : settled kw -> pulearning cfg = None ->
    keeps (fixed kw qk) (find_label_issues srt minv js cfg ds th nm im sv).
  Proof.
    intros S PU. unfold find_label_issues. rewrite PU.
    keep; first [apply process_keeps; assumption | apply remember_keeps; assumption | apply estimate_keeps
                | apply keeps_modify; intros s0 H; exact H].
  Qed.

  Lemma fit_keeps P {A} (d : A) X k ds th nm im li w :
    (forall ds th nm im sv, keeps (kwinv P) (find_label_issues srt minv js cfg ds th nm im sv)) ->
    keeps (kwinv P) (fit srt minv js cfg d X k ds th nm im li w).
  Proof.
    intro F. unfold fit. keep; first [apply F | apply keeps_modify; let s0 := fresh in let H0 := fresh in intros s0 H0; exact H0].
  Qed.

  Lemma calls_keep P : (forall ds th nm im sv, keeps (kwinv P) (find_label_issues srt minv js cfg ds th nm im sv)) ->
    forall cs s, kwinv P s -> kwinv P (run_calls srt minv js cfg cs s).
  Proof.
    intros F cs. induction cs as [|c cs IH]; intros s H; [exact H|]. cbn. apply IH. destruct c; cbn.
    - apply F, H.
    - apply fit_keeps; assumption.
  Qed.

  (** ** What a completed call returns *)
  Definition low_table ds qk (t : issues_df) : Prop :=
    exists pp m q, get_pred_probs ds = Ok pp /\
      find_label_issues_batched srt (ds_labels ds) pp (width pp) (100 * 100) SelfConfidence false false js = Ok m /\
      get_label_quality_scores (ds_labels ds) pp (width pp) (fst qk) (snd qk) = Ok q /\
      t = {| d_len := length (ds_labels ds); d_issue := Some (BoolCol m); d_quality := Some q;
             d_given := Some (ds_labels ds); d_predicted := Some (map argmax pp); d_weight := None |}.

  Lemma kwinv_eq P {A} (m : M A) s s' r k q : keeps (kwinv P) m -> kwinv P s -> m s = (s', r) -> c_kwargs s' = k -> c_quality_kwargs s' = q -> P k q.
  Proof. intros K H E <- <-. specialize (K s H). rewrite E in K. exact K. Qed.

  Lemma estimate_sets ds th nm im s s' pp : estimate_noise srt minv cfg ds th nm im s = (s', Ok pp) ->
    get_pred_probs ds = Ok pp /\ c_cj s' <> None /\ c_kwargs s' = c_kwargs s /\ c_quality_kwargs s' = c_quality_kwargs s.
  Proof.
    intro H.
    assert (KQ : c_kwargs s' = c_kwargs s /\ c_quality_kwargs s' = c_quality_kwargs s).
    { pose proof (estimate_keeps (fun k q => k = c_kwargs s /\ q = c_quality_kwargs s) ds th nm im s (conj eq_refl eq_refl)) as K.
      rewrite H in K. exact K. }
    unfold estimate_noise in H. apply mbind_ok in H. destruct H as (s1 & cj & _ & H).
    apply mbind_ok in H. destruct H as (s2 & noise & _ & H). apply mbind_ok in H. destruct H as (s3 & [] & _ & H).
    apply mbind_ok in H. destruct H as (s4 & [] & _ & H). apply mbind_ok in H. destruct H as (s5 & p & E5 & H).
    apply mbind_ok in H. destruct H as (s6 & [] & _ & H). apply mbind_ok in H. destruct H as (s7 & cj' & E7 & H).
    apply mbind_ok in H. destruct H as (s8 & [] & E8 & H). injection H as -> ->. injection E5 as -> E5. injection E7 as -> <-.
    split; [assumption|]. split; [|exact KQ].
    destruct (c_cj s7) eqn:C.
    - injection E8 as <-. congruence.
    - apply mbind_ok in E8. destruct E8 as (s9 & r & _ & E8). injection E8 as <-. discriminate.
  Qed.

  Lemma find_ok ds th nm im sv s s' t : find_label_issues srt minv js cfg ds th nm im sv s = (s', Ok t) ->
    exists qk, c_quality_kwargs s' = Some qk /\ c_quality_kwargs s = Some qk /\
    if low_memory cfg then low_table ds qk t
    else exists kw, c_kwargs s' = Some kw /\ table_with srt kw qk ds t /\
         (pulearning cfg = None -> exists kw0, c_kwargs s = Some kw0 /\ kw_unsupported kw0 = false /\
            settled kw /\ (kw = with_min kw0 \/ exists cj, kw_cj kw0 = None /\ kw = with_cj (with_min kw0) cj)).
  Proof.
    intro H. unfold find_label_issues in H. apply mbind_ok in H. destruct H as (s1 & [] & E1 & H). injection E1 as <- E1.
    destruct (low_trace nm || low_trace im)%bool; [discriminate|].
    apply mbind_ok in H. destruct H as (s2 & K & E2 & H). injection E2 as <- E2.
    apply mbind_ok in H. destruct H as (s3 & [] & E3 & H). injection E3 as <-.
    destruct (_ && _)%bool; [discriminate|].
    apply mbind_ok in H. destruct H as (s4 & [pp m] & E4 & H). cbn [fst snd] in H.
    apply mbind_ok in H. destruct H as (s5 & qk & E5 & H). injection E5 as <- <-.
    destruct (c_quality_kwargs s4) as [[me ad]|] eqn:Q; [|discriminate].
    apply mbind_ok in H. destruct H as (s6 & q & E6 & H). injection E6 as <- E6.
    apply mbind_ok in H. destruct H as (s7 & [] & E7 & H). injection H as <- <-.
    assert (KQ : c_kwargs s7 = c_kwargs s4 /\ c_quality_kwargs s7 = c_quality_kwargs s4).
    { destruct sv; injection E7 as <-; split; reflexivity. }
    destruct KQ as [KQ1 KQ2]. rewrite KQ2, KQ1. exists (me, ad). split; [assumption|].
    set (s3 := set_num_classes s K) in *.
    destruct (low_memory cfg).
    - apply mbind_ok in E4. destruct E4 as (s8 & pp' & E8 & E4). injection E8 as <- E8.
      apply mbind_ok in E4. destruct E4 as (s9 & m' & E9 & E4). injection E9 as <- E9. injection E4 as <- <- <-.
      split; [assumption|]. exists pp', m', q. refine (conj E8 (conj E9 (conj E6 eq_refl))).
    - apply mbind_ok in E4. destruct E4 as (s8 & [] & E8 & E4). apply mbind_ok in E4. destruct E4 as (s9 & pp' & E9 & E4).
      apply mbind_ok in E4. destruct E4 as (s10 & [] & E10 & E4). apply mbind_ok in E4. destruct E4 as (s11 & [] & E11 & E4).
      apply mbind_ok in E4. destruct E4 as (s12 & kw & E12 & E4). injection E12 as <- <-.
      destruct (c_kwargs s11) as [kw|] eqn:KW; [|discriminate].
      apply mbind_ok in E4. destruct E4 as (s13 & m' & E13 & E4). injection E13 as <- E13. injection E4 as <- <- <-.
      apply estimate_sets in E9. destruct E9 as (P9 & C9 & K9 & Q9).
      assert (Q10 : c_quality_kwargs s10 = c_quality_kwargs s9).
      { destruct (pulearning cfg) as [p|]; [|now injection E10 as <-]. destruct (Nat.eqb K 2); [|now injection E10 as <-].
        apply (f_equal fst) in E10. cbn [fst pu_adjust modify] in E10. rewrite <- E10.
        destruct (c_noise s9) eqn:N9; cbn; destruct (c_inverse s9) eqn:I9; cbn; destruct (c_cj s9) eqn:J9; cbn; try reflexivity;
        destruct (c_kwargs s9) as [k9|]; cbn; try reflexivity; destruct (kw_cj k9); reflexivity. }
      assert (Q11 : c_quality_kwargs s11 = c_quality_kwargs s10).
      { apply (f_equal fst) in E11. cbn [fst remember_joint modify] in E11. rewrite <- E11. destruct (c_kwargs s10) as [k|]; [|reflexivity]. destruct (c_cj s10); [|reflexivity].
        destruct (kw_cj k); [reflexivity|]. destruct (kw_filter k) as [[]|]; reflexivity. }
      assert (P8 : c_quality_kwargs s8 = c_quality_kwargs s /\ exists kw0, c_kwargs s = Some kw0 /\ kw_unsupported kw0 = false /\ c_kwargs s8 = Some (with_min kw0)).
      { unfold process_label_issues_kwargs in E8. apply mbind_ok in E8. destruct E8 as (s14 & k & E14 & E8). injection E14 as <- <-.
        change (c_kwargs s3) with (c_kwargs s) in E8. destruct (c_kwargs s) as [kw0|]; [|discriminate].
        destruct (kw_unsupported kw0) eqn:U; [discriminate|].
        apply mbind_ok in E8. destruct E8 as (s15 & [] & E15 & E8). injection E8 as <-. split; [|exists kw0; auto].
        destruct (kw_cj kw0); injection E15 as <-; reflexivity. }
      destruct P8 as [P8 (kw0 & K0 & U0 & K8)].
      split; [congruence|]. exists kw. split; [exact KW|]. split; [exists pp', m', q; refine (conj P9 (conj E13 (conj E6 eq_refl)))|].
      intro PU. exists kw0. refine (conj K0 (conj U0 _)). rewrite PU in E10. injection E10 as <-.
      rewrite K8 in K9. destruct (c_cj s9) as [cj|] eqn:J9; [|congruence].
      apply (f_equal fst) in E11. cbn [fst remember_joint modify] in E11. rewrite K9, J9 in E11. subst s11. clear - KW K9.
      destruct (kw_cj (with_min kw0)) as [c|] eqn:CJ.
      + rewrite K9 in KW. injection KW as <-. split; [|now left]. split; [discriminate|]. left. congruence.
      + destruct (kw_filter (with_min kw0)) as [f|] eqn:F.
        * destruct f; cbn in KW; try (injection KW as <-; (split; [split; [discriminate|left; discriminate]|right; exists cj; split; [exact CJ|reflexivity]])).
          rewrite K9 in KW. injection KW as <-. split; [|now left]. split; [discriminate|]. right. exact F.
        * cbn in KW. injection KW as <-. split; [split; [discriminate|left; discriminate]|right; exists cj; split; [exact CJ|reflexivity]].
  Qed.

  (** ** Tables *)
  Lemma table_unique kw qk ds t t' : table_with srt kw qk ds t -> table_with srt kw qk ds t' -> t = t'.
  Proof.
    intros (pp & m & q & H1 & H2 & H3 & ->) (pp' & m' & q' & H1' & H2' & H3' & ->).
    assert (pp' = pp) by congruence. subst pp'. assert (m' = m) by congruence. assert (q' = q) by congruence. now subst.
  Qed.

  (** the joint matters only for the pruning filters *)
  Lemma table_any_joint kw kw' qk ds t t' : is_prune (filter_of kw) = false -> with_cj (with_min kw) [] = with_cj (with_min kw') [] ->
    kw_min kw <> None -> kw_min kw' <> None ->
    table_with srt kw qk ds t -> table_with srt kw' qk ds t' -> t = t'.
  Proof.
    intros NP E N N' (pp & m & q & H1 & H2 & H3 & ->) (pp' & m' & q' & H1' & H2' & H3' & ->).
    assert (pp' = pp) by congruence. subst pp'. assert (q' = q) by congruence. subst q'.
    enough (m = m') by now subst.
    destruct kw as [f cj [mi|] fr nt jo sc sn un]; [|now exfalso; apply N].
    destruct kw' as [f' cj' [mi'|] fr' nt' jo' sc' sn' un']; [|now exfalso; apply N'].
    cbn in E. injection E as -> -> -> -> -> -> -> ->.
    unfold ModelFilter.find_label_issues in H2, H2'. unfold filter_of, options_of in *.
    cbn [kw_filter with_cj kw_ntr kw_frac kw_min kw_cj kw_jobs kw_sched_c kw_sched_n
      num_to_remove_per_class frac_noise min_examples_per_class confident_joint n_jobs sched_c sched_n] in *.
    destruct (assert_valid_inputs _ _ _ _); [|discriminate H2]. cbn [rbind] in H2, H2'.
    rewrite NP in H2, H2'. cbn [negb andb] in H2, H2'.
    destruct nt' as [nt'|]; [discriminate H2|].
    destruct (Nat.ltb jo' 1); [discriminate H2|]. unfold raw_mask in H2, H2'. cbn [confident_joint] in *.
    destruct f' as [[]|]; try discriminate NP;
      destruct cj as [cj|]; destruct cj' as [cj'|]; cbn [rbind] in H2, H2';
      repeat match goal with
      | H : context [compute_confident_joint ?a ?b ?c ?d ?e ?f] |- _ =>
          destruct (compute_confident_joint a b c d e f); cbn [rbind] in H2, H2'; try discriminate H2; try discriminate H2' end;
      congruence.
  Qed.

  (** *** the keyword arguments up to the joint *)
  Definition upto kw0 (k : option kwargs) (q : option (score_method * bool)) qk : Prop :=
    (exists kw, k = Some kw /\ with_cj (with_min kw) [] = with_cj (with_min kw0) []) /\ q = Some qk.

  Lemma find_keeps_upto kw0 qk ds th nm im sv :
    keeps (kwinv (fun k q => upto kw0 k q qk)) (find_label_issues srt minv js cfg ds th nm im sv).
  Proof.
    assert (PR : keeps (kwinv (fun k q => upto kw0 k q qk)) process_label_issues_kwargs).
    { unfold process_label_issues_kwargs. apply keeps_read. intros s [(kw & E & C) Q]. rewrite E.
      destruct (kw_unsupported kw); [split; [exists kw; auto|exact Q]|].
      destruct (kw_cj kw); cbn; (split; [exists (with_min kw); split; [reflexivity|exact C]|exact Q]). }
    assert (RE : keeps (kwinv (fun k q => upto kw0 k q qk)) remember_joint).
    { apply keeps_modify. intros s [(kw & E & C) Q]. rewrite E.
      destruct (c_cj s) as [cj|]; [|split; [exists kw; auto|exact Q]].
      destruct (kw_cj kw); [split; [exists kw; auto|exact Q]|].
      destruct (kw_filter kw) as [[]|]; try solve [split; [exists kw; auto|exact Q]];
        (split; [exists (with_cj kw cj); split; [reflexivity|exact C]|exact Q]). }
    assert (PU : forall p, keeps (kwinv (fun k q => upto kw0 k q qk)) (pu_adjust p)).
    { intro p. unfold pu_adjust. cbv zeta. apply keeps_modify. intros s H.
      destruct (c_noise s) as [a|]; cbn [c_inverse set_noise]; destruct (c_inverse s) as [b|]; cbn [c_cj set_inverse set_noise];
        destruct (c_cj s) as [c|]; try exact H; cbn [c_kwargs set_inverse set_noise set_cj];
        destruct H as [(kw & E & C) Q]; rewrite E; cbn in E, Q;
        destruct (kw_cj kw); (split; [eexists; split; [reflexivity || exact E|exact C]|exact Q]). }
    unfold find_label_issues. keep;
      first [exact PR | exact RE | apply PU | apply estimate_keeps | apply keeps_modify; let s0 := fresh in let H0 := fresh in intros s0 H0; exact H0].
  Qed.

  Lemma new_upto kw qk : kwinv (fun k q => upto kw k q qk) (new_object kw qk).
  Proof. split; [exists kw; auto|reflexivity]. Qed.

  Lemma history_upto kw qk cs : kwinv (fun k q => upto kw k q qk) (run_calls srt minv js cfg cs (new_object kw qk)).
  Proof. apply calls_keep; [intros; apply find_keeps_upto|apply new_upto]. Qed.

  Lemma find_min ds th nm im sv s s' t kw : low_memory cfg = false -> find_label_issues srt minv js cfg ds th nm im sv s = (s', Ok t) ->
    c_kwargs s' = Some kw -> kw_min kw <> None.
  Proof.
    intros LM H. unfold find_label_issues in H. rewrite LM in H.
    apply mbind_ok in H. destruct H as (s1 & [] & _ & H). destruct (low_trace nm || low_trace im)%bool; [discriminate|].
    apply mbind_ok in H. destruct H as (s2 & K & _ & H). apply mbind_ok in H. destruct H as (s3 & [] & _ & H).
    destruct (_ && _)%bool; [discriminate|].
    apply mbind_ok in H. destruct H as (s4 & [pp m] & E4 & H). cbn [fst snd] in H.
    set (P := kwinv (fun k _ => match k with Some kw => kw_min kw <> None | None => True end)).
    assert (P4 : P s4).
    { apply mbind_ok in E4. destruct E4 as (s8 & [] & E8 & E4).
      assert (P8 : P s8).
      { unfold process_label_issues_kwargs in E8. apply mbind_ok in E8. destruct E8 as (s9 & k & _ & E8).
        destruct k as [k|]; [|discriminate]. destruct (kw_unsupported k); [discriminate|].
        apply mbind_ok in E8. destruct E8 as (s10 & [] & _ & E8). injection E8 as <-. cbn. discriminate. }
      revert E4. match goal with |- ?m s8 = _ -> _ => assert (KP : keeps P m) end.
      { unfold P. keep; try apply estimate_keeps.
        - unfold pu_adjust. cbv zeta. apply keeps_modify. intros s0 H0. destruct (c_noise s0) as [x|]; cbn [c_inverse set_noise]; destruct (c_inverse s0) as [b0|]; cbn [c_cj set_inverse set_noise];
          destruct (c_cj s0) as [c|]; try exact H0; cbn [c_kwargs set_inverse set_noise set_cj]; unfold kwinv in H0;
          destruct (c_kwargs s0) as [kk|] eqn:E0; unfold kwinv; cbn; rewrite ?E0; auto; destruct (kw_cj kk); cbn; rewrite ?E0; auto.
        - apply keeps_modify. intros s0 H0. unfold kwinv in *. destruct (c_kwargs s0) as [kk|] eqn:E0; [|now rewrite E0].
          destruct (c_cj s0); [|now rewrite E0]. destruct (kw_cj kk); [now rewrite E0|].
          destruct (kw_filter kk) as [[]|]; cbn; rewrite ?E0; auto. }
      intro E4. specialize (KP s8 P8). rewrite E4 in KP. exact KP. }
    apply mbind_ok in H. destruct H as (s5 & qk & E5 & H). injection E5 as <- _. destruct qk as [[]|]; [|discriminate].
    apply mbind_ok in H. destruct H as (s6 & q & E6 & H). injection E6 as <- _.
    apply mbind_ok in H. destruct H as (s7 & [] & E7 & H). injection H as <- _.
    intro KW. unfold P, kwinv in P4. destruct sv; injection E7 as <-; cbn in KW; rewrite KW in P4; exact P4.
  Qed.

  Theorem filters_independent kw qk cs ds th nm im sv th' nm' im' sv' s' t s0 t0 :
    is_prune (filter_of kw) = false ->
    find_label_issues srt minv js cfg ds th nm im sv (run_calls srt minv js cfg cs (new_object kw qk)) = (s', Ok t) ->
    find_label_issues srt minv js cfg ds th' nm' im' sv' (new_object kw qk) = (s0, Ok t0) -> t = t0.
  Proof.
    intros NP H H0. pose proof (history_upto kw qk cs) as U.
    pose proof (find_keeps_upto kw qk ds th nm im sv _ U) as U1. rewrite H in U1. cbn in U1.
    pose proof (find_keeps_upto kw qk ds th' nm' im' sv' _ (new_upto kw qk)) as U2. rewrite H0 in U2. cbn in U2.
    pose proof (find_ok _ _ _ _ _ _ _ _ H) as (q1 & Q1 & _ & R1). pose proof (find_ok _ _ _ _ _ _ _ _ H0) as (q2 & Q2 & _ & R2).
    destruct U1 as [(k1 & E1 & C1) W1]. destruct U2 as [(k2 & E2 & C2) W2].
    assert (q1 = qk) by congruence. assert (q2 = qk) by congruence. subst q1 q2.
    destruct (low_memory cfg) eqn:LM.
    - destruct R1 as (pp & m & q & A1 & A2 & A3 & ->). destruct R2 as (pp' & m' & q' & B1 & B2 & B3 & ->).
      assert (pp' = pp) by congruence. subst pp'. assert (m' = m) by congruence. assert (q' = q) by congruence. now subst.
    - destruct R1 as (kw1 & K1 & T1 & _). destruct R2 as (kw2 & K2 & T2 & _).
      assert (kw1 = k1) by congruence. assert (kw2 = k2) by congruence. subst kw1 kw2.
      assert (F : filter_of k1 = filter_of kw).
      { unfold filter_of. apply (f_equal kw_filter) in C1. cbn in C1. now rewrite C1. }
      apply (table_any_joint k1 k2 qk ds); [rewrite F; exact NP|congruence| | |exact T1|exact T2].
      + exact (find_min _ _ _ _ _ _ _ _ _ LM H K1).
      + exact (find_min _ _ _ _ _ _ _ _ _ LM H0 K2).
  Qed.

  Theorem low_memory_independent kw qk cs ds th nm im sv : low_memory cfg = true ->
    snd (find_label_issues srt minv js cfg ds th nm im sv (run_calls srt minv js cfg cs (new_object kw qk))) =
    snd (find_label_issues srt minv js cfg ds th nm im sv (new_object kw qk)).
  Proof.
    intro LM. pose proof (history_upto kw qk cs) as [_ Q]. revert Q. generalize (run_calls srt minv js cfg cs (new_object kw qk)) as s.
    intros s Q. unfold find_label_issues. rewrite LM. unfold mbind, lift, modify, get, mret, fail.
    destruct (valid_inputs ds); [|reflexivity]. destruct (low_trace nm || low_trace im)%bool; [reflexivity|].
    destruct (get_num_classes _ _); [|reflexivity]. cbn [c_quality_kwargs set_num_classes].
    destruct (_ && _)%bool; [reflexivity|]. destruct (get_pred_probs ds); [|reflexivity].
    destruct (find_label_issues_batched _ _ _ _ _ _ _ _ _); [|reflexivity]. cbn [fst snd new_object c_quality_kwargs].
    cbn. rewrite Q. destruct qk. destruct (get_label_quality_scores _ _ _ _ _); [|reflexivity]. destruct sv; reflexivity.
  Qed.

  (** ** After a first completed call *)
  Theorem later_calls ds th nm im sv s s1 t1 : pulearning cfg = None -> low_memory cfg = false ->
    find_label_issues srt minv js cfg ds th nm im sv s = (s1, Ok t1) ->
    exists kw qk, c_kwargs s1 = Some kw /\ c_quality_kwargs s1 = Some qk /\ table_with srt kw qk ds t1 /\
      forall cs ds' th' nm' im' sv' s2 t2,
        find_label_issues srt minv js cfg ds' th' nm' im' sv' (run_calls srt minv js cfg cs s1) = (s2, Ok t2) ->
        table_with srt kw qk ds' t2.
  Proof.
    intros PU LM H. destruct (find_ok _ _ _ _ _ _ _ _ H) as (qk & Q1 & Q0 & R). rewrite LM in R. destruct R as (kw & K & T & R).
    destruct (R PU) as (kw0 & _ & _ & ST & _). exists kw, qk. refine (conj K (conj Q1 (conj T _))).
    intros cs ds' th' nm' im' sv' s2 t2 H2.
    assert (F : fixed kw (Some qk) (run_calls srt minv js cfg cs s1)).
    { apply calls_keep; [|split; assumption]. intros. apply find_keeps_fixed; assumption. }
    pose proof (find_keeps_fixed kw (Some qk) ds' th' nm' im' sv' ST PU _ F) as F2. rewrite H2 in F2. destruct F2 as [F2 G2].
    destruct (find_ok _ _ _ _ _ _ _ _ H2) as (qk2 & Q2 & _ & R2). rewrite LM in R2. destruct R2 as (kw2 & K2 & T2 & _).
    cbn [fst] in F2, G2. assert (kw2 = kw) by congruence. assert (qk2 = qk) by congruence. now subst.
  Qed.

  Theorem repeated kw qk cs0 ds th nm im sv s1 t1 cs th' nm' im' sv' s2 t2 : pulearning cfg = None ->
    find_label_issues srt minv js cfg ds th nm im sv (run_calls srt minv js cfg cs0 (new_object kw qk)) = (s1, Ok t1) ->
    find_label_issues srt minv js cfg ds th' nm' im' sv' (run_calls srt minv js cfg cs s1) = (s2, Ok t2) -> t2 = t1.
  Proof.
    intros PU H1 H2. destruct (low_memory cfg) eqn:LM.
    - destruct (find_ok _ _ _ _ _ _ _ _ H1) as (q1 & Q1 & Q0 & R1). rewrite LM in R1.
      destruct (find_ok _ _ _ _ _ _ _ _ H2) as (q2 & Q2 & Q3 & R2). rewrite LM in R2.
      assert (q2 = q1).
      { pose proof (find_keeps_upto kw qk ds th nm im sv _ (history_upto kw qk cs0)) as U. rewrite H1 in U. cbn [fst] in U.
        pose proof (calls_keep (fun k q => upto kw k q qk) (fun ds th nm im sv => find_keeps_upto kw qk ds th nm im sv) cs s1 U) as U2.
        destruct U as [_ U]. destruct U2 as [_ U2]. congruence. }
      subst q2. destruct R1 as (pp & m & q & A1 & A2 & A3 & ->). destruct R2 as (pp' & m' & q' & B1 & B2 & B3 & ->).
      assert (pp' = pp) by congruence. subst pp'. assert (m' = m) by congruence. assert (q' = q) by congruence. now subst.
    - destruct (later_calls _ _ _ _ _ _ _ _ PU LM H1) as (k & q & _ & _ & T & L). eapply table_unique; [eapply L; exact H2|exact T].
  Qed.

  (** *** the joint of a new object's first call *)
  Lemma estimate_first ds th nm im s s' pp : c_cj s = None -> estimate_noise srt minv cfg ds th nm im s = (s', Ok pp) ->
    exists cj idx, compute_confident_joint srt (ds_labels ds) pp (width pp) th true = Ok (cj, idx) /\ c_cj s' = Some (zmat_to_q cj).
  Proof.
    intros C0 H. pose proof (proj1 (estimate_sets _ _ _ _ _ _ _ H)) as PP.
    set (P := fun s => c_cj s = None).
    unfold estimate_noise in H. apply mbind_ok in H. destruct H as (s1 & cj & E1 & H). injection E1 as <- <-. rewrite C0 in H.
    apply mbind_ok in H. destruct H as (s2 & noise & E2 & H). injection E2 as <- <-. 
    apply mbind_ok in H. destruct H as (s3 & [] & E3 & H).
    assert (P3 : P s3).
    { revert E3. match goal with |- ?m s = _ -> _ => assert (KP : keeps P m) end.
      { keep; apply keeps_modify; intros s0 H0; exact H0. }
      intro E3. specialize (KP s C0). rewrite E3 in KP. exact KP. }
    apply mbind_ok in H. destruct H as (s4 & [] & E4 & H).
    assert (P4 : P s4).
    { revert E4. match goal with |- ?m s3 = _ -> _ => assert (KP : keeps P m) end.
      { keep; apply keeps_modify; intros s0 H0; exact H0. }
      intro E4. specialize (KP s3 P3). rewrite E4 in KP. exact KP. }
    apply mbind_ok in H. destruct H as (s5 & p & E5 & H). injection E5 as <- E5.
    assert (p = pp).
    { apply mbind_ok in H. destruct H as (s6 & [] & _ & H). apply mbind_ok in H. destruct H as (s7 & c & _ & H).
      apply mbind_ok in H. destruct H as (s8 & [] & _ & H). now injection H. }
    subst p. apply mbind_ok in H. destruct H as (s6 & [] & E6 & H). apply mbind_ok in H. destruct H as (s7 & c & E7 & H).
    injection E7 as <- <-. apply mbind_ok in H. destruct H as (s8 & [] & E8 & H). injection H as <-.
    destruct nm as [nm|]; [|destruct im as [im|]].
    - injection E6 as <-. rewrite P4 in E8. apply mbind_ok in E8. destruct E8 as (s9 & [cj idx] & E9 & E8). injection E9 as <- E9.
      injection E8 as <-. exists cj, idx. split; [exact E9|reflexivity].
    - injection E6 as <-. rewrite P4 in E8. apply mbind_ok in E8. destruct E8 as (s9 & [cj idx] & E9 & E8). injection E9 as <- E9.
      injection E8 as <-. exists cj, idx. split; [exact E9|reflexivity].
    - apply mbind_ok in E6. destruct E6 as (s9 & [cj idx] & E9 & E6). injection E9 as <- E9.
      apply mbind_ok in E6. destruct E6 as (s10 & [[py n2] i2] & E10 & E6). injection E10 as <- _. injection E6 as <-.
      cbn in E8. injection E8 as <-. exists cj, idx. split; [exact E9|reflexivity].
  Qed.

  Lemma find_first kw qk ds th nm im sv s1 t : pulearning cfg = None -> low_memory cfg = false -> kw_cj kw = None -> kw_filter kw <> Some ConfidentLearning ->
    find_label_issues srt minv js cfg ds th nm im sv (new_object kw qk) = (s1, Ok t) ->
    exists pp cj idx, get_pred_probs ds = Ok pp /\
      compute_confident_joint srt (ds_labels ds) pp (width pp) th true = Ok (cj, idx) /\
      c_kwargs s1 = Some (with_cj (with_min kw) (zmat_to_q cj)) /\ c_quality_kwargs s1 = Some qk.
  Proof.
    intros PU LM C0 F0 H. pose proof (find_ok _ _ _ _ _ _ _ _ H) as (q1 & Q1 & Q0 & _). injection Q0 as <-.
    unfold find_label_issues in H. rewrite LM, PU in H.
    apply mbind_ok in H. destruct H as (s2 & [] & E2 & H). injection E2 as <- _. destruct (low_trace nm || low_trace im)%bool; [discriminate|].
    apply mbind_ok in H. destruct H as (s3 & K & E3 & H). injection E3 as <- _. apply mbind_ok in H. destruct H as (s4 & [] & E4 & H). injection E4 as <-.
    destruct (_ && _)%bool; [discriminate|].
    apply mbind_ok in H. destruct H as (s5 & [pp m] & E5 & H).
    apply mbind_ok in E5. destruct E5 as (s6 & [] & E6 & E5). apply mbind_ok in E5. destruct E5 as (s7 & pp' & E7 & E5).
    apply mbind_ok in E5. destruct E5 as (s8 & [] & E8 & E5). injection E8 as <-. apply mbind_ok in E5. destruct E5 as (s9 & [] & E9 & E5).
    apply mbind_ok in E5. destruct E5 as (s10 & k & E10 & E5). injection E10 as <- <-.
    assert (S6 : c_cj s6 = None /\ c_kwargs s6 = Some (with_min kw)).
    { unfold process_label_issues_kwargs, mbind, get in E6. cbn in E6. destruct (kw_unsupported kw); [discriminate|]. rewrite C0 in E6.
      cbn in E6. injection E6 as <-. split; reflexivity. }
    destruct S6 as [S6 K6].
    destruct (estimate_first _ _ _ _ _ _ _ S6 E7) as (cj & idx & J1 & J2). pose proof (estimate_sets _ _ _ _ _ _ _ E7) as (PP & _ & K7 & _).
    exists pp', cj, idx. refine (conj PP (conj J1 (conj _ Q1))).
    assert (K9 : c_kwargs s9 = Some (with_cj (with_min kw) (zmat_to_q cj))).
    { apply (f_equal fst) in E9. cbn [fst remember_joint modify] in E9. rewrite K7, K6, J2 in E9. rewrite <- E9.
      cbn [kw_cj with_min kw_filter]. rewrite C0. destruct (kw_filter kw) as [[]|]; try reflexivity. now exfalso; apply F0. }
    assert (K5 : c_kwargs s5 = c_kwargs s9).
    { destruct (c_kwargs s9) as [k9|] eqn:X9; [|discriminate]. apply mbind_ok in E5. destruct E5 as (s11 & m' & E11 & E5). injection E11 as <- _. injection E5 as <- _ _. exact X9. }
    cbn [fst snd] in H. apply mbind_ok in H. destruct H as (s12 & q & E12 & H). injection E12 as <- <-.
    destruct (c_quality_kwargs s5) as [[]|]; [|discriminate]. apply mbind_ok in H. destruct H as (s13 & q' & E13 & H). injection E13 as <- _.
    apply mbind_ok in H. destruct H as (s14 & [] & E14 & H). injection H as <- _.
    destruct sv; injection E14 as <-; cbn; congruence.
  Qed.

  (** the table computed with the joint of the same data is the one computed without a joint *)
  Lemma own_joint kw qk ds t pp cj idx : kw_cj kw = None -> kw_filter kw <> Some ConfidentLearning -> get_pred_probs ds = Ok pp ->
    compute_confident_joint srt (ds_labels ds) pp (width pp) None true = Ok (cj, idx) ->
    table_with srt (with_cj kw (zmat_to_q cj)) qk ds t -> table_with srt kw qk ds t.
  Proof.
    intros C0 F0 PP J (pp' & m & q & H1 & H2 & H3 & ->). assert (pp' = pp) by congruence. subst pp'.
    exists pp, m, q. refine (conj H1 (conj _ (conj H3 eq_refl))). rewrite <- H2.
    unfold ModelFilter.find_label_issues. unfold filter_of, options_of. cbn [kw_filter with_cj kw_ntr kw_frac kw_min kw_cj kw_jobs kw_sched_c kw_sched_n
      num_to_remove_per_class frac_noise min_examples_per_class confident_joint n_jobs sched_c sched_n].
    destruct (assert_valid_inputs _ _ _ _); [|reflexivity]. cbn [rbind].
    destruct (_ && _)%bool; [reflexivity|]. destruct (Nat.ltb (kw_jobs kw) 1); [reflexivity|].
    unfold raw_mask. cbn [confident_joint]. rewrite C0, J. cbn [rbind fst snd].
    destruct (kw_filter kw) as [[]|]; reflexivity.
  Qed.

  Lemma own_joint_cl kw qk ds t cj : kw_cj kw = None -> kw_filter kw = Some ConfidentLearning ->
    table_with srt (with_cj kw cj) qk ds t -> table_with srt kw qk ds t.
  Proof.
    intros C0 F0 (pp & m & q & H1 & H2 & H3 & ->).
    exists pp, m, q. refine (conj H1 (conj _ (conj H3 eq_refl))). rewrite <- H2.
    unfold ModelFilter.find_label_issues. unfold filter_of, options_of. cbn [kw_filter with_cj kw_ntr kw_frac kw_min kw_cj kw_jobs kw_sched_c kw_sched_n
      num_to_remove_per_class frac_noise min_examples_per_class confident_joint n_jobs sched_c sched_n].
    unfold raw_mask. cbn [confident_joint]. rewrite C0, F0. reflexivity.
  Qed.

  Theorem first_call kw qk ds sv s1 t nm im : pulearning cfg = None -> low_memory cfg = false -> kw_cj kw = None ->
    find_label_issues srt minv js cfg ds None nm im sv (new_object kw qk) = (s1, Ok t) -> table_with srt (with_min kw) qk ds t.
  Proof.
    intros PU LM C0 H.
    assert (D : kw_filter kw = Some ConfidentLearning \/ kw_filter kw <> Some ConfidentLearning)
      by (destruct (kw_filter kw) as [[]|]; ((now left) || (right; discriminate))).
    destruct D as [F0|F0].
    - destruct (find_ok _ _ _ _ _ _ _ _ H) as (q & Q1 & Q0 & R). rewrite LM in R. destruct R as (k & K & T & R).
      injection Q0 as <-. destruct (R PU) as (k0 & K0 & _ & _ & D). injection K0 as <-. destruct D as [->|(cj & _ & ->)]; [exact T|].
      eapply own_joint_cl; [| |exact T]; assumption.
    - destruct (find_first _ _ _ _ _ _ _ _ _ PU LM C0 F0 H) as (pp & cj & idx & PP & J & K & Q).
      destruct (later_calls _ _ _ _ _ _ _ _ PU LM H) as (k & q & K' & Q' & T & _).
      assert (k = with_cj (with_min kw) (zmat_to_q cj)) by congruence. assert (q = qk) by congruence. subst.
      eapply own_joint; eauto.
  Qed.

  Theorem stale_joint kw qk ds th nm im sv s1 t cs ds' th' nm' im' sv' s2 t2 :
    pulearning cfg = None -> low_memory cfg = false -> kw_cj kw = None -> kw_filter kw <> Some ConfidentLearning ->
    find_label_issues srt minv js cfg ds th nm im sv (new_object kw qk) = (s1, Ok t) ->
    find_label_issues srt minv js cfg ds' th' nm' im' sv' (run_calls srt minv js cfg cs s1) = (s2, Ok t2) ->
    exists pp cj idx, get_pred_probs ds = Ok pp /\
      compute_confident_joint srt (ds_labels ds) pp (width pp) th true = Ok (cj, idx) /\
      table_with srt (with_cj (with_min kw) (zmat_to_q cj)) qk ds' t2.
  Proof.
    intros PU LM C0 F0 H H2. destruct (find_first _ _ _ _ _ _ _ _ _ PU LM C0 F0 H) as (pp & cj & idx & PP & J & K & Q).
    destruct (later_calls _ _ _ _ _ _ _ _ PU LM H) as (k & q & K' & Q' & _ & L).
    assert (k = with_cj (with_min kw) (zmat_to_q cj)) by congruence. assert (q = qk) by congruence. subst.
    exists pp, cj, idx. refine (conj PP (conj J _)). eapply L; eauto.
  Qed.
End Histories.

(** ** fit *)
Lemma select_unflagged {A} (d : A) m : forall l, length m = length l -> select (map negb m) l = map (fun i => nth i l d) (unflagged m).
Proof.
  unfold unflagged, select. induction m as [|b m IH]; intros l H; [reflexivity|]. destruct l as [|x l]; [discriminate|].
  injection H as H. cbn [map combine filter length seq]. rewrite <- seq_shift.
  assert (F : forall L, map (fun i => nth i (x :: l) d) (filter (fun i => negb (nth i (b :: m) false)) (map S L)) =
                        map (fun i => nth i l d) (filter (fun i => negb (nth i m false)) L)).
  { induction L as [|a L IHL]; [reflexivity|]. cbn [map filter]. change (nth (S a) (b :: m) false) with (nth a m false).
    destruct (negb (nth a m false)); cbn [map]; rewrite IHL; reflexivity. }
  change (nth 0 (b :: m) false) with b. specialize (IH l H). destruct b; cbn [fst negb map snd].
  - rewrite F. exact IH.
  - rewrite F. cbn [nth]. f_equal. exact IH.
Qed.

Lemma scatter_unflagged m : forall v, length v = length m ->
  let s := scatter (map negb m) (repeat 0 (length m)) (select (map negb m) v) in
  length s = length m /\ forall i, (i < length m)%nat -> nth i s 0 = if nth i m false then 0 else nth i v 0.
Proof.
  induction m as [|b m IH]; intros [|x v] H; try discriminate; [split; [reflexivity|intros; cbn in *; lia]|].
  injection H as H. destruct (IH v H) as [L N]. cbn zeta. cbn [length repeat map scatter]. unfold select. cbn [combine filter].
  destruct b; cbn [negb fst map snd].
  - split; [cbn; f_equal; exact L|]. intros [|i] Hi; [reflexivity|]. cbn. apply N. cbn in Hi. lia.
  - split; [cbn; f_equal; exact L|]. intros [|i] Hi; [reflexivity|]. cbn. apply N. cbn in Hi. lia.
Qed.

Lemma wrap_index_ok n z i : wrap_index n z = Ok i -> (i < n)%nat /\ (z = Z.of_nat i \/ z = Z.of_nat i - Z.of_nat n)%Z.
Proof.
  unfold wrap_index. destruct (Z.leb (- Z.of_nat n) z && Z.ltb z (Z.of_nat n))%bool eqn:E; [|discriminate].
  apply andb_true_iff in E. destruct E as [E1 E2]. apply Z.leb_le in E1. apply Z.ltb_lt in E2.
  intro H. injection H as <-. destruct (Z.ltb z 0) eqn:E3; [apply Z.ltb_lt in E3|apply Z.ltb_ge in E3]; split; try lia.
Qed.

Lemma rmap_In {A B} (f : A -> res B) l : forall r, rmap f l = Ok r ->
  (forall x, In x l -> exists y, f x = Ok y /\ In y r) /\ (forall y, In y r -> exists x, In x l /\ f x = Ok y).
Proof.
  induction l as [|a l IH]; cbn; intros r H.
  - injection H as <-. split; intros ? [].
  - destruct (f a) as [b|] eqn:E; [|discriminate]. cbn [rbind] in H. destruct (rmap f l) as [r'|] eqn:R; [|discriminate]. cbn [rbind] in H. injection H as <-.
    destruct (IH r' eq_refl) as [I1 I2]. split.
    + intros x [<-|Hx]; [exists b; split; [assumption|now left]|]. destruct (I1 x Hx) as (y & Y1 & Y2). exists y; split; [assumption|now right].
    + intros y [<-|Hy]; [exists a; split; [now left|assumption]|]. destruct (I2 y Hy) as (x & X1 & X2). exists x; split; [now right|assumption].
Qed.

Section Fit.
  Variable srt : list Q -> list nat.
  Variable minv : matrix -> res matrix.
  Variable js : nat -> jobs.
  Variable cfg : settings.

  (** the flags used are those of the caller's argument *)
  Lemma arg_flags a labels df m : process_label_issues_arg a labels = Ok df -> d_issue df = Some (BoolCol m) ->
    flags_of_arg a (length labels) m /\ (match a with DFArg d => df = d | _ => True end).
  Proof.
    destruct a as [d|b|idx|]; cbn [process_label_issues_arg flags_of_arg]; intros H D.
    - destruct (d_issue d) as [c|] eqn:E; [|discriminate]. destruct (negb _); [discriminate|].
      assert (df = d). { destruct (d_given d); [destruct (existsb _ _); [discriminate|]|]; now injection H. }
      subst. split; [congruence|reflexivity].
    - destruct (Nat.eqb _ _); [|discriminate]. injection H as <-. cbn in D. split; [congruence|exact I].
    - destruct (negb _); [discriminate|]. destruct (rmap _ idx) as [l|] eqn:R; [|discriminate]. cbn [rbind] in H. injection H as <-.
      cbn in D. injection D as <-. split; [|exact I]. destruct (rmap_In _ _ _ R) as [I1 I2]. intros i Hi. rewrite nth_mask_of by assumption. rewrite mem_iff. split.
      + intro Hm. destruct (I2 i Hm) as (z & Z1 & Z2). apply wrap_index_ok in Z2. destruct Z2 as [_ [->| ->]]; auto.
      + intros [Hz|Hz]; destruct (I1 _ Hz) as (y & Y1 & Y2); apply wrap_index_ok in Y1; destruct Y1 as [Y0 Y1]; replace i with y by lia; exact Y2.
    - discriminate.
  Qed.

  Lemma fit_ok {A} (d : A) X k ds th nm im li w s s' tr df c :
    fit srt minv js cfg d X k ds th nm im li w s = (s', Ok (tr, df)) -> d_issue df = Some c -> length X = length (ds_labels ds) ->
    w_in_clf_kwargs w = false /\ (w_given w <> None -> w_supported w = true) /\
    exists arg df0, process_label_issues_arg arg (ds_labels ds) = Ok df0 /\ d_issue df0 = Some c /\
      (match li with
       | Some a => arg = a
       | None => exists s1 t, find_label_issues srt minv js cfg ds th nm im true s = (s1, Ok t) /\ arg = DFArg t
       end) /\
      forall m, c = BoolCol m ->
        length m = length (ds_labels ds) /\
        tr_X tr = map (fun i => nth i X d) (unflagged m) /\
        tr_labels tr = map (fun i => nth i (ds_labels ds) 0%nat) (unflagged m) /\
        (k = Arr -> exists K, c_num_classes s' = Some K /\ right_weights w (c_noise s') K (ds_labels ds) (unflagged m) (tr_weights tr)) /\
        (k = Lst -> match w_final w, w_given w, c_noise s' with None, None, Some _ =>
             tr_weights tr = if w_supported w then Some (repeat 1 (length (unflagged m))) else None
           | _, _, noise => exists K, c_num_classes s' = Some K /\ right_weights w noise K (ds_labels ds) (unflagged m) (tr_weights tr) end) /\
        (k = Arr -> w_final w = None -> w_given w = None -> w_supported w = true -> forall noise K, c_noise s' = Some noise -> c_num_classes s' = Some K ->
           exists ws, d_weight df = Some ws /\ length ws = length (ds_labels ds) /\
             forall i, (i < length (ds_labels ds))%nat ->
               nth i ws 0 = if nth i m false then 0 else label_weight noise K (nth i (ds_labels ds) 0%nat)).
  Proof.
    intros H DC LX. unfold fit in H. destruct (w_in_clf_kwargs w); [discriminate|]. split; [reflexivity|].
    destruct (match w_given w with Some _ => negb (w_supported w) | None => false end) eqn:WS; [discriminate|].
    split. { destruct (w_given w); [|congruence]. intros _. now destruct (w_supported w). }
    apply mbind_ok in H. destruct H as (s1 & arg & E1 & H). apply mbind_ok in H. destruct H as (s2 & df0 & E2 & H). injection E2 as <- E2.
    apply mbind_ok in H. destruct H as (s3 & [] & E3 & H). injection E3 as <-. apply mbind_ok in H. destruct H as (s4 & df1 & E4 & H).
    assert (NC : exists K, c_num_classes s1 = Some K).
    { destruct li as [a|].
      - apply mbind_ok in E1. destruct E1 as (s5 & [] & E5 & E1). injection E5 as <- _. apply mbind_ok in E1. destruct E1 as (s6 & nc & E6 & E1). injection E6 as <- <-.
        apply mbind_ok in E1. destruct E1 as (s7 & [] & E7 & E1). injection E1 as <- _.
        destruct (c_num_classes s) as [K|] eqn:E; [injection E7 as <-; eauto|].
        apply mbind_ok in E7. destruct E7 as (s8 & K & E8 & E7). injection E8 as <- _. injection E7 as <-. cbn. eauto.
      - apply mbind_ok in E1. destruct E1 as (s5 & t & E5 & E1). injection E1 as <- _.
        unfold find_label_issues in E5.
        apply mbind_ok in E5. destruct E5 as (s6 & [] & _ & E5). destruct (_ || _)%bool; [discriminate|].
        apply mbind_ok in E5. destruct E5 as (s7 & K & _ & E5). apply mbind_ok in E5. destruct E5 as (s8 & [] & E8 & E5). injection E8 as <-.
        destruct (_ && _)%bool; [discriminate|].
        revert E5. match goal with |- ?m ?s0 = _ -> _ => assert (KP : keeps (fun s => c_num_classes s = Some K) m); [|set (S0 := s0)] end.
        { unfold process_label_issues_kwargs, estimate_noise, pu_adjust, remember_joint. cbv zeta. keep; apply keeps_modify; intros x Hx;
          try exact Hx;
          repeat match goal with |- c_num_classes (match ?y with _ => _ end) = _ => destruct y end; try exact Hx;
          repeat match goal with |- context [match ?y with _ => _ end] => destruct y end; exact Hx. }
        intro E5. specialize (KP S0 eq_refl). rewrite E5 in KP. eauto. }
    destruct NC as [K NC].
    assert (D1 : d_issue df1 = d_issue df0 /\ d_weight df1 = d_weight df0 /\ c_num_classes s4 = Some K).
    { destruct (d_quality df0); [injection E4 as <- <-; auto|]. destruct (ds_pred_probs ds); [|injection E4 as <- <-; auto].
      apply mbind_ok in E4. destruct E4 as (s5 & qk & E5 & E4). injection E5 as <- _. destruct qk as [[]|]; [|discriminate].
      apply mbind_ok in E4. destruct E4 as (s6 & q & E6 & E4). injection E6 as <- _. apply mbind_ok in E4. destruct E4 as (s7 & [] & E7 & E4). injection E7 as <-.
      injection E4 as <- <-. cbn. auto. }
    destruct D1 as (D1 & D2 & NC4).
    destruct (d_issue df1) as [c1|] eqn:C1; [|discriminate].
    apply mbind_ok in H. destruct H as (s5 & [k' lab] & E5 & H). injection E5 as <- E5. apply mbind_ok in H. destruct H as (s6 & xs & E6 & H). injection E6 as <- E6.
    apply mbind_ok in H. destruct H as (s7 & noise & E7 & H). injection E7 as <- <-. apply mbind_ok in H. destruct H as (s8 & nc & E8 & H). injection E8 as <- <-.
    cbn [fst snd] in H.
    assert (DD : c = c1 /\ c_noise s' = c_noise s4 /\ c_num_classes s' = c_num_classes s4 /\ tr_X tr = xs /\ tr_labels tr = lab).
    { destruct (w_given w) as [g|]; destruct (w_final w) as [f|].
      - injection H as <- <- <-. refine (conj _ (conj eq_refl (conj eq_refl (conj eq_refl eq_refl)))); congruence.
      - apply mbind_ok in H. destruct H as (s9 & sw & E9 & H). injection E9 as <- _. injection H as <- <- <-.
        refine (conj _ (conj eq_refl (conj eq_refl (conj eq_refl eq_refl)))); congruence.
      - injection H as <- <- <-. refine (conj _ (conj eq_refl (conj eq_refl (conj eq_refl eq_refl)))); congruence.
      - destruct (c_noise s4) as [n4|] eqn:N4.
        + destruct (w_supported w).
          * apply mbind_ok in H. destruct H as (s9 & aw & E9 & H). injection E9 as <- _. apply mbind_ok in H. destruct H as (s10 & ew & E10 & H). injection E10 as <- _.
            apply mbind_ok in H. destruct H as (s11 & [] & E11 & H). injection E11 as <-. injection H as <- <- <-. cbn in DC |- *.
            refine (conj _ (conj _ (conj eq_refl (conj eq_refl eq_refl)))); congruence.
          * injection H as <- <- <-. refine (conj _ (conj _ (conj eq_refl (conj eq_refl eq_refl)))); congruence.
        + injection H as <- <- <-. refine (conj _ (conj _ (conj eq_refl (conj eq_refl eq_refl)))); congruence. }
    destruct DD as (<- & DN & DK & DX & DL).
    exists arg, df0. refine (conj E2 (conj (eq_sym D1) (conj _ _))).
    { destruct li as [a|].
      - apply mbind_ok in E1. destruct E1 as (t1 & [] & _ & E1). apply mbind_ok in E1. destruct E1 as (t2 & nc & _ & E1). apply mbind_ok in E1. destruct E1 as (t3 & [] & _ & E1). now injection E1.
      - apply mbind_ok in E1. destruct E1 as (t1 & t & E & E1). injection E1 as _ <-. eauto. }
    intros m ->. unfold subset_data, np_subset in E6. destruct (Nat.eqb (length m) (length X)) eqn:LM; [|discriminate]. apply Nat.eqb_eq in LM. injection E6 as <-.
    assert (LM' : length m = length (ds_labels ds)) by congruence.
    assert (LAB : lab = select (map negb m) (ds_labels ds) /\ k' = k).
    { unfold subset_labels, np_subset, list_comprehension, truthy in E5. rewrite LM', Nat.eqb_refl, map_length, LM', Nat.leb_refl in E5.
      destruct k; cbn in E5; injection E5 as <- <-; auto. }
    destruct LAB as [-> ->]. 
    assert (SUB : forall sw r, np_subset 0 (BoolCol m) sw = Ok r -> r = map (fun i => nth i sw 0) (unflagged m)).
    { intros sw r R. unfold np_subset in R. destruct (Nat.eqb _ _) eqn:L; [|discriminate]. apply Nat.eqb_eq in L. injection R as <-. now apply select_unflagged. }
    rewrite NC4 in DK. rewrite NC4 in H. rewrite DN, DX, DL, DK. clear DX DL.
    refine (conj LM' (conj _ (conj _ (conj _ (conj _ _))))).
    - now apply select_unflagged.
    - now apply select_unflagged.
    - intros ->. exists K. split; [reflexivity|]. unfold right_weights. destruct (w_final w) as [f|].
      + destruct (w_given w); injection H as _ <- _; reflexivity.
      + destruct (w_given w) as [g|].
        * apply mbind_ok in H. destruct H as (s9 & sw & E9 & H). injection E9 as <- E9. injection H as _ <- _. cbn. f_equal. now apply SUB.
        * destruct (c_noise s4) as [n4|]; [|injection H as _ <- _; reflexivity].
          destruct (w_supported w); [|injection H as _ <- _; reflexivity].
          apply mbind_ok in H. destruct H as (s9 & aw & E9 & H). injection E9 as <- E9. apply mbind_ok in H. destruct H as (s10 & ew & E10 & H).
          apply mbind_ok in H. destruct H as (s11 & [] & E11 & H). injection H as _ <- _. cbn. f_equal.
          unfold auto_weights in E9. destruct (Nat.ltb (length n4) K); [discriminate|]. injection E9 as <-.
          rewrite (select_unflagged 0%nat) by assumption. rewrite map_map. reflexivity.
    - intros ->. unfold right_weights. destruct (w_final w) as [f|].
      + exists K. split; [reflexivity|]. destruct (w_given w); injection H as _ <- _; reflexivity.
      + destruct (w_given w) as [g|].
        * exists K. split; [reflexivity|]. apply mbind_ok in H. destruct H as (s9 & sw & E9 & H). injection E9 as <- E9. injection H as _ <- _. cbn. f_equal. now apply SUB.
        * destruct (c_noise s4) as [n4|]; [|exists K; split; [reflexivity|injection H as _ <- _; reflexivity]].
          destruct (w_supported w); [|injection H as _ <- _; reflexivity].
          apply mbind_ok in H. destruct H as (s9 & aw & E9 & H). injection E9 as <- E9. apply mbind_ok in H. destruct H as (s10 & ew & E10 & H).
          apply mbind_ok in H. destruct H as (s11 & [] & E11 & H). injection H as _ <- _. cbn. f_equal.
          unfold auto_weights in E9. destruct (Nat.ltb (length n4) K); [discriminate|]. injection E9 as <-.
          rewrite (select_unflagged 0%nat) by assumption. rewrite map_map. generalize (unflagged m). intro L. induction L as [|a L IH]; [reflexivity|]. cbn. now rewrite IH.
    - intros -> WF WG WSu noise K' HN HK. injection HK as <-. rewrite WF, WG, HN, WSu in H.
      apply mbind_ok in H. destruct H as (s9 & aw & E9 & H). injection E9 as <- E9. apply mbind_ok in H. destruct H as (s10 & ew & E10 & H). injection E10 as <- E10.
      apply mbind_ok in H. destruct H as (s11 & [] & E11 & H). injection H as _ _ <-. exists ew. split; [reflexivity|].
      unfold auto_weights in E9. destruct (Nat.ltb (length noise) K); [discriminate|]. injection E9 as <-.
      subst ew. rewrite (select_unflagged 0%nat) by assumption. rewrite map_map.
      set (v := map (fun l => label_weight noise K l) (ds_labels ds)).
      assert (LV : length v = length m) by (unfold v; now rewrite map_length).
      pose proof (scatter_unflagged m v LV) as [S1 S2]. cbn zeta in S1, S2. rewrite (select_unflagged 0) in S1, S2 by congruence. rewrite LM' in S1, S2.
      assert (EV : map (fun i => nth i v 0) (unflagged m) = map (fun x => label_weight noise K (nth x (ds_labels ds) 0%nat)) (unflagged m)).
      { apply map_ext_in. intros i Hi. unfold unflagged in Hi. apply filter_In in Hi. destruct Hi as [Hi _]. apply in_seq in Hi. unfold v.
        apply (nth_map_gen _ _ _ _ 0%nat). lia. }
      rewrite EV in S1, S2. split; [exact S1|]. intros i Hi. unfold label_weight in S2 at 1. 
      etransitivity; [exact (S2 i Hi)|]. destruct (nth i m false); [reflexivity|]. unfold v. apply (nth_map_gen _ _ _ _ 0%nat). exact Hi.
  Qed.
End Fit.

Lemma existsb_differs (g : list nat) : forall labels i, (i < length g)%nat -> (i < length labels)%nat -> nth i g 0%nat <> nth i labels 0%nat ->
  existsb (fun ab => negb (Nat.eqb (fst ab) (snd ab))) (combine g labels) = true.
Proof.
  induction g as [|a g IH]; intros [|b l] [|i] H1 H2 H; cbn in *; try lia.
  - apply orb_true_iff. left. apply negb_true_iff. now apply Nat.eqb_neq.
  - apply orb_true_iff. right. apply (IH l i); [lia|lia|exact H].
Qed.

Lemma bad_arg_raises a labels : bad_arg a labels -> process_label_issues_arg a labels = Raise ValueError.
Proof.
  destruct a as [df|m|idx|]; cbn.
  - intros [H|[H|(g & i & H1 & H2 & H3 & H4)]].
    + now rewrite H.
    + destruct (d_issue df); [|reflexivity]. apply Nat.eqb_neq in H. now rewrite H.
    + destruct (d_issue df); [|reflexivity]. destruct (negb _); [reflexivity|]. rewrite H1. now rewrite (existsb_differs g labels i).
  - intro H. apply Nat.eqb_neq in H. now rewrite H.
  - intro H. destruct (Nat.eqb (length (nodup Z.eq_dec idx)) (length idx)) eqn:E; [|reflexivity]. exfalso. apply H. apply Nat.eqb_eq in E.
    assert (I : incl (nodup Z.eq_dec idx) idx) by (intros x Hx; now rewrite nodup_In in Hx).
    assert (I2 : incl idx (nodup Z.eq_dec idx)) by (intros x Hx; now apply nodup_In).
    apply (NoDup_incl_NoDup (NoDup_nodup Z.eq_dec idx)); [lia|exact I].
  - reflexivity.
Qed.

Section Rejections.
  Variable srt : list Q -> list nat.
  Variable minv : matrix -> res matrix.
  Variable js : nat -> jobs.
  Variable cfg : settings.

  Theorem fit_rejects {A} (d : A) X k ds th nm im li w s :
    w_in_clf_kwargs w = true \/ (w_given w <> None /\ w_supported w = false) \/
    (exists a, li = Some a /\ valid_inputs ds = Ok tt /\ bad_arg a (ds_labels ds)) ->
    snd (fit srt minv js cfg d X k ds th nm im li w s) = Raise ValueError.
  Proof.
    intro H. unfold fit. destruct (w_in_clf_kwargs w); [reflexivity|]. destruct H as [H|H]; [discriminate|].
    destruct (match w_given w with Some _ => negb (w_supported w) | None => false end) eqn:G; [reflexivity|].
    destruct H as [[H1 H2]|(a & -> & V & B)].
    - destruct (w_given w); [|congruence]. rewrite H2 in G. discriminate.
    - apply bad_arg_raises in B. unfold mbind, lift, get, modify, mret. rewrite V.
      destruct (c_num_classes s); [now rewrite B|]. unfold get_num_classes.
      destruct (ds_pred_probs ds); [now rewrite B|]. destruct nm as [m|]; [|destruct im as [m|]; [|now rewrite B]];
        (destruct (Nat.eqb (length m) (width m)); [now rewrite B|reflexivity]).
  Qed.
End Rejections.

Section Training.
  Variable srt : list Q -> list nat.
  Variable minv : matrix -> res matrix.
  Variable js : nat -> jobs.
  Variable cfg : settings.

  Theorem training_full {A} (d : A) X ds th nm im li w s s' tr df m :
    fit srt minv js cfg d X Arr ds th nm im li w s = (s', Ok (tr, df)) ->
    d_issue df = Some (BoolCol m) -> length X = length (ds_labels ds) ->
    length m = length (ds_labels ds) /\
    (match li with
     | Some a => flags_of_arg a (length (ds_labels ds)) m
     | None => exists s1 t, find_label_issues srt minv js cfg ds th nm im true s = (s1, Ok t) /\ d_issue t = Some (BoolCol m)
     end) /\
    tr_X tr = map (fun i => nth i X d) (unflagged m) /\
    tr_labels tr = map (fun i => nth i (ds_labels ds) 0%nat) (unflagged m) /\
    exists K, c_num_classes s' = Some K /\
    right_weights w (c_noise s') K (ds_labels ds) (unflagged m) (tr_weights tr) /\
    (w_final w = None -> w_given w = None -> w_supported w = true -> forall noise, c_noise s' = Some noise ->
       exists ws, d_weight df = Some ws /\ length ws = length (ds_labels ds) /\
         forall i, (i < length (ds_labels ds))%nat ->
           nth i ws 0 = if nth i m false then 0 else label_weight noise K (nth i (ds_labels ds) 0%nat)).
  Proof.
    intros H D L. destruct (fit_ok srt minv js cfg d X Arr ds th nm im li w s s' tr df _ H D L) as (_ & _ & arg & df0 & P & D0 & AR & R).
    destruct (R m eq_refl) as (R1 & R2 & R3 & R4 & _ & R6). destruct (R4 eq_refl) as (K & RK & RW).
    destruct (arg_flags _ _ _ _ P D0) as [F G].
    refine (conj R1 (conj _ (conj R2 (conj R3 _)))).
    - destruct li as [a|]; [subst arg; exact F|]. destruct AR as (s1 & t & E & ->). exists s1, t. split; [exact E|]. rewrite <- G. exact D0.
    - exists K. refine (conj RK (conj RW _)). intros W1 W2 W3 noise N. exact (R6 eq_refl W1 W2 W3 noise K N RK).
  Qed.

  Theorem training_list {A} (d : A) X ds th nm im li w s s' tr df m :
    fit srt minv js cfg d X Lst ds th nm im li w s = (s', Ok (tr, df)) ->
    d_issue df = Some (BoolCol m) -> length X = length (ds_labels ds) ->
    length m = length (ds_labels ds) /\
    tr_X tr = map (fun i => nth i X d) (unflagged m) /\
    tr_labels tr = map (fun i => nth i (ds_labels ds) 0%nat) (unflagged m) /\
    (forall sw, w_final w = None -> w_given w = Some sw -> tr_weights tr = Some (map (fun i => nth i sw 0) (unflagged m))).
  Proof.
    intros H D L. destruct (fit_ok srt minv js cfg d X Lst ds th nm im li w s s' tr df _ H D L) as (_ & _ & arg & df0 & P & D0 & AR & R).
    destruct (R m eq_refl) as (R1 & R2 & R3 & _ & R5 & _). specialize (R5 eq_refl).
    refine (conj R1 (conj R2 (conj R3 _))). intros sw W1 W2. rewrite W1, W2 in R5. destruct R5 as (K & _ & RW).
    unfold right_weights in RW. now rewrite W1, W2 in RW.
  Qed.

  Theorem saved_space_raises ds th nm im sv s s' t :
    find_label_issues srt minv js cfg ds th nm im sv (fst (save_space s)) <> (s', Ok t).
  Proof. intro H. destruct (find_ok _ _ _ _ _ _ _ _ _ _ _ _ H) as (qk & _ & Q & _). discriminate. Qed.
End Training.

Lemma searched_first srt minv js cfg kw qk ds sv s1 t nm im : pulearning cfg = None -> low_memory cfg = false -> kw_cj kw = None ->
  find_label_issues srt minv js cfg ds None nm im sv (new_object kw qk) = (s1, Ok t) -> searched srt kw None qk ds t.
Proof.
  intros Hp Hl Hc H. destruct (first_call srt minv js cfg kw qk ds sv s1 t nm im Hp Hl Hc H) as (pp & m & q & E1 & E2 & E3 & ->).
  exists pp, m, q. split; [exact E1|]. split; [|split; [exact E3|reflexivity]]. unfold options_of, with_min in E2. cbn in E2. rewrite Hc in E2. exact E2.
Qed.
Lemma searched_later srt minv js cfg kw qk ds th nm im sv s1 t cs ds' th' nm' im' sv' s2 t2 :
  pulearning cfg = None -> low_memory cfg = false -> kw_cj kw = None -> kw_filter kw <> Some ConfidentLearning ->
  find_label_issues srt minv js cfg ds th nm im sv (new_object kw qk) = (s1, Ok t) ->
  find_label_issues srt minv js cfg ds' th' nm' im' sv' (run_calls srt minv js cfg cs s1) = (s2, Ok t2) ->
  exists pp cj idx, match ds_pred_probs ds with Some given => Ok given | None => ds_cv ds end = Ok pp /\
    compute_confident_joint srt (ds_labels ds) pp (length (nth 0 pp [])) th true = Ok (cj, idx) /\
    searched srt kw (Some (map (map inject_Z) cj)) qk ds' t2.
Proof.
  intros Hp Hl Hc Hf H1 H2. destruct (stale_joint srt minv js cfg kw qk ds th nm im sv s1 t cs ds' th' nm' im' sv' s2 t2 Hp Hl Hc Hf H1 H2) as (pp & cj & idx & E1 & E2 & pp' & m & q & E3 & E4 & E5 & ->).
  exists pp, cj, idx. split; [exact E1|]. split; [exact E2|]. exists pp', m, q. split; [exact E3|]. split; [exact E4|]. split; [exact E5|reflexivity].
Qed.
