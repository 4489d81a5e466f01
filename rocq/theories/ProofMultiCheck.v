(** * Proofs about Datalab's multi-label label check *)
From Coq Require Import QArith String List Bool Arith Lia Lqa Sorted.
From Verif Require Import Base BaseFacts ModelUtil ModelCount ModelRank ModelPool ModelFilter ModelBatched ModelMultilabel
     ModelLabels ModelMultiCheck SpecCount SpecFilter SpecMultilabel SpecMultiCheck ProofMultilabel ProofTotal.
Import ListNotations.
Open Scope Q_scope.

Lemma kget_process accepted kw k : is_dict kw -> existsb (String.eqb k) accepted = true ->
  kget k (process accepted kw) = passed kw k.
Proof.
  intros Hd Hk. unfold kget, passed, process, is_dict in *. induction kw as [|[k' v] t IH]; [reflexivity|].
  cbn [map fst] in Hd. apply NoDup_cons_iff in Hd as [Hni Hd]. specialize (IH Hd).
  cbn [filter find fst snd]. destruct (String.eqb k' k) eqn:E.
  - apply String.eqb_eq in E. subst k'. rewrite Hk. cbn [andb]. destruct v; cbn [is_none negb find fst]; rewrite ?String.eqb_refl; try reflexivity.
    clear - Hni. induction t as [|[k' v] t IH]; [reflexivity|]. cbn [map fst] in Hni.
    cbn [filter fst snd]. destruct (existsb (String.eqb k') accepted && negb (is_none v))%bool.
    + cbn [find fst]. destruct (String.eqb k' k) eqn:E; [|apply IH; intros H; apply Hni; right; auto].
      apply String.eqb_eq in E. subst. exfalso. apply Hni. left. reflexivity.
    + apply IH. intros H; apply Hni; right; auto.
  - destruct (existsb (String.eqb k') accepted && negb (is_none v))%bool; [|exact IH].
    cbn [find fst]. rewrite E. exact IH.
Qed.

Lemma arg_process {A} accepted kw k (d : A) read : is_dict kw -> existsb (String.eqb k) accepted = true ->
  arg k (process accepted kw) d read =
  match passed kw k with
  | None => Ok d
  | Some v => match read v with Some a => Ok a | None => Raise TypeError end
  end.
Proof. intros. unfold arg. rewrite kget_process; auto. Qed.

Lemma keywords_full : forall srt cores sched js labels pp K kw kw', is_dict kw -> is_dict kw' ->
  (forall k, In k known_names -> passed kw k = passed kw' k) ->
  multilabel_find_issues srt cores sched js labels pp K kw = multilabel_find_issues srt cores sched js labels pp K kw'.
Proof.
  intros srt cores sched js labels pp K kw kw' Hd Hd' H. unfold multilabel_find_issues, call_find, call_scores.
  rewrite !arg_process by (auto; reflexivity).
  rewrite !H by (unfold known_names; cbn [In]; tauto). reflexivity.
Qed.

(** ** predicted labels *)
Lemma predicted_nth pp e : (e < length pp)%nat ->
  nth e (predicted_labels pp) [] = where_ (map (fun p => Qltb (1 # 2) p) (nth e pp [])).
Proof.
  intros He. unfold predicted_labels, onehot2int. rewrite map_map.
  rewrite (nth_map_gen _ _ _ _ []) by auto. rewrite map_map. f_equal. apply map_ext. intros p. destruct (Qltb (1 # 2) p); reflexivity.
Qed.

Lemma predicted_full K labels pp e : ml_dataset K labels pp -> (e < length labels)%nat ->
  StronglySorted lt (nth e (predicted_labels pp) []) /\
  forall c, In c (nth e (predicted_labels pp) []) <-> (c < K)%nat /\ (1 # 2) < prob_of pp e c.
Proof.
  intros HD He. rewrite (ml_len _ _ _ HD) in He. rewrite predicted_nth by auto. split; [apply where_sorted|].
  intros c. rewrite in_where. assert (L : length (nth e pp []) = K) by (apply (ml_row _ _ _ HD); apply nth_In; auto).
  unfold prob_of, row_of. split.
  - intros H. assert (Hc : (c < K)%nat).
    { destruct (Nat.lt_ge_cases c K); auto. rewrite nth_overflow in H; [discriminate|]. rewrite map_length. lia. }
    split; auto. rewrite (nth_map_gen _ _ _ _ 0) in H by lia. apply Qltb_iff in H. exact H.
  - intros [Hc H]. rewrite (nth_map_gen _ _ _ _ 0) by lia. apply Qltb_iff. exact H.
Qed.

Lemma outcome_inv srt cores sched js labels pp K kw r : multilabel_find_issues srt cores sched js labels pp K kw = Ok r ->
  call_find srt cores sched js labels pp K (process find_names kw) = Ok (o_flags r) /\
  call_scores srt labels pp K (process score_names kw) = Ok (o_scores r) /\
  o_summary r = qmean (o_scores r) /\ o_given r = labels /\ o_predicted r = predicted_labels pp.
Proof.
  unfold multilabel_find_issues. destruct (call_find _ _ _ _ _ _ _ _) as [f|]; [|discriminate]. cbn [rbind].
  destruct (call_scores _ _ _ _ _) as [s|]; [|discriminate]. cbn [rbind]. intros H. injection H as <-. cbn. auto.
Qed.

Lemma reported_full : forall srt cores sched js labels pp K kw r, ml_dataset K labels pp ->
  multilabel_find_issues srt cores sched js labels pp K kw = Ok r ->
  o_given r = labels /\ length (o_predicted r) = length labels /\
  forall e, (e < length labels)%nat ->
    StronglySorted lt (nth e (o_predicted r) []) /\
    forall c, In c (nth e (o_predicted r) []) <-> (c < K)%nat /\ (1 # 2) < prob_of pp e c.
Proof.
  intros srt cores sched js labels pp K kw r HD H. apply outcome_inv in H as (_ & _ & _ & Hg & Hp).
  split; [auto|]. rewrite Hp. split.
  - unfold predicted_labels, onehot2int. rewrite !map_length. symmetry. apply HD.
  - intros e He. apply (predicted_full K labels); auto.
Qed.

(** ** flags *)
Lemma call_find_inv srt cores sched js labels pp K kw m : is_dict kw ->
  (passed kw "low_memory" = None \/ passed kw "low_memory" = Some (VBool false)) ->
  call_find srt cores sched js labels pp K (process find_names kw) = Ok m ->
  exists flt o, (passed kw "filter_by" = Some (VFilter flt) \/ passed kw "filter_by" = None /\ flt = PruneByNoiseRate) /\
    ml_find_label_issues srt labels pp K flt o None = Ok m.
Proof.
  intros Hd Hl H. unfold call_find in H. rewrite !arg_process in H by (auto; reflexivity).
  destruct (passed kw "filter_by") as [v|] eqn:Ef.
  - destruct v; try discriminate. cbn [rbind] in H.
    exists f. destruct (passed kw "frac_noise") as [[]|]; cbn [rbind] in H; try discriminate;
    (destruct (passed kw "num_to_remove_per_class") as [[]|]; cbn [rbind] in H; try discriminate);
    (destruct (passed kw "min_examples_per_class") as [[]|]; cbn [rbind] in H; try discriminate);
    (destruct (passed kw "confident_joint") as [[]|]; cbn [rbind] in H; try discriminate);
    (destruct (passed kw "n_jobs") as [[]|]; cbn [rbind] in H; try discriminate);
    (destruct Hl as [El | El]; rewrite El in H; cbn [rbind] in H; eauto).
  - cbn [rbind] in H. exists PruneByNoiseRate.
    destruct (passed kw "frac_noise") as [[]|]; cbn [rbind] in H; try discriminate;
    (destruct (passed kw "num_to_remove_per_class") as [[]|]; cbn [rbind] in H; try discriminate);
    (destruct (passed kw "min_examples_per_class") as [[]|]; cbn [rbind] in H; try discriminate);
    (destruct (passed kw "confident_joint") as [[]|]; cbn [rbind] in H; try discriminate);
    (destruct (passed kw "n_jobs") as [[]|]; cbn [rbind] in H; try discriminate);
    (destruct Hl as [El | El]; rewrite El in H; cbn [rbind] in H; eauto).
Qed.

Lemma clearly_differ K labels pp e c : ml_dataset K labels pp -> (e < length labels)%nat -> (c < K)%nat ->
  clearly_disagrees labels pp e c -> differ_at (nth e labels []) (nth e (predicted_labels pp) []) c.
Proof.
  intros HD He Hc [[H1 H2]|[H1 H2]]; destruct (predicted_full K labels pp e HD He) as [_ P].
  - left. split; [exact H1|]. intros H. apply P in H as [_ H]. lra.
  - right. split; [exact H1|]. apply P. split; auto. lra.
Qed.

Lemma disagree_full : forall srt cores sched js labels pp K kw r e, ml_dataset K labels pp -> is_dict kw ->
  (passed kw "low_memory" = None \/ passed kw "low_memory" = Some (VBool false)) ->
  passed kw "filter_by" <> Some (VFilter LowNormalizedMargin) -> passed kw "filter_by" <> Some (VFilter LowSelfConfidence) ->
  multilabel_find_issues srt cores sched js labels pp K kw = Ok r -> flagged (o_flags r) e ->
  (e < length labels)%nat /\ exists c, (c < K)%nat /\ differ_at (nth e (o_given r) []) (nth e (o_predicted r) []) c.
Proof.
  intros srt cores sched js labels pp K kw r e HD Hd Hl H1 H2 H Hf. apply outcome_inv in H as (H & _ & _ & Hg & Hp).
  apply call_find_inv in H as (flt & o & Hflt & H); auto.
  assert (N1 : flt <> LowNormalizedMargin) by (intros ->; destruct Hflt as [E|[_ E]]; [contradiction|discriminate]).
  assert (N2 : flt <> LowSelfConfidence) by (intros ->; destruct Hflt as [E|[_ E]]; [contradiction|discriminate]).
  destruct (C63_mask_full _ _ _ _ _ _ _ HD N1 N2 H) as (_ & _ & G). destruct (G e Hf) as (He & c & Hc & Hdis).
  split; auto. exists c. split; auto. rewrite Hg, Hp. apply (clearly_differ K); auto.
Qed.

(** ** scores *)
Lemma mean_average l : l <> [] -> is_average l (qmean l).
Proof.
  intros Hl. split; auto. unfold qmean. change (fold_right Qplus 0 l) with (qsum l).
  assert (0 < Qnat (length l)) by (apply Qnat_pos; destruct l; [congruence|cbn; lia]). field. lra.
Qed.
Lemma average_unit l v : is_average l v -> (forall x, In x l -> 0 <= x /\ x <= 1) -> 0 <= v /\ v <= 1.
Proof.
  intros [Hl E] H. change (fold_right Qplus 0 l) with (qsum l) in E.
  assert (P : 0 < Qnat (length l)) by (apply Qnat_pos; destruct l; [congruence|cbn; lia]).
  assert (0 <= qsum l) by (apply qsum_nonneg; intros; apply H; auto).
  assert (qsum l <= Qnat (length l)).
  { clear - H. induction l as [|x t IH]; [apply Qle_refl|]. rewrite qsum_cons. cbn [length]. rewrite Qnat_S.
    assert (qsum t <= Qnat (length t)) by (apply IH; intros; apply H; right; auto). pose proof (H x (or_introl eq_refl)). lra. }
  split.
  - apply Qnot_lt_le. intros Hv. assert (v * Qnat (length l) < 0 * Qnat (length l)) by (apply Qmult_lt_compat_r; auto). lra.
  - apply Qnot_lt_le. intros Hv. assert (1 * Qnat (length l) < v * Qnat (length l)) by (apply Qmult_lt_compat_r; auto). lra.
Qed.

Lemma mixed_both K labels : (2 <= K)%nat -> (forall c, (c < K)%nat -> mixed labels c) -> both_values labels K.
Proof.
  intros HK HM. destruct (HM 0%nat ltac:(lia)) as ((e & He & H) & (e' & He' & H')). split; [exists e, 0%nat|exists e', 0%nat]; repeat split; auto; lia.
Qed.

Lemma default_full : forall srt cores sched js labels pp K, argsort_ok srt -> ml_dataset K labels pp -> (2 <= K)%nat ->
  (forall c, (c < K)%nat -> mixed labels c) ->
  exists r cs, multilabel_find_issues srt cores sched js labels pp K [("n_jobs"%string, VCount 1)] = Ok r /\
    length (o_flags r) = length labels /\ length (o_scores r) = length labels /\
    (forall e, flagged (o_flags r) e <-> exists c bl bp mc, (c < K)%nat /\ one_vs_rest labels pp c bl bp /\
       find_label_issues srt bl bp 2 PruneByNoiseRate
         {| frac_noise := 1; num_to_remove_per_class := None; min_examples_per_class := 1; confident_joint := None; n_jobs := 1;
            sched_c := fst (sched c); sched_n := snd (sched c) |} = Ok mc /\ flagged mc e) /\
    ml_label_quality_scores_per_class labels pp K SelfConfidence false = Ok cs /\
    (forall e, (e < length labels)%nat -> exponential_moving_average srt (Some (4 # 5)) (nth e cs []) = Ok (nth e (o_scores r) 0) /\
       0 <= nth e (o_scores r) 0 /\ nth e (o_scores r) 0 <= 1) /\
    is_average (o_scores r) (o_summary r) /\ 0 <= o_summary r /\ o_summary r <= 1.
Proof.
  intros srt cores sched js labels pp K Hs HD HK HM.
  set (o := {| ml_frac_noise := 1; ml_num_to_remove := None; ml_min_examples := 1; ml_confident_joint := None; ml_n_jobs := 1; ml_sched := sched |}).
  destruct (per_class_ok srt labels pp K PruneByNoiseRate o (fun _ _ => True)) as (cols & Hcols & _ & _).
  { intros c Hc. destruct (find_total srt 2 (binary_labels labels K c) (binary_probs pp c) PruneByNoiseRate (class_options o c)) as (mc & E & _); auto.
    - apply binary_dataset; auto.
    - apply binary_two; auto.
    - exists mc; auto. }
  assert (Hm : ml_find_label_issues srt labels pp K PruneByNoiseRate o None = Ok (any_class (length labels) cols)).
  { unfold ml_find_label_issues. cbn [is_low andb]. rewrite Hcols. reflexivity. }
  destruct (C64_overall_full srt labels pp K SelfConfidence false (Some (4 # 5)) Hs HD HK (mixed_both _ _ HK HM)) as (cs & s & Hcs & Hsc & Ls & Gs).
  { intros a E. injection E as <-. lra. }
  destruct (C63_mask_full srt labels pp K PruneByNoiseRate o _ HD ltac:(discriminate) ltac:(discriminate) Hm) as (Lm & Gm & _).
  eexists. exists cs. split.
  - unfold multilabel_find_issues, call_find, call_scores. cbn [process find_names score_names filter existsb fst snd String.eqb Ascii.eqb Bool.eqb orb andb negb is_none arg kget find option_map rbind].
    change (ml_find_label_issues srt labels pp K PruneByNoiseRate _ None) with (ml_find_label_issues srt labels pp K PruneByNoiseRate o None).
    rewrite Hm. cbn [rbind]. rewrite Hsc. cbn [rbind]. reflexivity.
  - cbn [o_flags o_scores o_summary].
    assert (Hne : s <> []) by (intros ->; apply (ml_ne _ _ _ HD); destruct labels; [auto|discriminate]).
    assert (U : forall e, (e < length labels)%nat -> 0 <= nth e s 0 /\ nth e s 0 <= 1) by (intros e He; apply (Gs e He); auto).
    split; [exact Lm|]. split; [exact Ls|]. split; [exact Gm|]. split; [exact Hcs|]. split.
    + intros e He. split; [apply Gs; auto|]. auto.
    + split; [apply mean_average; auto|]. apply (average_unit s); [apply mean_average; auto|].
      intros x Hx. apply (In_nth _ _ 0) in Hx as (i & Hi & <-). apply U. lia.
Qed.

(** ** predicted_neq_given: exactly the disagreeing ones *)
Lemma neq_full : forall srt cores sched js labels pp K, argsort_ok srt -> ml_dataset K labels pp -> (2 <= K)%nat ->
  (forall c, (c < K)%nat -> mixed labels c) -> (1 <= cores)%nat ->
  exists r, multilabel_find_issues srt cores sched js labels pp K [("filter_by"%string, VFilter PredictedNeqGiven)] = Ok r /\
    forall e, (e < length labels)%nat -> (forall c, (c < K)%nat -> (1 # 2000000) < prob_of pp e c - (1 # 2) \/ prob_of pp e c - (1 # 2) < - (1 # 2000000)) ->
      (flagged (o_flags r) e <-> exists c, (c < K)%nat /\ differ_at (nth e (o_given r) []) (nth e (o_predicted r) []) c).
Proof.
  intros srt cores sched js labels pp K Hs HD HK HM Hc.
  set (o := {| ml_frac_noise := 1; ml_num_to_remove := None; ml_min_examples := 1; ml_confident_joint := None; ml_n_jobs := cores; ml_sched := sched |}).
  destruct (C63_pneq_full srt labels pp K o Hs HD HM eq_refl Hc) as (m & Hm & Lm & G).
  destruct (C64_overall_full srt labels pp K SelfConfidence false (Some (4 # 5)) Hs HD HK (mixed_both _ _ HK HM)) as (cs & s & _ & Hsc & _ & _).
  { intros a E. injection E as <-. lra. }
  eexists. split.
  - unfold multilabel_find_issues, call_find, call_scores. cbn [process find_names score_names filter existsb fst snd String.eqb Ascii.eqb Bool.eqb orb andb negb is_none arg kget find option_map rbind].
    change (ml_find_label_issues srt labels pp K PredictedNeqGiven _ None) with (ml_find_label_issues srt labels pp K PredictedNeqGiven o None).
    rewrite Hm. cbn [rbind]. rewrite Hsc. cbn [rbind]. reflexivity.
  - cbn [o_flags o_given o_predicted]. intros e He Hfar. rewrite (G e). split.
    + intros (_ & c & Hck & Hd). exists c. split; auto. apply (clearly_differ K); auto.
    + intros (c & Hck & Hd). split; auto. exists c. split; auto. specialize (Hfar c Hck).
      destruct (predicted_full K labels pp e HD He) as [_ P]. destruct Hd as [[H1 H2]|[H1 H2]].
      * left. split; [exact H1|]. destruct (Qlt_le_dec (1 # 2) (prob_of pp e c)) as [Q|Q]; [exfalso; apply H2, P; auto|]. destruct Hfar; lra.
      * right. split; [exact H1|]. apply P in H2 as [_ H2]. destruct Hfar; lra.
Qed.

Lemma universal_full : forall srt cores sched js labels pp K kw c, labels <> [] -> (c < K)%nat -> is_dict kw ->
  (passed kw "low_memory" = None \/ passed kw "low_memory" = Some (VBool false)) ->
  (forall e, (e < length labels)%nat -> has_class labels e c) ->
  forall r, multilabel_find_issues srt cores sched js labels pp K kw <> Ok r.
Proof.
  intros srt cores sched js labels pp K kw c Hn Hc Hd Hl Ha r H. apply outcome_inv in H as (H & _).
  apply call_find_inv in H as (flt & o & _ & H); auto. exact (C63_universal_full srt labels pp K flt o c Hn Hc Ha _ H).
Qed.
