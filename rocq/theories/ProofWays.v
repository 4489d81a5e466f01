(** * Proofs for C181 *)
From Coq Require Import QArith List ZArith Bool Arith Lia Lqa.
From Verif Require Import Base BaseFacts ModelUtil ModelCount ModelFilter ModelDataset SpecCount SpecBatched SpecFilter SpecProportion SpecWays
     ProofCount ProofFilter ProofIssueCount ProofProportion.
Import ListNotations.
Open Scope Q_scope.

Definition joint_of_counts (z : list (list Z)) : list (list Q) :=
  map (map (fun x => x / clip_lo TINY_VALUE (qsum (map qsum (zmat_to_q z))))) (zmat_to_q z).

Lemma ways srt K labels pp : argsort_ok srt -> dataset K labels pp ->
  exists z idx, compute_confident_joint srt labels pp K None true = Ok (z, idx) /\ counts_ok K labels z /\
    calibrate_confident_joint srt (zmat_to_q z) labels = Ok z.
Proof.
  intros Hs Hd. pose proof Hd as [Hlen Hne Hlab Hrow Hprob]. unfold compute_confident_joint.
  pose proof (uncalibrated_cj_ok labels pp (get_confident_thresholds labels pp K) K) as Hu.
  destruct (calibrate_spec srt K _ labels Hs Hu Hne Hlab) as (zm & E & _ & _).
  pose proof (calibrated_counts_ok srt K _ labels zm Hs Hu Hne Hlab E) as Hc.
  rewrite E. cbn [rbind]. exists zm. eexists. split; [reflexivity|]. split; [exact Hc|]. apply (calibrate_fixed srt K); auto.
Qed.

Lemma sum_counts K labels z : (forall l, In l labels -> (l < K)%nat) -> counts_ok K labels z ->
  qsum (map qsum (zmat_to_q z)) == Qnat (length labels).
Proof.
  intros Hl (L & H). rewrite <- (nsum_labelled K labels Hl).
  assert (E : Forall2 Qeq (map qsum (zmat_to_q z)) (map Qnat (tab K (fun k => n_labelled k labels)))).
  { apply (Forall2_nth_intro _ _ _ 0 0).
    - unfold zmat_to_q. rewrite !map_length, tab_length. exact L.
    - intros i Hi. unfold zmat_to_q in *. rewrite !map_length in Hi. rewrite L in Hi.
      rewrite (nth_map_gen _ _ _ _ []) by (rewrite map_length; lia). rewrite (nth_map_gen _ _ _ _ []) by lia.
      rewrite (nth_map_gen _ _ _ _ 0%nat) by (rewrite tab_length; lia). rewrite nth_tab by auto.
      rewrite qsum_inject. destruct (H i Hi) as (_ & -> & _). reflexivity. }
  rewrite (qsum_Forall2 _ _ E). generalize (tab K (fun k => n_labelled k labels)). intros l.
  induction l as [|n l IH]; [reflexivity|]. cbn [map]. change (qsum (Qnat n :: map Qnat l)) with (Qnat n + qsum (map Qnat l)).
  rewrite IH. change (nsum (n :: l)) with (n + nsum l)%nat. rewrite Qnat_plus. reflexivity.
Qed.

Lemma overlap_rows_n asym j n n' : n == n' -> overlap_rows asym j n = overlap_rows asym j n'.
Proof.
  intros E. unfold overlap_rows. apply map_ext. intros t. f_equal. rewrite E. reflexivity.
Qed.

Section Ways.
Variables (srt : list Q -> list nat) (K : nat) (labels : list nat) (pp : list (list Q)).
Hypothesis Hs : argsort_ok srt.
Hypothesis Hd : dataset K labels pp.

Lemma joints z idx : compute_confident_joint srt labels pp K None true = Ok (z, idx) ->
  calibrate_confident_joint srt (zmat_to_q z) labels = Ok z ->
  estimate_joint srt labels pp K None = Ok (joint_of_counts z) /\
  (forall pp', estimate_joint srt labels pp' K (Some (zmat_to_q z)) = Ok (joint_of_counts z)).
Proof. intros E F. unfold estimate_joint. rewrite E, F. split; reflexivity. Qed.

Theorem classes_ways : exists z idx J rows,
  compute_confident_joint srt labels pp K None true = Ok (z, idx) /\ estimate_joint srt labels pp K None = Ok J /\
  rank_classes_by_label_quality srt (by_data K labels pp) = Ok rows /\
  rank_classes_by_label_quality srt (by_joint K J (Qnat (length labels))) = Ok rows /\
  rank_classes_by_label_quality srt (by_labels_and_confident_joint K labels (zmat_to_q z)) = Ok rows.
Proof.
  destruct (ways srt K labels pp Hs Hd) as (z & idx & E & C & F). destruct (joints z idx E F) as (J1 & J2).
  exists z, idx, (joint_of_counts z). unfold rank_classes_by_label_quality, the_joint, by_data, by_joint, by_labels_and_confident_joint, estimate_joint_opt.
  cbn [in_joint in_labels in_pred_probs in_K in_num_examples in_confident_joint get_num_examples rbind].
  rewrite J1, J2. cbn [rbind]. eexists. split; [exact E|]. repeat split; reflexivity.
Qed.

Theorem overlap_ways : forall asym, exists z idx J rows,
  compute_confident_joint srt labels pp K None true = Ok (z, idx) /\ estimate_joint srt labels pp K None = Ok J /\
  find_overlapping_classes srt asym (by_data K labels pp) = Ok rows /\
  find_overlapping_classes srt asym (by_joint K J (Qnat (length labels))) = Ok rows /\
  find_overlapping_classes srt asym (by_confident_joint K (zmat_to_q z)) = Ok rows /\
  find_overlapping_classes srt asym (by_labels_and_confident_joint K labels (zmat_to_q z)) = Ok rows.
Proof.
  intros asym. destruct (ways srt K labels pp Hs Hd) as (z & idx & E & C & F). destruct (joints z idx E F) as (J1 & J2).
  exists z, idx, (joint_of_counts z).
  unfold find_overlapping_classes, the_joint, by_data, by_joint, by_labels_and_confident_joint, by_confident_joint, estimate_joint_opt.
  cbn [in_joint in_labels in_pred_probs in_K in_num_examples in_confident_joint get_num_examples rbind].
  rewrite J1, J2. cbn [rbind]. eexists. split; [exact E|]. split; [reflexivity|]. split; [reflexivity|]. split; [reflexivity|].
  split; [|reflexivity]. cbv zeta. fold (joint_of_counts z).
  rewrite (overlap_rows_n asym _ _ (Qnat (length labels))); [reflexivity|].
  apply (sum_counts K); auto. apply Hd.
Qed.

Theorem score_ways : exists z idx J s,
  compute_confident_joint srt labels pp K None true = Ok (z, idx) /\ estimate_joint srt labels pp K None = Ok J /\
  overall_label_health_score srt (by_joint K J (Qnat (length labels))) = Ok s /\
  overall_label_health_score srt (by_confident_joint K (zmat_to_q z)) = Ok s /\
  overall_label_health_score srt (by_labels_and_confident_joint K labels (zmat_to_q z)) = Ok s.
Proof.
  destruct (ways srt K labels pp Hs Hd) as (z & idx & E & C & F). destruct (joints z idx E F) as (J1 & J2).
  exists z, idx, (joint_of_counts z).
  unfold overall_label_health_score, the_joint, by_data, by_joint, by_labels_and_confident_joint, by_confident_joint, estimate_joint_opt.
  cbn [in_joint in_labels in_pred_probs in_K in_num_examples in_confident_joint get_num_examples rbind].
  rewrite J1, J2. cbn [rbind]. eexists. split; [exact E|]. repeat split; reflexivity.
Qed.

Theorem summary_ways : forall asym, exists z idx,
  compute_confident_joint srt labels pp K None true = Ok (z, idx) /\
  health_summary srt asym (with_confident_joint (by_data K labels pp) (zmat_to_q z)) = health_summary srt asym (by_data K labels pp) /\
  (forall score J classes overlap, health_summary srt asym (by_data K labels pp) = Ok (score, J, classes, overlap) ->
     exists score', health_summary srt asym (by_labels_and_confident_joint K labels (zmat_to_q z)) = Ok (score', J, classes, overlap)).
Proof.
  intros asym. destruct (ways srt K labels pp Hs Hd) as (z & idx & E & C & F). destruct (joints z idx E F) as (J1 & J2).
  exists z, idx. split; [exact E|].
  unfold health_summary, overall_label_health_score, rank_classes_by_label_quality, find_overlapping_classes, the_joint,
    with_confident_joint, by_data, by_labels_and_confident_joint, estimate_joint_opt.
  cbn [in_joint in_labels in_pred_probs in_K in_num_examples in_confident_joint get_num_examples rbind].
  rewrite J1, !J2. cbn [rbind in_joint in_labels in_pred_probs in_K in_num_examples in_confident_joint get_num_examples].
  split; [reflexivity|]. intros score J classes overlap. rewrite ?J2. cbn [rbind].
  destruct (num_label_issues srt labels pp K) as [iss|]; cbn [rbind]; [|discriminate].
  destruct (Qeq_bool _ 0); cbn [rbind]; [discriminate|]. intros [= _ <- <- <-]. eexists. reflexivity.
Qed.
End Ways.

Lemma the_joint_proportions srt a l cj cj' : respects_eq srt -> in_labels a = Some l -> same_proportions cj cj' -> countable cj -> countable cj' ->
  the_joint srt (with_confident_joint a cj) = the_joint srt (with_confident_joint a cj').
Proof.
  intros Hs El P C C'. unfold the_joint, with_confident_joint, estimate_joint_opt.
  cbn [in_joint in_labels in_pred_probs in_K in_num_examples in_confident_joint]. destruct (in_joint a); [reflexivity|].
  rewrite El. apply joint_proportions; auto.
Qed.

Theorem tables_proportions srt asym a l cj cj' : respects_eq srt -> in_labels a = Some l -> same_proportions cj cj' -> countable cj -> countable cj' ->
  rank_classes_by_label_quality srt (with_confident_joint a cj) = rank_classes_by_label_quality srt (with_confident_joint a cj') /\
  find_overlapping_classes srt asym (with_confident_joint a cj) = find_overlapping_classes srt asym (with_confident_joint a cj') /\
  overall_label_health_score srt (with_confident_joint a cj) = overall_label_health_score srt (with_confident_joint a cj') /\
  health_summary srt asym (with_confident_joint a cj) = health_summary srt asym (with_confident_joint a cj').
Proof.
  intros Hs El P C C'.
  assert (R : forall a, in_labels a = Some l -> rank_classes_by_label_quality srt (with_confident_joint a cj) = rank_classes_by_label_quality srt (with_confident_joint a cj')).
  { intros b Eb. unfold rank_classes_by_label_quality. rewrite (the_joint_proportions srt b l cj cj') by auto. reflexivity. }
  assert (F : forall a, in_labels a = Some l -> find_overlapping_classes srt asym (with_confident_joint a cj) = find_overlapping_classes srt asym (with_confident_joint a cj')).
  { intros b Eb. unfold find_overlapping_classes. rewrite (the_joint_proportions srt b l cj cj') by auto.
    cbn [with_confident_joint in_labels in_num_examples in_confident_joint]. rewrite Eb. reflexivity. }
  assert (S : forall a, in_labels a = Some l -> overall_label_health_score srt (with_confident_joint a cj) = overall_label_health_score srt (with_confident_joint a cj')).
  { intros b Eb. unfold overall_label_health_score. rewrite (the_joint_proportions srt b l cj cj') by auto.
    cbn [with_confident_joint in_labels in_num_examples in_confident_joint in_pred_probs in_K]. rewrite Eb. reflexivity. }
  split; [auto|]. split; [auto|]. split; [auto|].
  unfold health_summary. rewrite (the_joint_proportions srt a l cj cj') by auto.
  destruct (the_joint srt (with_confident_joint a cj')) as [j|]; cbn [rbind]; [|reflexivity].
  cbn [with_confident_joint in_labels in_num_examples in_confident_joint in_pred_probs in_K].
  destruct (match in_num_examples a with Some n => Ok n | None => get_num_examples (in_labels a) None end) as [n|]; cbn [rbind]; [|reflexivity].
  set (a1 := {| in_labels := in_labels a; in_pred_probs := in_pred_probs a; in_K := in_K a; in_num_examples := Some n; in_joint := Some j; in_confident_joint := None |}).
  set (a2 := {| in_labels := in_labels a; in_pred_probs := in_pred_probs a; in_K := in_K a; in_num_examples := Some n; in_joint := None; in_confident_joint := None |}).
  change {| in_labels := in_labels a; in_pred_probs := in_pred_probs a; in_K := in_K a; in_num_examples := Some n; in_joint := Some j; in_confident_joint := Some cj |} with (with_confident_joint a1 cj).
  change {| in_labels := in_labels a; in_pred_probs := in_pred_probs a; in_K := in_K a; in_num_examples := Some n; in_joint := Some j; in_confident_joint := Some cj' |} with (with_confident_joint a1 cj').
  change {| in_labels := in_labels a; in_pred_probs := in_pred_probs a; in_K := in_K a; in_num_examples := Some n; in_joint := None; in_confident_joint := Some cj |} with (with_confident_joint a2 cj).
  change {| in_labels := in_labels a; in_pred_probs := in_pred_probs a; in_K := in_K a; in_num_examples := Some n; in_joint := None; in_confident_joint := Some cj' |} with (with_confident_joint a2 cj').
  rewrite (R a1), (F a1), (S a2) by auto. reflexivity.
Qed.
