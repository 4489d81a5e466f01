(** * Property C181: the documented ways of calling the dataset summaries agree *)
From Coq Require Import QArith List ZArith Bool Arith.
From Verif Require Import Base ModelUtil ModelCount ModelFilter ModelDataset SpecCount SpecBatched SpecFilter SpecProportion SpecWays
     ProofFilter ProofBatched ProofWays.
Import ListNotations.
Open Scope Q_scope.

(** rank_classes_by_label_quality: labels and predicted probabilities; the joint and the number of examples; labels and
    the confident joint *)
Theorem C181_classes : forall srt K labels pp, argsort_ok srt -> dataset K labels pp -> exists z idx J rows,
  compute_confident_joint srt labels pp K None true = Ok (z, idx) /\ estimate_joint srt labels pp K None = Ok J /\
  rank_classes_by_label_quality srt (by_data K labels pp) = Ok rows /\
  rank_classes_by_label_quality srt (by_joint K J (Qnat (length labels))) = Ok rows /\
  rank_classes_by_label_quality srt (by_labels_and_confident_joint K labels (zmat_to_q z)) = Ok rows.
Proof. exact classes_ways. Qed.

(** find_overlapping_classes: here the confident joint alone suffices *)
Theorem C181_overlap : forall srt K labels pp, argsort_ok srt -> dataset K labels pp -> forall asym, exists z idx J rows,
  compute_confident_joint srt labels pp K None true = Ok (z, idx) /\ estimate_joint srt labels pp K None = Ok J /\
  find_overlapping_classes srt asym (by_data K labels pp) = Ok rows /\
  find_overlapping_classes srt asym (by_joint K J (Qnat (length labels))) = Ok rows /\
  find_overlapping_classes srt asym (by_confident_joint K (zmat_to_q z)) = Ok rows /\
  find_overlapping_classes srt asym (by_labels_and_confident_joint K labels (zmat_to_q z)) = Ok rows.
Proof. exact overlap_ways. Qed.

(** overall_label_health_score without predicted probabilities *)
Theorem C181_score : forall srt K labels pp, argsort_ok srt -> dataset K labels pp -> exists z idx J s,
  compute_confident_joint srt labels pp K None true = Ok (z, idx) /\ estimate_joint srt labels pp K None = Ok J /\
  overall_label_health_score srt (by_joint K J (Qnat (length labels))) = Ok s /\
  overall_label_health_score srt (by_confident_joint K (zmat_to_q z)) = Ok s /\
  overall_label_health_score srt (by_labels_and_confident_joint K labels (zmat_to_q z)) = Ok s.
Proof. exact score_ways. Qed.

(** health_summary: passing the confident joint of the same data changes nothing; passing it instead of the predicted
    probabilities changes at most the score *)
Theorem C181_summary : forall srt K labels pp, argsort_ok srt -> dataset K labels pp -> forall asym, exists z idx,
  compute_confident_joint srt labels pp K None true = Ok (z, idx) /\
  health_summary srt asym (with_confident_joint (by_data K labels pp) (zmat_to_q z)) = health_summary srt asym (by_data K labels pp) /\
  (forall score J classes overlap, health_summary srt asym (by_data K labels pp) = Ok (score, J, classes, overlap) ->
     exists score', health_summary srt asym (by_labels_and_confident_joint K labels (zmat_to_q z)) = Ok (score', J, classes, overlap)).
Proof. exact summary_ways. Qed.

(** with labels, only the proportions within the rows of the confident joint matter, whatever else is passed *)
Theorem C181_proportions : forall srt asym a l cj cj', respects_eq srt -> in_labels a = Some l ->
  same_proportions cj cj' -> countable cj -> countable cj' ->
  rank_classes_by_label_quality srt (with_confident_joint a cj) = rank_classes_by_label_quality srt (with_confident_joint a cj') /\
  find_overlapping_classes srt asym (with_confident_joint a cj) = find_overlapping_classes srt asym (with_confident_joint a cj') /\
  overall_label_health_score srt (with_confident_joint a cj) = overall_label_health_score srt (with_confident_joint a cj') /\
  health_summary srt asym (with_confident_joint a cj) = health_summary srt asym (with_confident_joint a cj').
Proof. exact tables_proportions. Qed.

Definition ex_l : list nat := [0; 0; 0; 1; 0; 0]%nat.
Definition ex_p : list (list Q) := [[9#10; 1#10]; [9#10; 1#10]; [1#5; 4#5]; [1#5; 4#5]; [11#20; 9#20]; [11#20; 9#20]].
Example ex_dataset : dataset 2 ex_l ex_p.
Proof. apply dataset_b_ok. vm_compute. reflexivity. Qed.
Definition nums (r : res (list overlap_row)) := match r with Ok rows => map overlap_num rows | Raise _ => [] end.
Definition score_of (r : res Q) := match r with Ok s => Ok (Qred s) | Raise e => Raise e end.
Definition ex_cj : list (list Q) := [[3; 2]; [0; 1]].
Definition ex_cj10 : list (list Q) := [[30; 20]; [0; 10]].
Example C181_example :
  compute_confident_joint argsort_ins ex_l ex_p 2 None true = Ok ([[3; 2]; [0; 1]]%Z, [2%nat]) /\
  nums (find_overlapping_classes argsort_ins false (by_data 2 ex_l ex_p)) = [2%Z] /\
  nums (find_overlapping_classes argsort_ins false (by_confident_joint 2 ex_cj)) = [2%Z] /\
  nums (find_overlapping_classes argsort_ins false (by_labels_and_confident_joint 2 ex_l ex_cj10)) = [2%Z] /\
  match health_summary argsort_ins false (by_data 2 ex_l ex_p) with Ok (s, _, _, _) => s == 5 # 6 | Raise _ => False end.
Proof. do 4 (split; [vm_compute; reflexivity|]). vm_compute. reflexivity. Qed.
Example ex_same : same_proportions ex_cj ex_cj10.
Proof.
  apply Forall2_cons; [exists 10|apply Forall2_cons; [exists 10|apply Forall2_nil]];
    (split; [reflexivity|repeat apply Forall2_cons; try apply Forall2_nil; reflexivity]).
Qed.
Example ex_countable : respects_eq argsort_ins /\ countable ex_cj /\ countable ex_cj10.
Proof.
  split; [exact argsort_ins_respects|].
  split; intros r [<-|[<-|[]]]; (split; [intros x [<-|[<-|[]]]; discriminate|right; vm_compute; discriminate]).
Qed.

(** Labels and predicted probabilities give another score than the joint or the confident joint estimated from them. *)
Theorem C181_score_refuted : exists labels pp z idx s s', dataset 2 labels pp /\
  compute_confident_joint argsort_ins labels pp 2 None true = Ok (z, idx) /\
  overall_label_health_score argsort_ins (by_data 2 labels pp) = Ok s /\
  overall_label_health_score argsort_ins (by_confident_joint 2 (zmat_to_q z)) = Ok s' /\ s == 5 # 6 /\ s' == 2 # 3.
Proof.
  exists ex_l, ex_p. do 4 eexists. split; [exact ex_dataset|]. split; [vm_compute; reflexivity|].
  split; [vm_compute; reflexivity|]. split; [vm_compute; reflexivity|]. split; vm_compute; reflexivity.
Qed.
(** Without labels the confident joint is not calibrated, and its scale does matter. *)
Theorem C181_counts_refuted : exists cj cj' rows rows', same_proportions cj cj' /\ countable cj /\ countable cj' /\
  find_overlapping_classes argsort_ins false (by_confident_joint 2 cj) = Ok rows /\
  find_overlapping_classes argsort_ins false (by_confident_joint 2 cj') = Ok rows' /\
  map overlap_num rows = [2%Z] /\ map overlap_num rows' = [20%Z].
Proof.
  exists ex_cj, ex_cj10. do 2 eexists. split; [exact ex_same|]. split; [exact (proj1 (proj2 ex_countable))|].
  split; [exact (proj2 (proj2 ex_countable))|]. split; [vm_compute; reflexivity|]. split; [vm_compute; reflexivity|]. split; vm_compute; reflexivity.
Qed.

Print Assumptions C181_classes.
Print Assumptions C181_overlap.
Print Assumptions C181_score.
Print Assumptions C181_summary.
Print Assumptions C181_proportions.
Print Assumptions C181_score_refuted.
Print Assumptions C181_counts_refuted.
