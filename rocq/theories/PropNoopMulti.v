(** * Property C183: multi-label data, supplying the confident joints that would have been computed changes nothing *)
From Coq Require Import QArith List ZArith Bool Arith.
From Verif Require Import Base ModelUtil ModelCount ModelRank ModelPool ModelFilter ModelMultilabel ModelMultiCount SpecCount SpecFilter
     SpecMultilabel SpecNoopMulti ProofNoopMulti PropMultilabel.
Import ListNotations.
Open Scope Q_scope.

(** the per-class masks, the overall mask and the ranked overall indices; [low] carries the batches of low-memory mode *)
Theorem C183_find : forall srt K labels pp, argsort_ok srt -> ml_dataset K labels pp ->
  exists cjs, ml_confident_joint_counts srt labels pp K = Ok cjs /\ length cjs = K /\ forall flt o,
    (forall low, issues_per_class srt labels pp K flt (ml_with_cj o (Some (map zmat_to_q cjs))) low = issues_per_class srt labels pp K flt (ml_with_cj o None) low) /\
    (forall low, ml_find_label_issues srt labels pp K flt (ml_with_cj o (Some (map zmat_to_q cjs))) low = ml_find_label_issues srt labels pp K flt (ml_with_cj o None) low) /\
    (forall rank_by adjust, ml_find_label_issues_ranked srt labels pp K flt (ml_with_cj o (Some (map zmat_to_q cjs))) rank_by adjust =
       ml_find_label_issues_ranked srt labels pp K flt (ml_with_cj o None) rank_by adjust).
Proof. exact multilabel_noop. Qed.

(** the joints, when all K classes are used *)
Theorem C183_joint : forall srt K labels pp, argsort_ok srt -> ml_dataset K labels pp -> num_unique_classes labels = K ->
  exists cjs, ml_confident_joint_counts srt labels pp K = Ok cjs /\
    ml_estimate_joint srt labels pp K (Some (map zmat_to_q cjs)) = ml_estimate_joint srt labels pp K None.
Proof. exact multilabel_joint_noop. Qed.

(** what is computed, and what is flagged with it, without it and with other confident joints *)
Example C183_example :
  ml_confident_joint_counts argsort_ins ex63_labels ex63_pp 2 = Ok [[[2; 1]; [1; 2]]; [[2; 0]; [0; 4]]]%Z /\
  num_unique_classes ex63_labels = 2%nat /\
  ml_find_label_issues argsort_ins ex63_labels ex63_pp 2 PruneByNoiseRate
    (ml_with_cj (ex63_options None None) (Some [[[2; 1]; [1; 2]]; [[2; 0]; [0; 4]]])) None =
  ml_find_label_issues argsort_ins ex63_labels ex63_pp 2 PruneByNoiseRate (ml_with_cj (ex63_options None None) None) None /\
  ml_find_label_issues argsort_ins ex63_labels ex63_pp 2 PruneByNoiseRate (ml_with_cj (ex63_options None None) None) None =
    Ok [false; true; false; true; false; false] /\
  ml_find_label_issues argsort_ins ex63_labels ex63_pp 2 PruneByNoiseRate
    (ml_with_cj (ex63_options None None) (Some [[[3; 0]; [0; 3]]; [[2; 0]; [0; 4]]])) None =
    Ok [false; false; false; false; false; false].
Proof.
  split; [vm_compute; reflexivity|]. split; [vm_compute; reflexivity|]. split; [vm_compute; reflexivity|].
  split; vm_compute; reflexivity.
Qed.

Print Assumptions C183_find.
Print Assumptions C183_joint.
