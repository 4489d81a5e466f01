(** * C158: finding label issues with the confusion matrix of the predictions *)
From Coq Require Import QArith List ZArith Bool Arith Lia.
From Verif Require Import Base ModelUtil ModelCount ModelFilter ModelConfusion SpecCount SpecFilter SpecConfusion
  ProofUtil ProofCount ProofFilter ProofConfusion.
Import ListNotations.
Open Scope Q_scope.

(** [calibrate] makes no difference, whatever the data and whatever the filter. *)
Theorem C158_calibration : forall srt labels pp K flt jobs sc sn,
  find_label_issues_using_argmax_confusion_matrix srt labels pp K true flt jobs sc sn =
  find_label_issues_using_argmax_confusion_matrix srt labels pp K false flt jobs sc sn.
Proof. exact calibration_full. Qed.
Print Assumptions C158_calibration.

(** The four filters that do not prune give what [find_label_issues] gives. *)
Theorem C158_other_filters : forall srt K labels pp cal flt jobs sc sn, argsort_ok srt -> dataset K labels pp -> two_classes labels ->
  is_prune flt = false ->
  find_label_issues_using_argmax_confusion_matrix srt labels pp K cal flt jobs sc sn =
  find_label_issues srt labels pp K flt (baseline_options None jobs sc sn).
Proof. exact others_full. Qed.
Print Assumptions C158_other_filters.

(** With a pruning filter (the default is one) there is an answer if every class is given and predicted ... *)
Theorem C158_total : forall srt K labels pp cal flt sc sn, argsort_ok srt -> dataset K labels pp -> two_classes labels ->
  all_given K labels -> all_predicted K pp ->
  exists m, find_label_issues_using_argmax_confusion_matrix srt labels pp K cal flt 1 sc sn = Ok m /\ length m = length labels.
Proof. exact total_square. Qed.
Print Assumptions C158_total.

(** ... and an exception otherwise (unless all examples are predicted to be of one class). *)
Theorem C158_missing_class : forall K labels pp, dataset K labels pp -> two_classes labels ->
  forall srt cal flt jobs sc sn, is_prune flt = true -> two_predicted pp ->
  ~ all_given K labels \/ ~ all_predicted K pp ->
  exists err, find_label_issues_using_argmax_confusion_matrix srt labels pp K cal flt jobs sc sn = Raise err /\
    (err = ValueError \/ err = IndexError) /\
    (all_given K labels -> err = ValueError) /\ (all_predicted K pp -> err = IndexError).
Proof. exact missing_full. Qed.
Print Assumptions C158_missing_class.

(** Pruning by class marks, in each class, as many of the examples with the lowest probability of the class as have
    another predicted class (but leaves one example in the class). *)
Theorem C158_by_class : forall K labels pp, dataset K labels pp -> two_classes labels ->
  forall srt jobs sc sn, argsort_ok srt -> all_given K labels -> all_predicted K pp ->
  forall cal m, find_label_issues_using_argmax_confusion_matrix srt labels pp K cal PruneByClass jobs sc sn = Ok m ->
  exists marked, length marked = length labels /\
    (forall k a, (k < K)%nat -> holds_for (length labels) (fun e => label_of labels e = k /\ disagrees labels pp e) a ->
       n_flagged k labels marked = Nat.min a (n_labelled k labels - 1)) /\
    (forall e e', (e < length labels)%nat -> (e' < length labels)%nat -> label_of labels e = label_of labels e' ->
       flagged marked e -> ~ flagged marked e' ->
       prob_of pp e (label_of labels e) <= prob_of pp e' (label_of labels e')) /\
    (forall e, (e < length labels)%nat -> (flagged m e <-> flagged marked e /\ clearly_beaten labels pp e)).
Proof. exact by_class_full. Qed.
Print Assumptions C158_by_class.

(** If every class has an example whose prediction agrees with its label, and the disagreeing examples are the extreme
    ones, the pruning filters flag the examples that [predicted_neq_given] flags. *)
Theorem C158_agreement : forall K labels pp, dataset K labels pp -> two_classes labels ->
  forall srt jobs sc sn, argsort_ok srt -> agreement_everywhere K labels pp ->
  forall cal flt m,
  (flt = PruneByClass /\ disagreement_less_sure labels pp \/ flt = PruneByNoiseRate /\ leads_separate labels pp \/
   flt = Both /\ disagreement_less_sure labels pp /\ leads_separate labels pp) ->
  find_label_issues_using_argmax_confusion_matrix srt labels pp K cal flt jobs sc sn = Ok m ->
  find_label_issues srt labels pp K PredictedNeqGiven (baseline_options None 1 [] []) = Ok m.
Proof. exact agree_full. Qed.
Print Assumptions C158_agreement.

(** With two classes the default filter always does. *)
Theorem C158_two_classes : forall srt labels pp cal jobs sc sn m, argsort_ok srt -> dataset 2 labels pp -> agreement_everywhere 2 labels pp ->
  find_label_issues_using_argmax_confusion_matrix srt labels pp 2 cal PruneByNoiseRate jobs sc sn = Ok m ->
  find_label_issues srt labels pp 2 PredictedNeqGiven (baseline_options None 1 [] []) = Ok m.
Proof. exact two_full. Qed.
Print Assumptions C158_two_classes.

(** two classes, two disagreements *)
Definition ex158_labels : list nat := [0; 0; 1; 1; 0]%nat.
Definition ex158_pp : list (list Q) := [[9#10; 1#10]; [2#10; 8#10]; [3#10; 7#10]; [6#10; 4#10]; [7#10; 3#10]].
Example C158_two_example :
  dataset 2 ex158_labels ex158_pp /\ agreement_everywhere 2 ex158_labels ex158_pp /\
  find_label_issues_using_argmax_confusion_matrix argsort_ins ex158_labels ex158_pp 2 true PruneByNoiseRate 1 [] [] =
    Ok [false; true; false; true; false].
Proof.
  split; [apply dataset_b_ok; vm_compute; reflexivity|]. split; [|vm_compute; reflexivity].
  intros [|[|k]] Hk; [exists 0%nat|exists 2%nat|lia]; (split; [cbn; lia|]); split; try reflexivity; (split; [cbn; lia|split]);
    intros i Hi; cbn in *; destruct i as [|[|i]]; cbn; try lia; (vm_compute; (reflexivity || discriminate)).
Qed.

(** With three classes it need not: the example most ahead in class 2 is one predicted to be of class 1, so the example
    predicted to be of class 2 is not flagged. *)
Definition ex158_labels3 : list nat := [0; 0; 0; 1; 2]%nat.
Definition ex158_pp3 : list (list Q) :=
  [[5#10; 3#10; 2#10]; [7#20; 5#20; 8#20]; [2#10; 5#10; 3#10]; [1#10; 8#10; 1#10]; [1#10; 1#10; 8#10]].
Theorem C158_three_classes_refuted :
  dataset 3 ex158_labels3 ex158_pp3 /\ agreement_everywhere 3 ex158_labels3 ex158_pp3 /\
  find_label_issues_using_argmax_confusion_matrix argsort_ins ex158_labels3 ex158_pp3 3 true PruneByNoiseRate 1 [] [] =
    Ok [false; false; true; false; false] /\
  find_label_issues argsort_ins ex158_labels3 ex158_pp3 3 PredictedNeqGiven (baseline_options None 1 [] []) =
    Ok [false; true; true; false; false].
Proof.
  split; [apply dataset_b_ok; vm_compute; reflexivity|]. split; [|split; vm_compute; reflexivity].
  intros [|[|[|k]]] Hk; [exists 0%nat|exists 3%nat|exists 4%nat|lia]; (split; [cbn; lia|]); split; try reflexivity; (split; [cbn; lia|split]);
    intros i Hi; cbn in *; destruct i as [|[|[|i]]]; cbn; try lia; (vm_compute; (reflexivity || discriminate)).
Qed.
Print Assumptions C158_three_classes_refuted.

(** Class 2 is never predicted: the baseline raises, [find_label_issues] with the same filter answers.  Class 1 is never
    given: likewise. *)
Theorem C158_missing_refuted :
  let labels := [0; 0; 1; 1; 2]%nat in
  let pp := [[8#10; 1#10; 1#10]; [1#10; 8#10; 1#10]; [2#10; 7#10; 1#10]; [3#10; 6#10; 1#10]; [6#10; 1#10; 3#10]] in
  let labels' := [0; 0; 2; 2]%nat in
  let pp' := [[8#10; 1#10; 1#10]; [1#10; 8#10; 1#10]; [2#10; 1#10; 7#10]; [3#10; 1#10; 6#10]] in
  dataset 3 labels pp /\ dataset 3 labels' pp' /\
  find_label_issues_using_argmax_confusion_matrix argsort_ins labels pp 3 true PruneByNoiseRate 1 [] [] = Raise ValueError /\
  (exists m, find_label_issues argsort_ins labels pp 3 PruneByNoiseRate (baseline_options None 1 [] []) = Ok m) /\
  find_label_issues_using_argmax_confusion_matrix argsort_ins labels' pp' 3 true PruneByNoiseRate 1 [] [] = Raise IndexError /\
  (exists m, find_label_issues argsort_ins labels' pp' 3 PruneByNoiseRate (baseline_options None 1 [] []) = Ok m).
Proof.
  cbv zeta. split; [apply dataset_b_ok; vm_compute; reflexivity|]. split; [apply dataset_b_ok; vm_compute; reflexivity|].
  split; [vm_compute; reflexivity|]. split; [eexists; vm_compute; reflexivity|].
  split; [vm_compute; reflexivity|]. eexists; vm_compute; reflexivity.
Qed.
Print Assumptions C158_missing_refuted.

(** A class none of whose examples is predicted to be of it: all but one are marked. *)
Example C158_by_class_example :
  find_label_issues_using_argmax_confusion_matrix argsort_ins [0; 0; 0; 1; 1]%nat
    [[1#10; 9#10]; [2#10; 8#10]; [3#10; 7#10]; [6#10; 4#10]; [2#10; 8#10]] 2 false PruneByClass 1 [] [] =
  Ok [true; true; false; true; false].
Proof. vm_compute. reflexivity. Qed.
