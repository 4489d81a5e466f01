(** * C103, C104: every valid data set is searched; which inputs are valid *)
From Coq Require Import QArith List ZArith Bool Arith Lia.
From Verif Require Import Base BaseFacts ModelUtil ModelCount ModelRank ModelFilter ModelValid SpecCount SpecFilter SpecValid ProofFilter ProofTotal ProofValid.
Import ListNotations.
Open Scope Q_scope.

(** C103: on valid data with at least two classes every filter returns a mask with one entry per example, and the ranked call returns exactly the
    flagged examples; no call raises or loops, whatever the sort does, whatever confident joint and noise fraction are passed. *)
Theorem C103_returns : forall srt K labels pp flt o rank_by adjust,
  argsort_ok srt -> dataset K labels pp -> two_classes labels -> num_to_remove_per_class o = None -> n_jobs o = 1%nat ->
  exists m idx, find_label_issues srt labels pp K flt o = Ok m /\ length m = length labels /\
    find_label_issues_ranked srt labels pp K flt o rank_by adjust = Ok idx /\ NoDup idx /\ (forall e, In e idx <-> flagged m e).
Proof. exact total_full. Qed.
Print Assumptions C103_returns.

(** C103: when every label is 0, four of the filters flag nothing; the other three raise ValueError.  One class other than 0 always raises. *)
Theorem C103_one_class : forall srt K labels pp, argsort_ok srt -> dataset K labels pp -> (forall l, In l labels -> l = 0%nat) ->
  forall flt o, num_to_remove_per_class o = None -> n_jobs o = 1%nat -> confident_joint o = None ->
  (flt = ConfidentLearning \/ flt = PruneByNoiseRate \/ flt = PruneByClass \/ flt = Both ->
     exists m, find_label_issues srt labels pp K flt o = Ok m /\ length m = length labels /\ forall e, ~ flagged m e) /\
  (flt = PredictedNeqGiven \/ flt = LowSelfConfidence \/ (flt = LowNormalizedMargin /\ (2 <= K)%nat) ->
     find_label_issues srt labels pp K flt o = Raise ValueError).
Proof. exact one_class_full. Qed.
Print Assumptions C103_one_class.
Theorem C103_one_other_class : forall srt labels pp K flt o c, labels <> [] -> (forall l, In l labels -> l = c) -> c <> 0%nat ->
  find_label_issues srt labels pp K flt o = Raise ValueError.
Proof. exact one_nonzero_raises. Qed.
Print Assumptions C103_one_other_class.

Definition ex103_options : options :=
  {| frac_noise := 1; num_to_remove_per_class := None; min_examples_per_class := 1; confident_joint := None; n_jobs := 1; sched_c := []; sched_n := [] |}.
(** class 2 has no example at all; the third example is flagged *)
Example C103_example : dataset 3 [0; 1; 0; 0; 1]%nat [[9#10; 1#10; 0]; [1#10; 9#10; 0]; [1#10; 9#10; 0]; [9#10; 1#10; 0]; [2#10; 7#10; 1#10]] /\
  two_classes [0; 1; 0; 0; 1]%nat /\
  find_label_issues argsort_ins [0; 1; 0; 0; 1]%nat [[9#10; 1#10; 0]; [1#10; 9#10; 0]; [1#10; 9#10; 0]; [9#10; 1#10; 0]; [2#10; 7#10; 1#10]] 3 PruneByNoiseRate ex103_options
    = Ok [false; false; true; false; false] /\
  find_label_issues argsort_ins [0; 0]%nat [[9#10; 1#10]; [1#10; 9#10]] 2 Both ex103_options = Ok [false; false].
Proof.
  split; [apply dataset_b_ok; vm_compute; reflexivity|]. split; [exists 0%nat, 1%nat; simpl; intuition discriminate|]. split; vm_compute; reflexivity.
Qed.

(** C104: labels are accepted exactly when they are class numbers 0, 1, ..., there are two different ones (unless one class is allowed), and no class
    below the largest is missing (unless missing classes are allowed). *)
Theorem C104_labels : forall y allow_missing allow_one, assert_valid_class_labels y allow_missing allow_one = Ok tt <->
  exists cs, class_labels y cs /\ (allow_one = true \/ two_of cs) /\ (allow_missing = true \/ no_gap cs).
Proof. exact labels_full. Qed.
Print Assumptions C104_labels.
(** C104: any other labels raise ValueError, except that a missing class, when not allowed, raises TypeError. *)
Theorem C104_label_errors : forall y allow_missing allow_one e, assert_valid_class_labels y allow_missing allow_one = Raise e ->
  e = ValueError \/ (e = TypeError /\ allow_missing = false /\ exists cs, class_labels y cs /\ ~ no_gap cs).
Proof. exact labels_errors. Qed.
Print Assumptions C104_label_errors.
(** C104: predictions (a matrix) are accepted exactly when there is one row per label, one column for every class that occurs, and every entry is a
    probability up to 1e-6; rows need not sum to one, and the features are not looked at. *)
Theorem C104_predictions : forall x y rows K allow_missing allow_one, (forall r, In r rows -> length r = K) ->
  assert_valid_inputs_full x y (Some (rows, K)) allow_missing allow_one = Ok tt <->
  exists cs, class_labels y cs /\ (allow_one = true \/ two_of cs) /\ (allow_missing = true \/ no_gap cs) /\
    length rows = length y /\ (forall c, In c cs -> (c < K)%nat) /\ near_probabilities rows.
Proof. exact predictions_full. Qed.
Print Assumptions C104_predictions.
(** C104: without predictions the features must have one example per label and be indexable. *)
Theorem C104_features : forall x y allow_missing allow_one, assert_valid_inputs_full x y None allow_missing allow_one = Ok tt <->
  x = X (Some (length y)) true /\ exists cs, class_labels y cs /\ (allow_one = true \/ two_of cs) /\ (allow_missing = true \/ no_gap cs).
Proof. exact features_full. Qed.
Print Assumptions C104_features.
(** C104: multi-label data are accepted exactly when there is one row per example, at least one label at all, every label has a column, and entries are
    probabilities up to 1e-6. *)
Theorem C104_multilabel : forall y rows K, (forall r, In r rows -> length r = K) ->
  (assert_valid_inputs_multilabel y rows K = Ok tt <->
   length rows = length y /\ (exists ls l, In ls y /\ In l ls) /\ (forall ls l, In ls y -> In l ls -> (l < K)%nat) /\ near_probabilities rows) /\
  (assert_valid_inputs_multilabel y rows K = Ok tt \/ assert_valid_inputs_multilabel y rows K = Raise ValueError).
Proof. exact multilabel_full. Qed.
Print Assumptions C104_multilabel.
(** C104: the check that the other models of this development run on integer labels is this one. *)
Theorem C104_same_check : forall labels pp K allow_one,
  assert_valid_inputs_full NoX (map (fun l => Num (Qnat l)) labels) (Some (pp, K)) true allow_one = assert_valid_inputs labels pp K allow_one.
Proof. exact same_check. Qed.
Print Assumptions C104_same_check.

(** 0.0 and 2.0 are accepted; 0.5, a negative number and a string are not; a gap only if allowed *)
Example C104_example :
  assert_valid_class_labels [Num 0; Num (4 # 2); Num 0] true false = Ok tt /\
  assert_valid_class_labels [Num 0; Num (4 # 2); Num 0] false false = Raise TypeError /\
  assert_valid_class_labels [Num 0; Num (1 # 2)] true false = Raise ValueError /\
  assert_valid_class_labels [Num 0; Num (- 1)] true false = Raise ValueError /\
  assert_valid_class_labels [Num 0; Str] true false = Raise ValueError /\
  assert_valid_inputs_full NoX [Num 0; Num 2] (Some ([[1; 0; 0]; [1; 1; 1]], 3%nat)) true false = Ok tt /\
  assert_valid_inputs_full NoX [Num 0; Num 2] (Some ([[1; 0]; [0; 1]], 2%nat)) true false = Raise ValueError /\
  assert_valid_inputs_multilabel [[]; [0; 1]]%nat [[0; 0]; [1; 1]] 2 = Ok tt /\ assert_valid_inputs_multilabel [[]; []] [[0; 0]; [1; 1]] 2 = Raise ValueError.
Proof. repeat split; vm_compute; reflexivity. Qed.
