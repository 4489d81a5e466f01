(** * Model of the multi-label branches of cleanlab/count.py and of filter.find_predicted_neq_given *)
From Coq Require Import QArith List ZArith Bool Arith.
From Verif Require Import Base ModelUtil ModelCount ModelFilter ModelMultilabel.
Import ListNotations.
Open Scope Q_scope.

(** util.py:518-535 [get_num_classes] without predictions: the number of different classes used *)
Definition num_unique_classes (labels : list (list nat)) : nat := length (unique (concat labels)).

(** count.py:294-327 [_calibrate_confident_joint_multilabel].  The result array is created uninitialised with one
    2 x 2 matrix per class {i used}; [None]: a matrix the loop over [zip(confident_joint, y_one.T)] does not reach. *)
Definition ml_calibrate (srt : list Q -> list nat) (cjs : list (list (list Q))) (labels : list (list nat))
  : res (list (option (list (list Z)))) :=
  let K := num_unique_classes labels in
  do ms <- rmap (fun p => calibrate_confident_joint srt (fst p) (binary_labels labels K (snd p)))
                (combine cjs (seq 0 K)) ;
  Ok (tab K (fun c => nth_error ms c)).

(** count.py:402-442 [_estimate_joint_multilabel], called by 330-397 [estimate_joint], which calibrates a given
    confident joint first and drops the result *)
Definition ml_estimate_joint (srt : list Q -> list nat) (labels : list (list nat)) (pp : list (list Q)) (K : nat)
           (cjs : option (list (list (list Q)))) : res (list (list (list Q))) :=
  do _ <- (match cjs with Some c => do r <- ml_calibrate srt c labels ; Ok tt | None => Ok tt end) ;
  do calibrated <- (match cjs with
                    | Some c => Ok c
                    | None => do r <- ml_confident_joint_counts srt labels pp K ; Ok (map zmat_to_q r)
                    end) ;
  rmap (fun c => match nth_error calibrated c with
                 | Some cj => estimate_joint srt (binary_labels labels K c) (binary_probs pp c) 2 (Some cj)
                 | None => Raise IndexError
                 end) (seq 0 K).

(** count.py:1461-1490 [_get_confident_thresholds_multilabel] *)
Definition ml_thresholds (labels : list (list nat)) (pp : list (list Q)) (K : nat) : list (list Q) :=
  map (fun c => get_confident_thresholds (binary_labels labels K c) (binary_probs pp c) 2) (seq 0 K).

(** filter.py:672-698 [_find_predicted_neq_given_multilabel] *)
Definition ml_predicted_neq_given (labels : list (list nat)) (pp : list (list Q)) (K : nat) : res (list bool) :=
  do cols <- rmap (fun c => find_predicted_neq_given (binary_labels labels K c) (binary_probs pp c) 2) (seq 0 K) ;
  Ok (any_class (length labels) cols).

Inductive estimation_method := OffDiagonal | OffDiagonalCalibrated | OffDiagonalCustom | OtherMethod.

(** count.py:50-173 [num_label_issues] with [multi_label=True] (118-123) and 176-210
    [_num_label_issues_multilabel]: the method is not looked at *)
Definition ml_num_label_issues (srt : list Q -> list nat) (labels : list (list nat)) (pp : list (list Q)) (K : nat)
           (cjs : option (list (list (list Q)))) (method : estimation_method) (n_jobs : nat)
           (sched : nat -> list nat * list nat) : res nat :=
  do m <- ml_find_label_issues srt labels pp K ConfidentLearning (default_options cjs sched n_jobs) None ;
  Ok (count_true m).
