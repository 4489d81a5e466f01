(** * Model of the noise estimators of cleanlab/count.py that chain the other estimators:
    count.py:799-885 and 1059-1328 *)
From Coq Require Import QArith List ZArith Bool Arith.
From Verif Require Import Base ModelUtil ModelCount ModelLatent ModelCV.
Import ListNotations.
Open Scope Q_scope.

(** (py, noise_matrix, inverse_noise_matrix, confident_joint) *)
Definition estimates : Type := list Q * list (list Q) * list (list Q) * list (list Z).

(** cleanlab/count.py:799-885 [estimate_py_and_noise_matrices_from_probabilities]; the number of classes is the
    number of columns of [pred_probs].  [py_method] as in [estimate_latent]. *)
Definition estimate_from_probabilities (srt : list Q -> list nat) (labels : list nat) (pred_probs : list (list Q))
           (thresholds : option (list Q)) (converge : bool) (m : latent_method) (calibrate : bool)
  : res estimates :=
  do r <- compute_confident_joint srt labels pred_probs (length (nth 0 pred_probs [])) thresholds calibrate ;
  let confident_joint := fst r in
  do l <- estimate_latent (zmat_to_q confident_joint) labels m converge ;
  let '(py, noise_matrix, inv_noise_matrix) := l in
  Ok (py, noise_matrix, inv_noise_matrix, confident_joint).

Section CrossValidated.
  Context {A : Type}.
  Variable d : A.
  Variable fit_predict : list A -> list nat -> list A -> list (list Q).
  Variable set_order : list nat -> list nat.
  Variable srt : list Q -> list nat.

  (** cleanlab/count.py:1069-1177 [estimate_py_noise_matrices_and_cv_pred_proba].  There is no [calibrate]
      argument: the confident joint is calibrated, the default of
      [estimate_confident_joint_and_cv_pred_proba]. *)
  Definition estimate_with_cv (torch : bool) (X : list A) (labels : list nat) (folds : list (list nat))
             (thresholds : option (list Q)) (converge : bool) (m : latent_method)
    : res (estimates * list (list Q)) :=
    do r <- estimate_confident_joint_and_cv_pred_proba d fit_predict set_order srt torch X labels folds
              thresholds true ;
    let '(confident_joint, pred_probs) := r in
    do l <- estimate_latent (zmat_to_q confident_joint) labels m converge ;
    let '(py, noise_matrix, inv_noise_matrix) := l in
    Ok (py, noise_matrix, inv_noise_matrix, confident_joint, pred_probs).

  (** cleanlab/count.py:1180-1243 [estimate_cv_predicted_probabilities]: default thresholds, no convergence, the
      default [py_method] (cnt); the last of the five results. *)
  Definition estimate_cv_predicted_probabilities (torch : bool) (X : list A) (labels : list nat)
             (folds : list (list nat)) : res (list (list Q)) :=
    do r <- estimate_with_cv torch X labels folds None false LCnt ; Ok (snd r).

  (** cleanlab/count.py:1246-1328 [estimate_noise_matrices]: results [1:-2] of the five. *)
  Definition estimate_noise_matrices (torch : bool) (X : list A) (labels : list nat) (folds : list (list nat))
             (thresholds : option (list Q)) (converge : bool) : res (list (list Q) * list (list Q)) :=
    do r <- estimate_with_cv torch X labels folds thresholds converge LCnt ;
    let '(py, noise_matrix, inv_noise_matrix, confident_joint, pred_probs) := r in
    Ok (noise_matrix, inv_noise_matrix).
End CrossValidated.
