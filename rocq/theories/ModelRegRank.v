(** * Model of cleanlab/regression/rank.py, cleanlab/internal/regression_utils.py and the regression label check
    of Datalab (datalab/internal/issue_manager/regression/label.py) *)
From Coq Require Import QArith Qreals Reals List Bool Arith.
From Verif Require Import Base ModelUtil ModelEntropy ModelOutlier ModelOutlierCheck.
Import ListNotations.
Open Scope R_scope.

(** a numpy array: shape, entries in C order ([None]: NaN), and whether its dtype is numeric.  Inputs that
    np.asarray rejects, infinite entries and complex numbers are not modelled. *)
Record array := { shape : list nat; entries : list (option R); numeric : bool }.
Definition size (sh : list nat) : nat := fold_right Nat.mul 1%nat sh.
(** np.squeeze of the shape *)
Definition squeeze (sh : list nat) : list nat := filter (fun d => negb (Nat.eqb d 1)) sh.

(** internal/regression_utils.py:72-106 [check_dimension_and_datatype] *)
Definition check_dimension_and_datatype (a : array) : res array :=
  if Nat.eqb (size (shape a)) 0 then Raise ValueError
  else if negb (Nat.eqb (length (squeeze (shape a))) 1) then Raise ValueError
  else if negb (numeric a) then Raise ValueError
  else Ok {| shape := squeeze (shape a); entries := entries a; numeric := numeric a |}.
(** internal/regression_utils.py:109-113 [check_missing_values] *)
Definition is_nan (x : option R) : bool := match x with None => true | Some _ => false end.
Definition check_missing_values (a : array) : res unit :=
  if existsb is_nan (entries a) then Raise ValueError else Ok tt.
Fixpoint same_shape (a b : list nat) : bool :=
  match a, b with
  | [], [] => true
  | x :: a, y :: b => Nat.eqb x y && same_shape a b
  | _, _ => false
  end.
Inductive score_method := Residual | Outre | UnknownMethod.
(** internal/regression_utils.py:11-48 [assert_valid_prediction_inputs] *)
Definition assert_valid_prediction_inputs (labels predictions : array) (m : score_method) : res (array * array) :=
  do l <- check_dimension_and_datatype labels ;
  do p <- check_dimension_and_datatype predictions ;
  if negb (same_shape (shape l) (shape p)) then Raise AssertionError else
  do _ <- check_missing_values l ;
  do _ <- check_missing_values p ;
  match m with UnknownMethod => Raise ValueError | _ => Ok (l, p) end.

Definition number (x : option R) : R := match x with Some v => v | None => 0 end.

(** predictions - labels *)
Definition residuals (labels predictions : list R) : list R :=
  map (fun pl => fst pl - snd pl) (combine predictions labels).
(** regression/rank.py:90-119 [_get_residual_score_for_each_label] *)
Definition residual_scores (labels predictions : list R) : list R :=
  map (fun r => exp (- Rabs r)) (residuals labels predictions).

(** np.std *)
Definition rstd (l : list R) : R := sqrt (rmean (map (fun x => (x - rmean l) * (x - rmean l)) l)).
Definition TINY : R := / 10 ^ 100.
(** (x - x.mean()) / (x.std() + TINY_VALUE) *)
Definition standardize (l : list R) : list R := map (fun x => (x - rmean l) / (rstd l + TINY)) l.
(** regression/rank.py:159-164: the two features of each example *)
Definition outre_features (labels predictions : list R) : list (R * R) :=
  combine (standardize labels) (map (fun x => 5 * x) (standardize (residuals labels predictions))).

Definition euclid (a b : R * R) : R := sqrt ((fst a - fst b) * (fst a - fst b) + (snd a - snd b) * (snd a - snd b)).
(** scikit-learn's exact nearest neighbours under the euclidean metric, for two columns.
    internal/neighbor/knn_graph.py:567-578 [_configure_num_neighbors] *)
Definition plane (sort : list R -> list R) : backend (list (R * R)) := {|
  two_dim := fun _ => true;
  same_dim := fun _ _ => true;
  features_to_knn := fun f k => match k with
                                | Some k => if Nat.leb (length f) k then Raise ValueError else Ok (k, Euclidean)
                                | None => Ok (Nat.min 10 (length f - 1), Euclidean)
                                end;
  kneighbors := fun train q n => map (fun x => firstn n (sort (map (euclid x) train))) (match q with Some q => q | None => [] end);
  correct := fun _ d => d;
  median := rmedian sort;
  rsort := sort |}.
(** np.ceil(0.5 * n) *)
Definition half_up (n : nat) : nat := (n + 1) / 2.
(** regression/rank.py:122-173 [_get_outre_score_for_each_label]; the estimator is OutOfDistribution with a
    given index and otherwise default parameters (t = 1) *)
Definition outre_scores (sort : list R -> list R) (labels predictions : list R) : res (list R) :=
  let f := outre_features labels predictions in
  do nm <- features_to_knn (plane sort) f (Some (half_up (length labels))) ;
  let o := {| p_knn := Some {| fitted_on := Some f; n_neighbors := fst nm; knn_metric := snd nm |}; p_k := None; p_t := 1;
              p_method := Entropy; p_adjust := true; p_thresholds := None; p_M := 100; p_gamma := 1 / 10; p_scaling := None |} in
  do s <- snd (score (plane sort) o {| in_features := Some f; in_pred_probs := None; in_labels := None |}) ;
  match s with Some s => Ok s | None => Raise OtherError end.

(** regression/rank.py:22-87 [get_label_quality_scores] *)
Definition get_label_quality_scores (sort : list R -> list R) (labels predictions : array) (m : score_method) : res (list R) :=
  do lp <- assert_valid_prediction_inputs labels predictions m ;
  let l := map number (entries (fst lp)) in
  let p := map number (entries (snd lp)) in
  match m with
  | Residual => Ok (residual_scores l p)
  | Outre => outre_scores sort l p
  | UnknownMethod => Raise ValueError
  end.

(** ** Datalab's label check for regression *)
(** regression/label.py:143-197 [find_issues_with_predictions]: flags and scores *)
Definition find_issues_with_predictions (sort : list R -> list R) (predictions y : array) (threshold : R)
           (m : option score_method) : res (list bool * list R) :=
  do q <- get_label_quality_scores sort y predictions (match m with Some m => m | None => Outre end) ;
  Ok (map (below_R (rmedian sort q * threshold)) q, q).
(** regression/label.py:61-120 [find_issues].  [features]: None if not given, otherwise the outcome of
    [find_issues_with_features] (200-241, CleanLearning.find_label_issues, modelled in ModelRegression);
    [labels]: None if the labels are not an array.  Third component: the summary score (114). *)
Definition find_regression_issues (sort : list R -> list R) (custom_model : bool) (threshold : R)
           (features : option (res (list bool * list R))) (predictions : option array) (labels : option array)
           (m : option score_method) : res (list bool * list R * R) :=
  match features, predictions with
  | None, None => Raise ValueError
  | None, Some p =>
      if custom_model then Raise ValueError
      else match labels with
           | None => Raise TypeError
           | Some y => do r <- find_issues_with_predictions sort p y threshold m ; Ok (r, rmean (snd r))
           end
  | Some f, None => match labels with None => Raise TypeError | Some _ => do r <- f ; Ok (r, rmean (snd r)) end
  | Some f, Some p =>
      match labels with
      | None => Raise TypeError
      | Some y => if custom_model then do r <- f ; Ok (r, rmean (snd r))
                  else do r <- find_issues_with_predictions sort p y threshold m ; Ok (r, rmean (snd r))
      end
  end.
