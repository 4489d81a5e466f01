(** * Model of Datalab's label check for classification (datalab/internal/issue_manager/label.py) *)
From Coq Require Import QArith List Bool Arith ZArith.
From Verif Require Import Base ModelUtil ModelCount ModelRank ModelFilter ModelBatched ModelLearn.
Import ListNotations.
Open Scope Q_scope.

(** scikit-learn's KNeighborsClassifier.predict_proba with uniform weights: the share of each class among the
    neighbours found.  Datalab numbers the classes 0..K-1 in such a way that all of them occur in the labels, so
    the columns are 0..K-1, as are those of the one-hot encoding. *)
Definition vote_probs (labels : list nat) (K : nat) (nb : list nat) : list Q :=
  map (fun c => Qnat (count c (map (fun j => nth j labels 0%nat) nb)) / Qnat (length nb)) (seq 0 K).
(** label.py:148-159: probabilities out of the [k + 1] neighbours of each example, minus its own vote.
    [neighbors]: what the search returns for each example.  ([k = 0], a division by zero, is not modelled.) *)
Definition remove_own_vote (k label : nat) (probs : list Q) : list Q :=
  map (fun cp => (snd cp - 1 / Qnat (k + 1) * (if Nat.eqb (fst cp) label then 1 else 0)) * Qnat (k + 1) / Qnat k)
      (combine (seq 0 (length probs)) probs).
Definition features_pred_probs (k : nat) (labels : list nat) (K : nat) (neighbors : list (list nat)) : res (list (list Q)) :=
  if Nat.ltb (length labels) (k + 1) then Raise ValueError            (* more neighbours than examples *)
  else Ok (map (fun i => remove_own_vote k (nth i labels 0%nat) (vote_probs labels K (nth i neighbors [])))
               (seq 0 (length labels))).

(** label.py:115-185 [find_issues] up to the issues table: the given probabilities, otherwise those from the
    features, go to CleanLearning.find_label_issues (ModelLearn); columns given_label and predicted_label are then
    moved from the table to the info.  The health summary is modelled in ModelDataset. *)
Section LabelCheck.
  Variable srt : list Q -> list nat.
  Variable minv : matrix -> res matrix.
  Variable js : nat -> jobs.
  Variable cfg : settings.
  Definition label_find_issues (k : nat) (labels : list nat) (K : nat) (pred_probs : option matrix)
             (features : option (list (list nat))) (thresholds : option (list Q)) (noise inverse : option matrix)
             (save : bool) : M issues_df :=
    mdo pp <- lift (match pred_probs, features with
                    | Some pp, _ => Ok pp
                    | None, None => Raise ValueError
                    | None, Some nb => features_pred_probs k labels K nb
                    end) ;
    ModelLearn.find_label_issues srt minv js cfg {| ds_labels := labels; ds_pred_probs := Some pp; ds_cv := Raise ValueError |}
      thresholds noise inverse save.
End LabelCheck.
