(** * Vocabulary for the properties of Datalab's label check *)
From Coq Require Import String QArith List ZArith Bool Arith.
From Verif Require Import Base SpecCount SpecFilter ModelLearn ModelLabelCheck ModelLabelInfo.
Import ListNotations.
Open Scope Q_scope.

(** the probabilities the check works with: the caller's, otherwise those from the features (C90) *)
Definition probabilities (k : nat) (labels : list nat) (K : nat) (pred_probs : option matrix)
           (features : option (list (list nat))) (pp : matrix) : Prop :=
  match pred_probs with
  | Some given => pp = given
  | None => exists nb, features = Some nb /\ features_pred_probs k labels K nb = Ok pp
  end.

(** no built-in check leaves a joint in the statistics *)
Definition plain_statistics (st : statistics) : Prop := st_confident_joint st = None /\ st_joint st = None.

(** example [e] is estimated to be mislabelled, given the confidence thresholds [thr]: it is counted into another
    class, and that is no near-tie *)
Definition estimated_error (thr : list Q) (labels : list nat) (pp : matrix) (e : nat) : Prop :=
  (exists j, counted_as thr (row_of pp e) j /\ j <> label_of labels e) /\ clearly_beaten labels pp e.
