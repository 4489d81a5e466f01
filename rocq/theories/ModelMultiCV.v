(** * Model of the cross-validation helpers for multi-label data: cleanlab/internal/multilabel_scorer.py:559-652 *)
From Coq Require Import QArith List Bool Arith.
From Verif Require Import Base ModelUtil ModelLabels ModelMultilabel.
Import ListNotations.
Open Scope Q_scope.

(** multilabel_scorer.py:559-591 [multilabel_py]: for each class the fraction of examples without and with it *)
Definition multilabel_py (y : list (list nat)) (K : nat) : list (list Q) :=
  tab K (fun c => let fraction_0 := Qnat (length (filter (fun r => Nat.eqb (nth c r 0%nat) 0) y)) / Qnat (length y) in
                  [fraction_0; 1 - fraction_0]).

(** the lexicographic order of rows, in which [np.unique(axis=0)] sorts *)
Fixpoint row_leb (a b : list nat) : bool :=
  match a, b with
  | [], _ => true
  | _ :: _, [] => false
  | x :: a', y :: b' => if Nat.ltb x y then true else if Nat.ltb y x then false else row_leb a' b'
  end.
(** the number of entries before the first one equal to [x] *)
Fixpoint entry_of {A} (leb : A -> A -> bool) (x : A) (l : list A) : nat :=
  match l with [] => 0%nat | y :: t => if (leb x y && leb y x)%bool then 0%nat else S (entry_of leb x t) end.
(** the inverse array of [np.unique(l, return_inverse=True)] *)
Definition unique_inverse {A} (leb : A -> A -> bool) (l : list A) : list nat :=
  map (fun x => entry_of leb x (np_unique leb l)) l.

(** multilabel_scorer.py:597-600 [_get_split_generator]; [split] is [cv.split(X=ids, y=ids)] *)
Definition multilabel_ids (labels : list (list nat)) : list nat := unique_inverse row_leb labels.
Definition get_split_generator (split : list nat -> list (list nat * list nat)) (labels : list (list nat)) : list (list nat * list nat) :=
  split (multilabel_ids labels).

(** [sklearn.model_selection.cross_val_predict] with method="predict_proba" and a 2d [y] (not part of /repo, from its documentation and
    source): the held-out indices must be a permutation of all, the columns of [y] are passed through a LabelEncoder (which numbers the
    values that occur in the column), a clone is fitted for each split, and the predictions are put in the original order.  Predictions are
    arrays (as for OneVsRestClassifier), not lists of arrays. *)
Section CrossValPredict.
  Context {A : Type}.
  Variable d : A.
  Variable fit_predict : list A -> list (list nat) -> list A -> list (list Q).

  Definition encode (y : list (list nat)) (K : nat) : list (list nat) :=
    map (fun row => tab K (fun c => entry_of Nat.leb (nth c row 0%nat) (np_unique Nat.leb (ncol c y)))) y.
  Definition check_is_permutation (idx : list nat) (n : nat) : res bool :=
    if negb (Nat.eqb (length idx) n) then Ok false
    else if negb (forallb (fun i => Nat.ltb i n) idx) then Raise IndexError
    else Ok (forallb (fun i => mem i idx) (seq 0 n)).
  Definition cross_val_predict (X : list A) (y : list (list nat)) (K : nat) (splits : list (list nat * list nat)) : res (list (list Q)) :=
    match splits with
    | [] => Raise ValueError
    | _ =>
      let n := length y in
      let test_indices := concat (map snd splits) in
      do ok <- check_is_permutation test_indices n ;
      if negb ok then Raise ValueError
      else
        let y := encode y K in
        let predictions := concat (map (fun s => fit_predict (take_idx d X (fst s)) (take_idx [] y (fst s)) (take_idx d X (snd s))) splits) in
        Ok (map (fun i => nth (entry_of Nat.leb i test_indices) predictions []) (seq 0 n))
    end.

  (** multilabel_scorer.py:603-652 [get_cross_validated_multilabel_pred_probs]; [K] is [labels.shape[1]] *)
  Definition get_cross_validated_multilabel_pred_probs (split : list nat -> list (list nat * list nat)) (X : list A) (labels : list (list nat)) (K : nat)
    : res (list (list Q)) :=
    cross_val_predict X labels K (get_split_generator split labels).
End CrossValPredict.
