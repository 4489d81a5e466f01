(** * Vocabulary for the cross-validation properties *)
From Coq Require Import QArith List Bool Arith Permutation.
From Verif Require Import Base.
Import ListNotations.
Open Scope Q_scope.

(** the holdout sets of a cross-validation split of [n] examples: every example is held out exactly once *)
Definition cv_partition (n : nat) (folds : list (list nat)) : Prop :=
  Permutation (concat folds) (seq 0 n).

(** the examples outside a fold, in order *)
Definition others (n : nat) (holdout : list nat) : list nat :=
  filter (fun i => negb (existsb (Nat.eqb i) holdout)) (seq 0 n).

(** the given labels are exactly the classes 0 .. K-1 *)
Definition classes_are (K : nat) (labels : list nat) : Prop := forall c, In c labels <-> (c < K)%nat.

(** a classifier trained on data with all [K] classes predicts one row of [K] numbers per example *)
Definition proper_classifier {A} (K : nat) (fit_predict : list A -> list nat -> list A -> list (list Q)) : Prop :=
  forall Xt yt Xh, (forall c, (c < K)%nat -> In c yt) ->
    length (fit_predict Xt yt Xh) = length Xh /\ forall r, In r (fit_predict Xt yt Xh) -> length r = K.

(** a fitted regression model predicts one number per example *)
Definition proper_regressor {A} (fit : list A -> list Q -> list A -> list Q) : Prop :=
  forall Xt yt Xh, length (fit Xt yt Xh) = length Xh.

(** certainty of class [c] *)
Definition certain (K c : nat) (row : list Q) : Prop :=
  length row = K /\ nth c row 0 = 1 /\ forall j, j <> c -> nth j row 0 = 0.

(** sets may be iterated in any order *)
Definition any_order (so : list nat -> list nat) : Prop := forall l, Permutation (so l) l.

(** the examples of [l] that are not in [holdout] *)
Definition without (l holdout : list nat) : list nat :=
  filter (fun i => negb (existsb (Nat.eqb i) holdout)) l.

(** The predicted row of example [i], held out at position [p] of the fold [hold]: it comes from a classifier
    trained on examples among which [i] is not, namely the other folds and one example ([extra]) of each class
    that the other folds lack -- unless [i] is such an example, and then it is certainty of its given label. *)
Definition out_of_fold_row {A} (fit_predict : list A -> list nat -> list A -> list (list Q))
    (feat : nat -> A) (lab : nat -> nat) (n K : nat) (pp : list (list Q)) (hold : list nat) (p i : nat) : Prop :=
  exists extra,
    (forall e, In e extra -> In e hold /\ forall t, In t (others n hold) -> lab t <> lab e) /\
    NoDup (map lab extra) /\
    (forall c, (c < K)%nat -> In c (map lab (others n hold ++ extra))) /\
    (~ In i (others n hold ++ extra) /\
     nth i pp [] = nth p (fit_predict (map feat (others n hold ++ extra)) (map lab (others n hold ++ extra))
                                      (map feat hold)) []
     \/ In i extra /\ certain K (lab i) (nth i pp [])).

(** Predictions of a regression model cross-validated on the examples [ins] with the given holdout sets: each of
    [ins] is held out once and predicted by the model trained on the rest of [ins]; each example of [outs] gets
    the average prediction of all these models. *)
Definition cv_predictions {A} (fit : list A -> list Q -> list A -> list Q) (feat : nat -> A) (tgt : nat -> Q) (n : nat)
    (ins outs : list nat) (holdouts : list (list nat)) (preds : list Q) : Prop :=
  length preds = n /\ Permutation (concat holdouts) ins /\
  (forall i, In i ins -> exists h p, In h holdouts /\ nth_error h p = Some i /\ ~ In i (without ins h) /\
     nth i preds 0 = nth p (fit (map feat (without ins h)) (map tgt (without ins h)) (map feat h)) 0) /\
  (forall q i, nth_error outs q = Some i ->
     nth i preds 0 = qmean (map (fun h => nth q (fit (map feat (without ins h)) (map tgt (without ins h)) (map feat outs)) 0) holdouts)).
