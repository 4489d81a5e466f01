(** * Specification vocabulary for the properties about reordering, renaming and repeating data *)
From Coq Require Import QArith List Bool Arith Permutation.
From Verif Require Import Base ModelFilter ModelRank SpecCount SpecFilter.
Import ListNotations.
Open Scope Q_scope.

(** the examples numbered by [order], in this order *)
Definition pick {A} (d : A) (order : list nat) (l : list A) : list A := map (fun e => nth e l d) order.

(** no two examples are tied in the values by which a filter selects *)
Definition no_ties (flt : filter_method) (labels : list nat) (pp : list (list Q)) (K : nat) : Prop :=
  let distinct (rel : nat -> nat -> Prop) (f : nat -> Q) :=
    forall e e', (e < length labels)%nat -> (e' < length labels)%nat -> rel e e' -> f e == f e' -> e = e' in
  let same_class e e' := label_of labels e = label_of labels e' in
  let own := fun e => prob_of pp e (label_of labels e) in
  let margins := forall j, (j < K)%nat ->
    distinct (fun e e' => same_class e e' /\ label_of labels e <> j) (fun e => prob_of pp e j - prob_of pp e (label_of labels e)) in
  match flt with
  | ConfidentLearning | PredictedNeqGiven => True
  | PruneByClass => distinct same_class own
  | PruneByNoiseRate => margins
  | Both => distinct same_class own /\ margins
  | LowSelfConfidence => distinct (fun _ _ => True) own
  | LowNormalizedMargin => forall s, get_label_quality_scores labels pp K NormalizedMargin false = Ok s ->
      distinct (fun _ _ => True) (fun e => nth e s 0)
  end.

(** class [k] is renamed to the [k]-th entry of [names], in the labels and in the columns *)
Definition renamed_labels (names labels : list nat) : list nat := map (fun l => nth l names 0%nat) labels.
Definition renamed_row (names : list nat) (row row' : list Q) : Prop :=
  length row' = length row /\ forall k, (k < length row)%nat -> nth (nth k names 0%nat) row' 0 = nth k row 0.

(** no row attains its largest probability twice, and no class is ahead of the given label by exactly 1e-6 *)
Definition decided (labels : list nat) (pp : list (list Q)) : Prop :=
  forall e, (e < length labels)%nat ->
    (forall i j, (i < length (row_of pp e))%nat -> (j < length (row_of pp e))%nat -> i <> j -> prob_of pp e i == prob_of pp e j ->
       exists h, (h < length (row_of pp e))%nat /\ prob_of pp e i < prob_of pp e h) /\
    (forall j, (j < length (row_of pp e))%nat -> ~ prob_of pp e (label_of labels e) + (1 # 1000000) == prob_of pp e j).

(** the data set repeated [c] times *)
Definition copies {A} (c : nat) (l : list A) : list A := concat (repeat l c).
