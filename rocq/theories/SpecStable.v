(** * Vocabulary for small differences in the predicted probabilities *)
From Coq Require Import QArith Qabs List Bool Arith.
From Verif Require Import Base ModelCount ModelFilter ModelRank SpecCount SpecFilter.
Import ListNotations.
Open Scope Q_scope.

(** no probability differs by more than [d] *)
Definition close (d : Q) (pp pp' : list (list Q)) : Prop :=
  length pp' = length pp /\ forall e k, Qabs (prob_of pp' e k - prob_of pp e k) <= d.

(** No comparison is nearly tied: every probability is more than [2 d] away from the threshold of its class, and from
    being ahead of the given label by exactly the tolerance; and where two classes reach their thresholds the most
    likely class is ahead by more than [2 d]. *)
Record clear_cut (d : Q) (K : nat) (labels : list nat) (pp : list (list Q)) : Prop := {
  cc_thr : forall e k, (e < length labels)%nat -> (k < K)%nat ->
    2 * d < Qabs (prob_of pp e k - (nth k (get_confident_thresholds labels pp K) 0 - (1 # 1000000)));
  cc_label : forall e j, (e < length labels)%nat -> (j < K)%nat -> j <> label_of labels e ->
    2 * d < Qabs (prob_of pp e j - (prob_of pp e (label_of labels e) + (1 # 1000000)));
  cc_top : forall e, (e < length labels)%nat ->
    (exists a b, a <> b /\ reaches (get_confident_thresholds labels pp K) (row_of pp e) a /\
                 reaches (get_confident_thresholds labels pp K) (row_of pp e) b) ->
    exists j, (j < K)%nat /\ forall i, (i < K)%nat -> i <> j -> prob_of pp e i + 2 * d < prob_of pp e j }.

(** no two examples are nearly tied in the values by which a filter selects *)
Definition far_apart (d : Q) (flt : filter_method) (labels : list nat) (pp : list (list Q)) (K : nat) : Prop :=
  let apart (gap : Q) (rel : nat -> nat -> Prop) (f : nat -> Q) :=
    forall e e', (e < length labels)%nat -> (e' < length labels)%nat -> rel e e' -> e <> e' -> gap < Qabs (f e - f e') in
  let same_class e e' := label_of labels e = label_of labels e' in
  let own := fun e => prob_of pp e (label_of labels e) in
  let margins := forall j, (j < K)%nat ->
    apart (4 * d) (fun e e' => same_class e e' /\ label_of labels e <> j) (fun e => prob_of pp e j - prob_of pp e (label_of labels e)) in
  match flt with
  | ConfidentLearning | PredictedNeqGiven => True
  | PruneByClass => apart (2 * d) same_class own
  | PruneByNoiseRate => margins
  | Both => apart (2 * d) same_class own /\ margins
  | LowSelfConfidence => apart (2 * d) (fun _ _ => True) own
  | LowNormalizedMargin => forall s, get_label_quality_scores labels pp K NormalizedMargin false = Ok s ->
      apart (2 * d) (fun _ _ => True) (fun e => nth e s 0)
  end.
