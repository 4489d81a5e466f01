(** * Class imbalance (property C168) *)
From Coq Require Import QArith List Bool Arith.
From Verif Require Import Base SpecCount SpecFilter.
Import ListNotations.
Open Scope Q_scope.

(** the primed data set contains every example of the other one, in any order, as often as [c] says for its class;
    [f] tells which example a position of the primed data set is a copy of *)
Definition resampled (c f : nat -> nat) (labels : list nat) (pp : list (list Q)) (labels' : list nat) (pp' : list (list Q)) : Prop :=
  length labels' = length pp' /\
  (forall e', (e' < length labels')%nat ->
     (f e' < length labels)%nat /\ label_of labels' e' = label_of labels (f e') /\ row_of pp' e' = row_of pp (f e')) /\
  (forall e, (e < length labels)%nat ->
     (1 <= c (label_of labels e))%nat /\ holds_for (length labels') (fun e' => f e' = e) (c (label_of labels e))).
