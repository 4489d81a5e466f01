(** * Vocabulary for predictions that agree less with the given labels *)
From Coq Require Import QArith List Bool Arith.
From Verif Require Import Base SpecCount SpecFilter.
Import ListNotations.
Open Scope Q_scope.

(** in [pp'] no given label has more probability, and no other class less, than in [pp] *)
Definition less_agreement (K : nat) (labels : list nat) (pp pp' : list (list Q)) : Prop :=
  forall e k, (e < length labels)%nat -> (k < K)%nat ->
    if Nat.eqb k (label_of labels e) then prob_of pp' e k <= prob_of pp e k else prob_of pp e k <= prob_of pp' e k.
