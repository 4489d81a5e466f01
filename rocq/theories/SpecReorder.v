(** * Vocabulary for reordering multi-label data *)
From Coq Require Import QArith List Arith.
From Verif Require Import Base ModelFilter SpecCount SpecFilter SpecMultilabel SpecSymmetry.
Import ListNotations.

(** no ties (C114) in any of the one-vs-rest problems *)
Definition ml_no_ties (flt : filter_method) (labels : list (list nat)) (pp : list (list Q)) (K : nat) : Prop :=
  forall c bl bp, (c < K)%nat -> one_vs_rest labels pp c bl bp -> no_ties flt bl bp 2.
