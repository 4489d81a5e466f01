(** * Vocabulary for two exclusive classes treated as multi-label data *)
From Coq Require Import QArith List Arith.
From Verif Require Import Base SpecFilter.
Import ListNotations.
Open Scope Q_scope.

(** every example has its one class as its list of classes *)
Definition as_sets (labels : list nat) : list (list nat) := map (fun l => [l]) labels.
(** no example of class 0 has its other class ahead by exactly the tolerance *)
Definition no_exact_gap (labels : list nat) (pp : list (list Q)) : Prop :=
  forall e, (e < length labels)%nat -> label_of labels e = 0%nat -> ~ prob_of pp e 0 + (1 # 1000000) == prob_of pp e 1.
