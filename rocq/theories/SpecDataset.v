(** * Vocabulary for the properties of the class-level dataset summaries *)
From Coq Require Import QArith List Bool Arith ZArith Permutation Sorted.
From Verif Require Import Base.
Import ListNotations.
Open Scope Q_scope.

(** probability of given class [k], of true class [k], and of a wrong label, under a joint distribution of
    given (rows) and true (columns) classes *)
Definition pr_given (joint : list (list Q)) (k : nat) : Q :=
  qsum (tab (length joint) (fun y => mget joint k y)).
Definition pr_true (joint : list (list Q)) (k : nat) : Q :=
  qsum (tab (length joint) (fun s => mget joint s k)).
Definition pr_wrong (joint : list (list Q)) : Q :=
  qsum (tab (length joint) (fun s => qsum (tab (length joint) (fun y =>
    if Nat.eqb s y then 0 else mget joint s y)))).
Definition pr_correct (joint : list (list Q)) : Q :=
  qsum (tab (length joint) (fun k => mget joint k k)).
(** the probability that the two classes are confused, in either direction *)
Definition pr_confused (joint : list (list Q)) (a b : nat) : Q := mget joint a b + mget joint b a.
