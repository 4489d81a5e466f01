(** * Vocabulary: tables in different containers *)
From Coq Require Import QArith List ZArith Bool Arith Permutation.
From Verif Require Import Base ModelChecks ModelIdentifier.
Import ListNotations.
Open Scope nat_scope.

(** the rows of a table of integers with the columns given, all of length [n] *)
Definition rows_of (n : nat) (columns : list (list Z)) : list (list Z) := tab n (fun i => map (fun c => nth i c 0%Z) columns).
(** the documented meaning (identifier_column.py:15-20): the values are c, c+1, ..., one for each row *)
Definition numbering (col : list Z) : Prop := exists c, Permutation col (tab (length col) (fun i => c + Z.of_nat i)%Z).
