(** * Vocabulary for cleaning a dataset: dropping the flagged examples *)
From Coq Require Import QArith List Bool Arith.
From Verif Require Import Base SpecCount SpecFilter.
Import ListNotations.
Open Scope Q_scope.

(** what is left when the entries flagged by the mask are dropped (data[~mask]) *)
Fixpoint kept {A} (m : list bool) (l : list A) : list A :=
  match m, l with
  | b :: bs, x :: xs => if b then kept bs xs else x :: kept bs xs
  | _, _ => []
  end.
Definition rows_sum_to_one (pp : list (list Q)) : Prop := forall r, In r pp -> qsum r == 1.
