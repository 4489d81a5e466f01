(** * Vocabulary for reordering the examples of multi-annotator data (C141) *)
From Coq Require Import QArith List.
Import ListNotations.
Open Scope Q_scope.

(** the same number, or NaN in both *)
Definition same_value (a b : option Q) : Prop :=
  match a, b with Some x, Some y => x == y | None, None => True | _, _ => False end.
