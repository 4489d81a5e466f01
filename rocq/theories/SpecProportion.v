(** * Specification vocabulary for C179 (independent of the model) *)
From Coq Require Import QArith List.
From Verif Require Import Base.
Import ListNotations.
Open Scope Q_scope.

(** the second row is the first one times a positive number *)
Definition scaled_row (r r' : list Q) : Prop := exists c, 0 < c /\ Forall2 (fun x y => y == c * x) r r'.
(** every row of the second matrix is the corresponding row of the first one times a positive number
    (each row has its own) *)
Definition same_proportions (m m' : list (list Q)) : Prop := Forall2 scaled_row m m'.
(** entries are not negative, and a row is either empty or does not vanish numerically (1e-100) *)
Definition countable (m : list (list Q)) : Prop :=
  forall r, In r m -> (forall x, In x r -> 0 <= x) /\ (qsum r == 0 \/ 1 # (10 ^ 100) <= qsum r).
