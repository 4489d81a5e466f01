(** * Specification vocabulary for the score properties (independent of the model) *)
From Coq Require Import QArith Qabs List ZArith Bool Arith.
From Verif Require Import Base SpecCount SpecFilter.
Import ListNotations.
Open Scope Q_scope.

(** every row is a probability distribution *)
Definition row_stochastic (pp : list (list Q)) : Prop :=
  forall r, In r pp -> (forall x, In x r -> 0 <= x) /\ qsum r == 1.

(** [b] is the largest probability of [row] among the classes other than [l] *)
Definition best_other (row : list Q) (l : nat) (b : Q) : Prop :=
  (exists j, (j < length row)%nat /\ j <> l /\ nth j row 0 = b) /\
  (forall j, (j < length row)%nat -> j <> l -> nth j row 0 <= b).

(** the given label is at least as likely as every other class *)
Definition label_wins (row : list Q) (l : nat) : Prop :=
  forall j, (j < length row)%nat -> nth j row 0 <= nth l row 0.

(** [v] lies between the smallest and the largest element of [l] *)
Definition between (l : list Q) (v : Q) : Prop :=
  forall lo hi, (forall x, In x l -> lo <= x /\ x <= hi) -> lo <= v /\ v <= hi.
