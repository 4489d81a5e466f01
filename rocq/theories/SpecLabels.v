(** * Specification vocabulary for label formats *)
From Coq Require Import List Bool Arith Sorted.
Import ListNotations.

(** a boolean total order *)
Record total_order {A : Type} (leb : A -> A -> bool) : Prop := {
  to_total : forall x y, leb x y = true \/ leb y x = true;
  to_antisym : forall x y, leb x y = true -> leb y x = true -> x = y;
  to_trans : forall x y z, leb x y = true -> leb y z = true -> leb x z = true }.

(** a 0/1 matrix with [K] columns *)
Definition binary_matrix (K : nat) (m : list (list nat)) : Prop :=
  forall row, In row m -> length row = K /\ forall x, In x row -> x = 0 \/ x = 1.

(** [inv] is a dictionary {0: name0, ..., K-1: nameK-1} with distinct names *)
Definition class_names {A} (inv : list (nat * A)) (names : list A) : Prop :=
  inv = combine (seq 0 (length names)) names /\ NoDup names.
