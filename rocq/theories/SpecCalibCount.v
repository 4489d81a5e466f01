(** * Comparing the calibrated number of issues with the uncalibrated one (property C164) *)
From Coq Require Import QArith List Bool Arith.
From Verif Require Import Base SpecCount SpecFilter.
Import ListNotations.
Open Scope Q_scope.

(** class [k] has examples, and every one of them is confidently counted into another class *)
Definition all_elsewhere (thr : list Q) (labels : list nat) (pp : list (list Q)) (k : nat) : Prop :=
  In k labels /\
  forall e, (e < length labels)%nat -> label_of labels e = k ->
    exists j, counted_as thr (row_of pp e) j /\ j <> k.
