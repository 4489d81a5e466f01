(** * Comparing the batched search with the standard one (property C163) *)
From Coq Require Import QArith List Bool Arith.
From Verif Require Import Base SpecCount SpecFilter.
Import ListNotations.
Open Scope Q_scope.

(** no example has another class tied with its label, or ahead of it by 1e-6 or less *)
Definition clear_margins (labels : list nat) (pp : list (list Q)) : Prop :=
  forall e j, (e < length labels)%nat -> (j < length (row_of pp e))%nat -> j <> label_of labels e ->
    prob_of pp e j < prob_of pp e (label_of labels e) \/
    prob_of pp e (label_of labels e) + (1 # 1000000) < prob_of pp e j.

(** what the standard count sees and the batched one does not: an example confidently counted into another class
    than its label although its most likely class is below the threshold [thr] of that class *)
Definition overlooked (thr : list Q) (labels : list nat) (pp : list (list Q)) (e : nat) : Prop :=
  (exists j, counted_as thr (row_of pp e) j /\ j <> label_of labels e) /\
  clearly_beaten labels pp e /\
  forall j, most_likely (row_of pp e) j -> ~ reaches thr (row_of pp e) j.
