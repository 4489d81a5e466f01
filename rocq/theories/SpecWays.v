(** * Vocabulary for C181: the ways of calling the functions of cleanlab/dataset.py *)
From Coq Require Import QArith List.
From Verif Require Import Base ModelDataset.
Import ListNotations.
Open Scope Q_scope.

Definition by_data (K : nat) (labels : list nat) (pp : list (list Q)) : inputs :=
  {| in_labels := Some labels; in_pred_probs := Some pp; in_K := K; in_num_examples := None;
     in_joint := None; in_confident_joint := None |}.
Definition by_joint (K : nat) (joint : list (list Q)) (num_examples : Q) : inputs :=
  {| in_labels := None; in_pred_probs := None; in_K := K; in_num_examples := Some num_examples;
     in_joint := Some joint; in_confident_joint := None |}.
Definition by_confident_joint (K : nat) (cj : list (list Q)) : inputs :=
  {| in_labels := None; in_pred_probs := None; in_K := K; in_num_examples := None;
     in_joint := None; in_confident_joint := Some cj |}.
Definition by_labels_and_confident_joint (K : nat) (labels : list nat) (cj : list (list Q)) : inputs :=
  {| in_labels := Some labels; in_pred_probs := None; in_K := K; in_num_examples := None;
     in_joint := None; in_confident_joint := Some cj |}.
(** the same call with a confident joint *)
Definition with_confident_joint (a : inputs) (cj : list (list Q)) : inputs :=
  {| in_labels := in_labels a; in_pred_probs := in_pred_probs a; in_K := in_K a; in_num_examples := in_num_examples a;
     in_joint := in_joint a; in_confident_joint := Some cj |}.
