(** * Vocabulary for ensembles weighted by log loss *)
From Coq Require Import QArith Reals Qreals List Bool Arith.
From Verif Require Import Base SpecTemperature.
Import ListNotations.
Open Scope R_scope.

(** every class occurs among the labels *)
Definition all_classes (K : nat) (labels : list nat) : Prop := forall k, (k < K)%nat -> In k labels.
(** probability of class [k] in a row after raising every entry to at least 1e-6 *)
Definition floored (row : list Q) (k : nat) : R :=
  Rmax (Q2R (nth k row 0%Q)) (/ 1000000) / total (map (fun p => Rmax (Q2R p) (/ 1000000)) row).
(** log loss of probabilities [p e] given to the label of example [e], bounded away from 0 and 1 by [eps] *)
Definition log_loss_of (eps : R) (n : nat) (p : nat -> R) : R :=
  total (map (fun e => - ln (Rmax eps (Rmin (1 - eps) (p e)))) (seq 0 n)) / INR n.
Definition model_loss (eps : R) (labels : list nat) (pp : list (list Q)) : R :=
  log_loss_of eps (length labels) (fun e => floored (nth e pp []) (nth e labels 0%nat)).
(** weights proportional to exp(-t * loss) *)
Definition loss_weight (t : R) (loss : nat -> R) (m i : nat) : R :=
  exp (- t * loss i) / total (map (fun j => exp (- t * loss j)) (seq 0 m)).
(** log loss of the weighted average of the models' predictions *)
Definition average_loss (eps : R) (labels : list nat) (pps : list (list (list Q))) (w : nat -> R) : R :=
  log_loss_of eps (length labels)
    (fun e => total (map (fun i => w i * Q2R (nth (nth e labels 0%nat) (nth e (nth i pps []) []) 0%Q)) (seq 0 (length pps)))).
