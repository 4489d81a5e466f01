(** * Vocabulary for temperature scaling *)
From Coq Require Import Reals List Bool Arith Sorted.
From Verif Require Import Base SpecMultiannotator SpecAgreement.
Import ListNotations.
Open Scope R_scope.

Definition total (l : list R) : R := fold_right Rplus 0 l.
(** a row of class probabilities *)
Definition prob_row (K : nat) (row : list R) : Prop := length row = K /\ (forall x, In x row -> 0 <= x) /\ total row = 1.
(** [j] has the largest probability *)
Definition top_class (row : list R) (j : nat) : Prop := (j < length row)%nat /\ forall i, (i < length row)%nat -> nth i row 0 <= nth j row 0.

(** probabilities raised to the power 1/T and renormalised *)
Definition powered (T p : R) : R := if Req_EM_T p 0 then 0 else Rpower p (/ T).
Definition tempered (T : R) (row : list R) (k : nat) : R := powered T (nth k row 0) / total (map (powered T) row).

(** share of the annotators who gave label [k] to the example *)
Definition rshare (r : row) (k : nat) : R := INR (votes r k) / INR (n_given r).
(** cross entropy between these shares and class probabilities [p], in units of ln K, and its average over the examples *)
Definition cross_entropy (K : nat) (r : row) (p : nat -> R) : R :=
  total (map (fun k => rshare r k * - ln (Rmax (p k) (/ 10 ^ 30))) (seq 0 K)) / ln (INR K).
Definition mean_cross_entropy (K : nat) (t : list row) (pp : list (list R)) (T : R) : R :=
  total (map (fun i => cross_entropy K (nth i t []) (tempered T (nth i pp []))) (seq 0 (length t))) / INR (length t).

(** temperatures in increasing order, none below 1e-6 *)
Definition temperatures (l : list R) : Prop := StronglySorted Rlt l /\ forall x, In x l -> / 1000000 <= x.
