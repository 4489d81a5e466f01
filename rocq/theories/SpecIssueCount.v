(** * Vocabulary for C91 (independent of the model) *)
From Coq Require Import QArith Qabs List ZArith Bool Arith.
From Verif Require Import Base SpecCount.
Import ListNotations.
Open Scope Q_scope.

(** the entries of a K x K matrix of counts that are not on the diagonal, added up *)
Definition off_diagonal_total (K : nat) (z : list (list Z)) : Z :=
  zsum (tab K (fun i => zsum (tab K (fun j => if Nat.eqb i j then 0 else zget z i j)%Z))).

(** the number of mislabelled examples a matrix of counts suggests: in each given class, the share of the
    counts that is off the diagonal, times the size of the class *)
Definition suggested_issues (K : nat) (c : list (list Q)) (labels : list nat) : Q :=
  qsum (tab K (fun i =>
    Qnat (n_labelled i labels) * (qsum (tab K (fun j => if Nat.eqb i j then 0 else mget c i j))
                                  / qsum (nth i c [])))).
