(** * Statements about the multi-label health summary *)
From Coq Require Import QArith List ZArith Bool Arith.
From Verif Require Import Base ModelMultilabel ModelMultiHealth SpecCount SpecFilter SpecMultilabel.
Import ListNotations.
Open Scope Q_scope.

(** the row of class [c] of the class table *)
Definition class_row (t : ml_summary) (c : nat) (r : quality_row) : Prop := In r (s_classes t) /\ q_class r = c.
(** what the two rows of class [c] of the table of common issues count *)
Definition common_counts (t : ml_summary) (c : nat) (given absent : nat) : Prop :=
  (exists q, In (c, true, given, q) (s_common t)) /\ (exists q, In (c, false, absent, q) (s_common t)).
(** the issue counts of the class table added up *)
Definition all_class_issues (t : ml_summary) : Z :=
  fold_right (fun r z => (q_issues r + q_inverse r + z)%Z) 0%Z (s_classes t).

(** the three parts of the summary tell the same story, given the per-class issues [cols] *)
Definition consistent (labels : list (list nat)) (K : nat) (cols : list (list bool)) (t : ml_summary) : Prop :=
  exists bad,
    holds_for (length labels) (fun e => exists c, (c < K)%nat /\ flagged (nth c cols []) e) bad /\
    s_score t * Qnat (length labels) == Qnat (length labels) - Qnat bad /\
    0 <= s_score t <= 1 /\
    Permutation.Permutation (map q_class (s_classes t)) (seq 0 K) /\ length (s_common t) = (2 * K)%nat /\
    (forall c, (c < K)%nat -> exists r given absent,
       class_row t c r /\ common_counts t c given absent /\
       q_issues r = Z.of_nat given /\ q_inverse r = Z.of_nat absent /\
       holds_for (length labels) (fun e => flagged (nth c cols []) e /\ has_class labels e c) given /\
       holds_for (length labels) (fun e => flagged (nth c cols []) e /\ ~ has_class labels e c) absent /\
       (given + absent <= bad)%nat) /\
    (Z.of_nat bad <= all_class_issues t)%Z.
