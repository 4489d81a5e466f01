(** * Specification vocabulary for the multi-label counting functions (independent of the model) *)
From Coq Require Import QArith List ZArith Bool Arith.
From Verif Require Import Base SpecCount SpecFilter SpecMultilabel.
Import ListNotations.
Open Scope Q_scope.

(** the predicted probabilities of class [c] on the examples that have it *)
Fixpoint probs_present (c : nat) (labels : list (list nat)) (pp : list (list Q)) : list Q :=
  match labels, pp with
  | l :: ls, r :: rs => if in_dec Nat.eq_dec c l then nth c r 0 :: probs_present c ls rs else probs_present c ls rs
  | _, _ => []
  end.
(** the predicted probabilities of the absence of class [c] on the examples that lack it *)
Fixpoint probs_absent (c : nat) (labels : list (list nat)) (pp : list (list Q)) : list Q :=
  match labels, pp with
  | l :: ls, r :: rs => if in_dec Nat.eq_dec c l then probs_absent c ls rs else (1 - nth c r 0) :: probs_absent c ls rs
  | _, _ => []
  end.

(** the threshold the documentation promises for a list of probabilities: their average, but at least 2e-6;
    unreachable when there are none *)
Definition threshold_of (ps : list Q) (t : Q) : Prop :=
  (exists a, is_average ps a /\ t == qmax a (2 # 1000000)) \/ (ps = [] /\ t == 2).

(** every class below [K] is given to some example *)
Definition all_occur (labels : list (list nat)) (K : nat) : Prop :=
  forall c, (c < K)%nat -> exists e, (e < length labels)%nat /\ has_class labels e c.

(** a confident joint per class that can be calibrated against the labels: non-negative, and a row only vanishes when
    no example belongs to it.  [cj] = [[a;b];[p;q]]: row 0 the examples lacking the class *)
Definition usable_joint (labels : list (list nat)) (c : nat) (cj : list (list Q)) : Prop :=
  exists a b p q, cj = [[a; b]; [p; q]] /\ 0 <= a /\ 0 <= b /\ 0 <= p /\ 0 <= q /\
    ((exists e, (e < length labels)%nat /\ ~ has_class labels e c) -> 1 # (10 ^ 100) <= a + b) /\
    ((exists e, (e < length labels)%nat /\ has_class labels e c) -> 1 # (10 ^ 100) <= p + q).

(** the model's side on class [c] differs from the annotation: present though predicted at most 1/2 likely, or absent
    though predicted more than 1/2 likely *)
Definition disagrees (labels : list (list nat)) (pp : list (list Q)) (e c : nat) : Prop :=
  (has_class labels e c /\ prob_of pp e c <= 1 # 2) \/ (~ has_class labels e c /\ (1 # 2) < prob_of pp e c).
