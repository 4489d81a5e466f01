(** * Specification vocabulary for multi-label data (independent of the model) *)
From Coq Require Import QArith List ZArith Bool Arith.
From Verif Require Import Base SpecCount SpecFilter.
Import ListNotations.
Open Scope Q_scope.

(** one list of classes below [K] and one row of [K] probabilities in [0,1] per example *)
Record ml_dataset (K : nat) (labels : list (list nat)) (pp : list (list Q)) : Prop := {
  ml_len : length labels = length pp;
  ml_ne : labels <> [];
  ml_lab : forall l k, In l labels -> In k l -> (k < K)%nat;
  ml_row : forall r, In r pp -> length r = K;
  ml_prob : forall r x, In r pp -> In x r -> 0 <= x /\ x <= 1 }.

(** example [e] is annotated with class [c] *)
Definition has_class (labels : list (list nat)) (e c : nat) : Prop := In c (nth e labels []).
(** some examples have class [c], some do not *)
Definition mixed (labels : list (list nat)) (c : nat) : Prop :=
  (exists e, (e < length labels)%nat /\ has_class labels e c) /\
  (exists e, (e < length labels)%nat /\ ~ has_class labels e c).

(** some class is present on some example and some class is absent from some example *)
Definition both_values (labels : list (list nat)) (K : nat) : Prop :=
  (exists e c, (e < length labels)%nat /\ (c < K)%nat /\ has_class labels e c) /\
  (exists e c, (e < length labels)%nat /\ (c < K)%nat /\ ~ has_class labels e c).

(** the annotation of class [c] disagrees with the model by the tolerance 1e-6: class present but predicted below
    1/2, or absent but predicted above (strictly more than the tolerance in the latter case) *)
Definition clearly_disagrees (labels : list (list nat)) (pp : list (list Q)) (e c : nat) : Prop :=
  (has_class labels e c /\ prob_of pp e c <= (1 # 2) - (1 # 2000000)) \/
  (~ has_class labels e c /\ (1 # 2) + (1 # 2000000) < prob_of pp e c).

(** [bl] / [bp] is the one-vs-rest problem of class [c]: label 1 for the examples with the class, probabilities
    of "not c" and "c" *)
Definition one_vs_rest (labels : list (list nat)) (pp : list (list Q)) (c : nat) (bl : list nat) (bp : list (list Q)) : Prop :=
  length bl = length labels /\ length bp = length pp /\
  (forall e, (e < length labels)%nat -> (nth e bl 0%nat = 1%nat /\ has_class labels e c) \/
                                        (nth e bl 0%nat = 0%nat /\ ~ has_class labels e c)) /\
  (forall e, (e < length pp)%nat -> nth e bp [] = [1 - prob_of pp e c; prob_of pp e c]).

(** every value of [s] is at most the corresponding value of [s'] *)
Definition below (s s' : list Q) : Prop :=
  length s = length s' /\ forall i, (i < length s)%nat -> nth i s 0 <= nth i s' 0.

(** number of examples that have / lack class [c] *)
Definition n_having (labels : list (list nat)) (c n : nat) : Prop :=
  holds_for (length labels) (fun e => has_class labels e c) n.
Definition n_lacking (labels : list (list nat)) (c n : nat) : Prop :=
  holds_for (length labels) (fun e => ~ has_class labels e c) n.
