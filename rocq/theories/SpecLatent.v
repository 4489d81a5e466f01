(** * Specification vocabulary for the latent estimates (independent of the model) *)
From Coq Require Import QArith Qabs List ZArith Bool Arith.
From Verif Require Import Base.
Import ListNotations.
Open Scope Q_scope.

(** K x K matrix of non-negative numbers *)
Definition nonneg_square (K : nat) (m : list (list Q)) : Prop :=
  length m = K /\ (forall r, In r m -> length r = K) /\ (forall r x, In r m -> In x r -> 0 <= x).

(** K x K matrix of non-negative numbers whose columns sum to one: [mget m i j] is the probability of [i]
    given [j] *)
Definition column_stochastic (K : nat) (m : list (list Q)) : Prop :=
  nonneg_square K m /\ forall j, (j < K)%nat -> qsum (tab K (fun i => mget m i j)) == 1.

(** strictly positive numbers summing to one *)
Definition positive_distribution (K : nat) (p : list Q) : Prop :=
  length p = K /\ (forall x, In x p -> 0 < x) /\ qsum p == 1.

(** joint probability of given class [s] and true class [y] *)
Definition joint_p (N : list (list Q)) (py : list Q) (s y : nat) : Q := mget N s y * nth y py 0.
(** probability of given class [s] *)
Definition given_p (K : nat) (N : list (list Q)) (py : list Q) (s : nat) : Q :=
  qsum (tab K (fun y => joint_p N py s y)).

(** a confident joint made of counts: every entry is zero or at least one, every given class and every true
    class has some example counted, and the total number of counted examples is at most [bound] *)
Definition count_matrix (K : nat) (bound : Q) (cj : list (list Q)) : Prop :=
  nonneg_square K cj /\
  (forall r x, In r cj -> In x r -> x == 0 \/ 1 <= x) /\
  (forall s, (s < K)%nat -> 0 < qsum (tab K (fun y => mget cj s y))) /\
  (forall y, (y < K)%nat -> 0 < qsum (tab K (fun s => mget cj s y))) /\
  qsum (tab K (fun s => qsum (tab K (fun y => mget cj s y)))) <= bound.
