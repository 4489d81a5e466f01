(** * Vocabulary for noise estimated from a confident joint of counts *)
From Coq Require Import QArith List ZArith Bool Arith.
From Verif Require Import Base SpecCount.
Import ListNotations.
Open Scope Q_scope.

(** number of examples counted with given class [s], and with true class [y] *)
Definition given_total (K : nat) (cj : list (list Z)) (s : nat) : Q :=
  qsum (tab K (fun y => inject_Z (zget cj s y))).
Definition true_total (K : nat) (cj : list (list Z)) (y : nat) : Q :=
  qsum (tab K (fun s => inject_Z (zget cj s y))).

(** a K x K table of counts: every example is counted once, in the row of its given label *)
Definition counts_all (K : nat) (labels : list nat) (cj : list (list Z)) : Prop :=
  length cj = K /\ (forall r, In r cj -> length r = K) /\
  (forall i j, (i < K)%nat -> (j < K)%nat -> (0 <= zget cj i j)%Z) /\
  (forall i, (i < K)%nat -> given_total K cj i == Qnat (n_labelled i labels)).

(** no class is less than one in 10^5 of the examples (neither as given nor as true class), at least one in 10^5
    examples of a true class is labelled correctly, and no noise rate exceeds 99.99% *)
Definition moderate_noise (K n : nat) (cj : list (list Z)) : Prop :=
  (forall k, (k < K)%nat ->
     Qnat n <= 100000 * true_total K cj k /\ Qnat n <= 100000 * given_total K cj k /\
     true_total K cj k <= 100000 * inject_Z (zget cj k k)) /\
  (forall s y, (s < K)%nat -> (y < K)%nat -> s <> y ->
     inject_Z (zget cj s y) <= (9999 # 10000) * given_total K cj s /\
     inject_Z (zget cj s y) <= (9999 # 10000) * true_total K cj y).

(** the estimates are the proportions in the table of counts *)
Definition proportions (K n : nat) (cj : list (list Z)) (py : list Q) (N I : list (list Q)) : Prop :=
  length py = K /\ length N = K /\ length I = K /\
  (forall y, (y < K)%nat -> nth y py 0 == true_total K cj y / Qnat n) /\
  (forall s y, (s < K)%nat -> (y < K)%nat ->
     mget N s y == inject_Z (zget cj s y) / true_total K cj y /\
     mget I y s == inject_Z (zget cj s y) / given_total K cj s).
