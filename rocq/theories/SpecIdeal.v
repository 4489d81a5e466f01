(** * Vocabulary for label errors known from true labels *)
From Coq Require Import QArith List ZArith Bool Arith.
From Verif Require Import Base SpecCount SpecFilter.
Import ListNotations.
Open Scope Q_scope.

(** the given label of example [e] is not its true class *)
Definition wrong (labels tl : list nat) (e : nat) : Prop :=
  (e < length labels)%nat /\ label_of labels e <> nth e tl 0%nat.

(** number of examples with given label [i] and true class [j]; number of wrong labels *)
Fixpoint n_pair (i j : nat) (labels tl : list nat) : nat :=
  match labels, tl with
  | l :: ls, t :: ts => (if Nat.eqb l i then if Nat.eqb t j then 1 else 0 else 0) + n_pair i j ls ts
  | _, _ => 0
  end.
Fixpoint n_wrong (labels tl : list nat) : nat :=
  match labels, tl with
  | l :: ls, t :: ts => (if Nat.eqb l t then 0 else 1) + n_wrong ls ts
  | _, _ => 0
  end.
(** the table of these counts *)
Definition tally (K : nat) (labels tl : list nat) : list (list Z) :=
  tab K (fun i => tab K (fun j => Z.of_nat (n_pair i j labels tl))).

(** Every example is predicted to be of its true class, by more than the tolerance 1e-6, and with at least the
    probability (up to the tolerance) that examples given this class as label get for it on average. *)
Record ideal (K : nat) (labels tl : list nat) (pp : list (list Q)) : Prop := {
  id_len : length tl = length labels;
  id_class : forall e, (e < length labels)%nat -> In (nth e tl 0%nat) labels;
  id_lead : forall e k, (e < length labels)%nat -> (k < K)%nat -> k <> nth e tl 0%nat ->
    prob_of pp e k + (1 # 1000000) < prob_of pp e (nth e tl 0%nat);
  id_sure : forall e a, (e < length labels)%nat -> is_average (own_probs (nth e tl 0%nat) labels pp) a ->
    a <= prob_of pp e (nth e tl 0%nat) + (1 # 1000000) }.

(** The predictions depend on the true class only: class [k] gets probability [N k y] on examples of true class [y] *)
Definition class_conditional (K : nat) (tl : list nat) (pp : list (list Q)) (N : nat -> nat -> Q) : Prop :=
  forall e k, (e < length tl)%nat -> (k < K)%nat -> prob_of pp e k == N k (nth e tl 0%nat).
(** each diagonal entry is the largest of its column (strictly) and of its row *)
Definition diagonal_dominates (K : nat) (N : nat -> nat -> Q) : Prop :=
  forall j k, (j < K)%nat -> (k < K)%nat -> k <> j -> N k j + (1 # 1000000) < N j j /\ N j k <= N j j.

(** every class that occurs as a given label has at least [m] correctly labelled examples *)
Definition correct_at_least (m : nat) (labels tl : list nat) : Prop :=
  forall k, In k labels -> (m <= n_pair k k labels tl)%nat.

(** examples with a wrong label have a lower probability for it than examples with a correct one have, ... *)
Definition wrong_less_sure (labels tl : list nat) (pp : list (list Q)) : Prop :=
  forall e e', wrong labels tl e -> (e' < length labels)%nat -> ~ wrong labels tl e' ->
    prob_of pp e (label_of labels e) < prob_of pp e' (label_of labels e').
(** ... at least among the examples with the same given label *)
Definition wrong_less_sure_in_class (labels tl : list nat) (pp : list (list Q)) : Prop :=
  forall e e', wrong labels tl e -> (e' < length labels)%nat -> ~ wrong labels tl e' ->
    label_of labels e = label_of labels e' ->
    prob_of pp e (label_of labels e) < prob_of pp e' (label_of labels e').
(** the margin of class [y] over the given label is larger on wrongly labelled examples of true class [y] than on
    the other examples with the same given label *)
Definition margins_separate (labels tl : list nat) (pp : list (list Q)) : Prop :=
  forall e e', wrong labels tl e -> (e' < length labels)%nat -> label_of labels e' = label_of labels e ->
    nth e' tl 0%nat <> nth e tl 0%nat ->
    prob_of pp e' (nth e tl 0%nat) - prob_of pp e' (label_of labels e) <
    prob_of pp e (nth e tl 0%nat) - prob_of pp e (label_of labels e).
(** probability [a] for the true class and [b] for each other class *)
Definition uniform_predictions (K : nat) (tl : list nat) (pp : list (list Q)) (a b : Q) : Prop :=
  class_conditional K tl pp (fun k y => if Nat.eqb k y then a else b).
