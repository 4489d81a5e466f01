(** * Specification vocabulary for synthetic noise and data valuation *)
From Coq Require Import QArith List Bool Arith.
From Verif Require Import Base.
Import ListNotations.
Open Scope Q_scope.

(** a sample of the Dirichlet distribution: a probability vector *)
Definition prob_vector (n : nat) (d : list Q) : Prop :=
  length d = n /\ (forall x, In x d -> 0 <= x) /\ qsum d == 1.
(** numbers drawn from the unit interval *)
Definition unit_stream (rs : nat -> Q) : Prop := forall i, 0 <= rs i /\ rs i <= 1.

(** sampling without replacement from a list of distinct positions *)
Definition samples (choice : nat -> list nat -> nat -> list nat) : Prop :=
  forall k idx size, NoDup idx -> (size <= length idx)%nat ->
  length (choice k idx size) = size /\ NoDup (choice k idx size) /\ (forall i, In i (choice k idx size) -> In i idx).

(** number of examples with true label [k] and (noisy) label [i] *)
Fixpoint n_pairs (i k : nat) (labels true_labels : list nat) : nat :=
  match labels, true_labels with
  | l :: labels', t :: true' => ((if Nat.eqb l i && Nat.eqb t k then 1 else 0) + n_pairs i k labels' true')%nat
  | _, _ => 0%nat
  end.

(** ** data valuation: the K-nearest-neighbour Shapley value in closed form.
    What example [i] contributes to the prediction of an example with label [yt] and neighbour list [idx]:
    nothing if it is not among the first [k] neighbours, otherwise whether it agrees with [yt], compared with
    whether the k-th neighbour agrees. *)
Definition agrees (y : list nat) (i yt : nat) : Q := if Nat.eqb (nth i y 0%nat) yt then 1 else 0.
Definition contribution (y : list nat) (k i : nat) (yt : nat) (idx : list nat) : Q :=
  if existsb (Nat.eqb i) (firstn k idx) then agrees y i yt - agrees y (nth (k - 1) idx 0%nat) yt else 0.
Definition total_contribution (y : list nat) (graph : list (list nat)) (k i : nat) : Q :=
  qsum (map (fun a => contribution y k i (nth a y 0%nat) (nth a graph [])) (seq 0 (length y))).
(** a neighbour graph over [n] examples with at least [k] neighbours per example *)
Definition knn_graph_ok (n k : nat) (graph : list (list nat)) : Prop :=
  length graph = n /\ (forall idx, In idx graph -> (k <= length idx)%nat /\ forall j, In j idx -> (j < n)%nat).
