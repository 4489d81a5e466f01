(** * The Shapley value of the examples of a data set, for the accuracy of a nearest-neighbour classifier *)
From Coq Require Import QArith List Bool Arith Permutation.
From Verif Require Import Base.
Import ListNotations.
Open Scope Q_scope.

(** ** The Shapley value of a game: the gain from adding a player, averaged over all orders of the players *)
Fixpoint before (p : nat) (order : list nat) : list nat :=
  match order with [] => [] | x :: r => if Nat.eqb x p then [] else x :: before p r end.
(** what player [p] adds to the players before it *)
Definition gain (worth : list nat -> Q) (p : nat) (order : list nat) : Q := worth (p :: before p order) - worth (before p order).
(** a list of all orders of the players *)
Definition all_orders (players : list nat) (orders : list (list nat)) : Prop :=
  NoDup orders /\ forall q, In q orders <-> Permutation q players.
Definition shapley_value (orders : list (list nat)) (worth : list nat -> Q) (p : nat) : Q := qmean (map (gain worth p) orders).

(** ** The game of K-nearest-neighbour classification (Jia et al. 2019, equation 5): trained on the examples in [s],
    the classifier predicts the label of example [i] with the probability that its [K] nearest neighbours in [s] give *)
(** [rank] lists the other examples, nearest first *)
Definition knn_worth (y : list nat) (K : nat) (rank : list nat) (i : nat) (s : list nat) : Q :=
  let nearest := firstn K (filter (fun j => mem j s) rank) in
  Qnat (length (filter (fun j => Nat.eqb (nth j y 0%nat) (nth i y 0%nat)) nearest)) / Qnat K.
(** the mean over all examples *)
Definition knn_accuracy (y : list nat) (K : nat) (ranks : list (list nat)) (s : list nat) : Q :=
  qmean (map (fun i => knn_worth y K (nth i ranks []) i s) (seq 0 (length y))).
(** [ranks] orders the other examples for every example, and continues the first [k] neighbours in the graph *)
Definition rankings (n k : nat) (graph ranks : list (list nat)) : Prop :=
  length ranks = n /\ forall i, (i < n)%nat ->
    Permutation (i :: nth i ranks []) (seq 0 n) /\ firstn k (nth i graph []) = firstn k (nth i ranks []).
