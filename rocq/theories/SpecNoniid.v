(** * Vocabulary for the properties of the non-IID check *)
From Coq Require Import QArith Qabs Reals List Bool Arith Permutation.
From Verif Require Import Base.
Import ListNotations.
Open Scope Q_scope.

(** number of the listed values that satisfy a test *)
Definition how_many {A} (test : A -> bool) (l : list A) : nat := length (filter test l).

(** fraction of the given neighbour distances that are at most [x] *)
Definition neighbour_cdf (dist : list nat) (x : nat) : Q :=
  Qnat (how_many (fun d => Nat.leb d x) dist) / Qnat (length dist).

(** all pairs of different positions a < b < N, and the fraction of them at distance at most [x] *)
Definition all_pairs (N : nat) : list (nat * nat) := flat_map (fun b => map (fun a => (a, b)) (seq 0 b)) (seq 0 N).
Definition pair_cdf (N x : nat) : Q :=
  Qnat (how_many (fun p => Nat.leb (snd p - fst p) x) (all_pairs N)) / Qnat (length (all_pairs N)).

(** fraction of the other examples at index distance at most [x] from example [i] *)
Definition others (N i : nat) : list nat := filter (fun j => negb (Nat.eqb j i)) (seq 0 N).
Definition within (x i j : nat) : bool := Nat.leb i (j + x) && Nat.leb j (i + x).
Definition example_cdf (N i x : nat) : Q := Qnat (how_many (within x i) (others N i)) / Qnat (N - 1).

(** area under the curve through the points (x, example_cdf x), from 0 to [x] *)
Fixpoint example_area (N i x : nat) : Q :=
  match x with
  | O => 0
  | S y => example_area N i y + (example_cdf N i y + example_cdf N i (S y)) / 2
  end.

(** the neighbour table of a dataset of size N: every row non-empty, all neighbours other examples *)
Definition neighbour_table (nb : list (list nat)) : Prop :=
  forall i, (i < length nb)%nat -> nth i nb [] <> [] /\ forall j, In j (nth i nb []) -> (j < length nb)%nat /\ j <> i.

(** all index distances between examples and their neighbours *)
Definition distances_of (nb : list (list nat)) : list nat :=
  flat_map (fun i => map (fun j => Nat.max i j - Nat.min i j)%nat (nth i nb [])) (seq 0 (length nb)).

(** [perm] lists the new position of each example *)
Definition reordering (N : nat) (perm : list nat) : Prop := Permutation perm (seq 0 N).
(** the table of the dataset in which example i has moved to position perm[i] *)
Definition reordered (perm : list nat) (nb nb' : list (list nat)) : Prop :=
  length nb' = length nb /\
  forall i, (i < length nb)%nat -> nth (nth i perm 0%nat) nb' [] = map (fun j => nth j perm 0%nat) (nth i nb []).
(** the dataset in reverse order *)
Definition mirror (nb : list (list nat)) : list (list nat) := rev (map (map (fun j => length nb - 1 - j)%nat) nb).
