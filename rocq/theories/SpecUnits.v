(** * Vocabulary for changing the unit in which features are measured (C146) *)
From Coq Require Import QArith List.
From Verif Require Import Base ModelKnn SpecKnn SpecOutlierCheck.
Import ListNotations.
Open Scope Q_scope.

(** the neighbour graph of the same examples with all distances multiplied by [c] *)
Definition scaled_graph (c : Q) (g : graph) : graph := (map (map (Qmult c)) (fst g), snd g).
(** the distance is zero, or at least [eps] in both units *)
Definition measurable (eps c x : Q) : Prop := x == 0 \/ (eps <= x /\ eps <= c * x).
(** the median is at least one millionth in both units *)
Definition measurable_median (c : Q) (l : list Q) : Prop := exists m, is_median l m /\ 1 # 1000000 <= m /\ 1 # 1000000 <= c * m.

(** the same for real distances *)
From Coq Require Import Reals.
From Verif Require Import ModelOutlier.
Open Scope R_scope.
Definition measurable_R (c x : R) : Prop := x = 0 \/ (/ 1000000 <= x /\ / 1000000 <= c * x).
(** the search finds the distances of [f'] [q'] to be [c] times those of [f] [q] *)
Definition scaled_search {F} (B : backend F) (c : R) (f f' : F) (q q' : option F) : Prop :=
  forall n, kneighbors B f' q' n = map (map (Rmult c)) (kneighbors B f q n).
Definition plain_metric (m : metric) : Prop := m = Cosine \/ m = Euclidean \/ m = OtherMetric.
(** mean distances to the first [k] of the neighbours listed *)
Definition mean_of (k : nat) (rows : list (list R)) : list R :=
  map (fun row => fold_right Rplus 0 (firstn k row) / INR (length (firstn k row))) rows.
