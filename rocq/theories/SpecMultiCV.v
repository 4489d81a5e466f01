(** * Vocabulary for cross-validation of multi-label data *)
From Coq Require Import QArith List Bool Arith Permutation.
From Verif Require Import Base.
Import ListNotations.
Open Scope Q_scope.

(** one row of [K] zeros and ones per example *)
Definition indicators (K : nat) (y : list (list nat)) : Prop :=
  y <> [] /\ (forall r, In r y -> length r = K /\ forall v, In v r -> v = 0%nat \/ v = 1%nat).
Definition with_class (y : list (list nat)) (c e : nat) : Prop := (e < length y)%nat /\ nth c (nth e y []) 0%nat = 1%nat.
Definition without_class (y : list (list nat)) (c e : nat) : Prop := (e < length y)%nat /\ nth c (nth e y []) 0%nat = 0%nat.
Definition divided (K : nat) (y : list (list nat)) : Prop :=
  forall c, (c < K)%nat -> (exists e, with_class y c e) /\ (exists e, without_class y c e).

(** at the first class where they differ, the first row lacks it *)
Definition comes_before (a b : list nat) : Prop :=
  exists p, (p < length a)%nat /\ firstn p a = firstn p b /\ (nth p a 0 < nth p b 0)%nat.

(** every example is in exactly one test set, which lists it once; the indices of the training sets are in range *)
Definition covers (n : nat) (splits : list (list nat * list nat)) : Prop :=
  Permutation (concat (map snd splits)) (seq 0 n).

(** a classifier that predicts one row per example *)
Definition row_per_example {A} (fit_predict : list A -> list (list nat) -> list A -> list (list Q)) : Prop :=
  forall Xt yt Xh, length (fit_predict Xt yt Xh) = length Xh.

(** the rows of [l] at the given positions *)
Definition rows_at {A} (d : A) (idx : list nat) (l : list A) : list A := map (fun i => nth i l d) idx.
