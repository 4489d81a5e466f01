(** * Vocabulary for feature data (C127) *)
From Coq Require Import List ZArith Bool Arith.
From Verif Require Import Base ModelFeatures.
Import ListNotations.
Open Scope nat_scope.

Section Rows.
Context {V : Type}.
Variable zero : V.
Variable plus : V -> V -> V.

(** a sparse matrix in compressed row format whose arrays hold exactly its stored entries *)
Definition well_formed (m : @csr V) : Prop :=
  length (c_indptr m) = S (fst (c_shape m)) /\ nth 0 (c_indptr m) 1 = 0 /\
  (forall i, i < fst (c_shape m) -> nth i (c_indptr m) 0 <= nth (S i) (c_indptr m) 0) /\
  nth (fst (c_shape m)) (c_indptr m) 0 = length (c_data m) /\ length (c_indices m) = length (c_data m).
(** the entry in row [i] and column [j]: the sum of the values stored for it *)
Definition stored (m : @csr V) (i j : nat) : list V :=
  let lo := nth i (c_indptr m) 0 in let hi := nth (S i) (c_indptr m) 0 in
  map snd (filter (fun e => Nat.eqb (fst e) j) (firstn (hi - lo) (skipn lo (combine (c_indices m) (c_data m))))).
Definition entry (m : @csr V) (i j : nat) : V := fold_right plus zero (stored m i j).
Definition dense_row (m : @csr V) (i : nat) : list V := map (entry m i) (seq 0 (snd (c_shape m))).

(** the examples a two-dimensional feature object holds, each with [w] numbers *)
Inductive format := DenseArray | Pandas | Sparse.
Definition holds (f : format) (X : @features V) (w : nat) (R : list (list V)) : Prop :=
  (forall r, In r R -> length r = w) /\
  match f, X with
  | DenseArray, FArray a => shape a = [length R; w] /\ entries a = concat R
  | Pandas, FPandas ix rows => rows = R /\ length ix = length R
  | Sparse, FSparse m => well_formed m /\ c_shape m = (length R, w) /\ R = map (dense_row m) (seq 0 (length R))
  | _, _ => False
  end.
End Rows.
