(** * Vocabulary for C184 *)
From Coq Require Import QArith List.
From Verif Require Import Base SpecCount.
Import ListNotations.
Open Scope Q_scope.

Definition row_total (K : nat) (m : list (list Q)) (i : nat) : Q := qsum (tab K (fun j => mget m i j)).
Definition col_total (K : nat) (m : list (list Q)) (j : nat) : Q := qsum (tab K (fun i => mget m i j)).
(** entry [i] of the product of a matrix and a vector *)
Definition times_vector (K : nat) (m : list (list Q)) (v : list Q) (i : nat) : Q := qsum (tab K (fun j => mget m i j * nth j v 0)).
Definition left_inverse (K : nat) (inv m : list (list Q)) : Prop :=
  length inv = K /\ (forall r, In r inv -> length r = K) /\
  forall i j, (i < K)%nat -> (j < K)%nat -> qsum (tab K (fun s => mget inv i s * mget m s j)) == if Nat.eqb i j then 1 else 0.
(** fraction of the labels that are [k] *)
Definition share (labels : list nat) (k : nat) : Q := Qnat (n_labelled k labels) / Qnat (length labels).
(** between one millionth and one *)
Definition bounded (q : Q) : Q := qmin (qmax q (1 # 1000000)) 1.
