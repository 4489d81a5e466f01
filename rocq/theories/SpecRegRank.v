(** * Vocabulary for regression label scores *)
From Coq Require Import Reals List Bool Arith.
From Verif Require Import Base ModelRegRank.
Import ListNotations.
Open Scope R_scope.

(** an array whose entries fill its shape *)
Definition well_formed (a : array) : Prop := length (entries a) = fold_right Nat.mul 1%nat (shape a).
(** all axes but one have length one, and that one has length [n] *)
Definition along_one_axis (sh : list nat) (n : nat) : Prop :=
  exists before after, sh = before ++ n :: after /\ (forall d, In d (before ++ after) -> d = 1%nat).
(** a column of at least two numbers *)
Definition column (a : array) (n : nat) : Prop := (2 <= n)%nat /\ along_one_axis (shape a) n /\ numeric a = true.
Definition no_missing (a : array) : Prop := forall x, In x (entries a) -> x <> None.
(** the plain one-dimensional array of these numbers *)
Definition vec (l : list R) : array := {| shape := [length l]; entries := map Some l; numeric := true |}.
(** the [i]-th number of an array *)
Definition holds_at (a : array) (i : nat) (x : R) : Prop := nth_error (entries a) i = Some (Some x).
