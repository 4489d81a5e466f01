(** * Vocabulary of the token-classification properties *)
From Coq Require Import String QArith Reals List ZArith Bool Arith Sorted.
From Verif Require Import Base.
Import ListNotations.
Open Scope nat_scope.

(** token [j] of sentence [i] exists, for sentences of the given lengths *)
Definition in_text (lengths : list nat) (ij : nat * nat) : Prop :=
  fst ij < length lengths /\ snd ij < nth (fst ij) lengths 0.

(** number of tokens before token [j] of sentence [i] *)
Definition position (lengths : list nat) (ij : nat * nat) : nat :=
  nsum (firstn (fst ij) lengths) + snd ij.

(** the entry of a nested list at token [j] of sentence [i] *)
Definition entry {A} (d : A) (x : list (list A)) (ij : nat * nat) : A := nth (snd ij) (nth (fst ij) x []) d.

(** probability mass of the old classes merged into class [c] *)
Definition merged_mass (maps : list Z) (row : list Q) (c : nat) : Q :=
  qsum (map (fun i => if Z.eqb (nth i maps 0%Z) (Z.of_nat c) then nth i row 0%Q else 0%Q) (seq 0 (length row))).
(** probability mass of the old classes that are not dropped *)
Definition kept_mass (maps : list Z) (row : list Q) : Q :=
  qsum (map (fun i => if Z.ltb (nth i maps 0%Z) 0 then 0%Q else nth i row 0%Q) (seq 0 (length row))).

(** how many issues satisfy [P] *)
Definition how_many {A} (P : A -> bool) (l : list A) : nat := length (filter P l).
