(** * Vocabulary for C185 *)
From Coq Require Import QArith List Arith.
From Verif Require Import Base.
Import ListNotations.
Open Scope Q_scope.

(** number of examples [i] with a property *)
Fixpoint how_many (n : nat) (P : nat -> bool) : nat := match n with O => O | S m => ((if P m then 1 else 0) + how_many m P)%nat end.
Definition labelled (s : list nat) (i : nat) : bool := Nat.eqb (nth i s 0%nat) 1.
Definition predicted (p : list Q) (i : nat) : bool := Qle_bool (1 # 2) (nth i p 0).
Definition n_pos (s : list nat) : nat := how_many (length s) (labelled s).
Definition n_pred (s : list nat) (p : list Q) : nat := how_many (length s) (predicted p).
Definition n_hit (s : list nat) (p : list Q) : nat := how_many (length s) (fun i => andb (labelled s i) (predicted p i)).
Definition precision (s : list nat) (p : list Q) : Q := Qnat (n_hit s p) / Qnat (n_pred s p).
Definition recall (s : list nat) (p : list Q) : Q := Qnat (n_hit s p) / Qnat (n_pos s).
Definition f1 (s : list nat) (p : list Q) : Q := 2 * precision s p * recall s p / (precision s p + recall s p).
Definition positive_share (s : list nat) : Q := Qnat (n_pos s) / Qnat (length s).
