(** * Vocabulary for Datalab's outlier flags *)
From Coq Require Import QArith Reals List Bool Arith Permutation Sorted.
From Verif Require Import Base.
Import ListNotations.
Open Scope Q_scope.

(** [q] is the quantile of order [p] of the list, by linear interpolation between order statistics *)
Definition is_quantile (p : Q) (l : list Q) (q : Q) : Prop :=
  exists s lo fr, Permutation s l /\ StronglySorted Qle s /\ (lo < length l)%nat /\ 0 <= fr < 1 /\
    p * Qnat (length l - 1) == Qnat lo + fr /\ q == (1 - fr) * nth lo s 0 + fr * nth (S lo) s 0.

(** mean distance of an example to its neighbours *)
Definition mean_distance (dist : list (list Q)) (i : nat) : Q :=
  fold_right Qplus 0 (nth i dist []) / Qnat (length (nth i dist [])).

Definition flagged (flags : list bool) (i : nat) : Prop := nth i flags false = true.
(** how many examples are flagged *)
Definition flagged_count (flags : list bool) : nat := length (filter (fun b => b) flags).
(** [l'] is [l] read in the order [perm] *)
Definition read_in_order {A} (d : A) (perm : list nat) (l l' : list A) : Prop := l' = map (fun i => nth i l d) perm.

(** [m] is the median of the non-empty real list [l] *)
Definition is_median_R (l : list R) (m : R) : Prop :=
  exists s, Permutation s l /\ StronglySorted Rle s /\
    ((exists h, length l = (2 * h + 1)%nat /\ m = nth h s 0%R) \/
     (exists h, length l = (2 * h + 2)%nat /\ (2 * m = nth h s 0 + nth (S h) s 0)%R)).
(** np.sort of a real array *)
Definition sorts_R (sort : list R -> list R) : Prop := forall l, Permutation (sort l) l /\ StronglySorted Rle (sort l).
