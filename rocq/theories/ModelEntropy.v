(** * Model of the entropy based scores (real-valued part of cleanlab/rank.py and
      cleanlab/internal/label_quality_utils.py) *)
From Coq Require Import Reals List Arith.
Import ListNotations.
Open Scope R_scope.

(** numpy [sum] of a 1-d array of reals. *)
Definition rsum (l : list R) : R := fold_right Rplus 0 l.

(** scipy.special.xlogy(p, p): 0 for p = 0. *)
Definition xlogx (p : R) : R := if Req_EM_T p 0 then 0 else p * ln p.

(** cleanlab/internal/label_quality_utils.py:68-118 [get_normalized_entropy] for one row
    ([min_allowed_prob=None]; the range check of line 106 is a hypothesis of the theorems). *)
Definition normalized_entropy (row : list R) : R :=
  - rsum (map xlogx row) / ln (INR (length row)).

(** cleanlab/rank.py:545-582 [get_confidence_weighted_entropy_for_each_label] for one example;
    CLIPPING_LOWER_BOUND = 1e-6. *)
Definition clipping_lower_bound : R := / 1000000.
Definition confidence_weighted_entropy (label : nat) (row : list R) : R :=
  let self_confidence := Rmax (nth label row 0) clipping_lower_bound in
  let score := normalized_entropy row / self_confidence in
  let clipped := Rmax score clipping_lower_bound in
  ln (score + 1) / clipped.
