(** * Subtypes of object-detection errors (property C169) *)
From Coq Require Import QArith Reals List.
From Verif Require Import Base ModelDetection ModelBoxPool.
Import ListNotations.

Inductive subtype := Overlooked | Badloc | Swap.
Definition weight_of (w : agg_weights) (s : subtype) : Q :=
  match s with Overlooked => w_overlooked w | Badloc => w_badloc w | Swap => w_swap w end.
(** the score of an image for one subtype, as the public functions give it with default parameters, plus the 1e-100
    that is added before taking the logarithm *)
Definition subtype_scores (dist : box -> box -> Q) (check : bool) (labels : list image_label) (predictions : list image_pred)
           (s : subtype) : list R :=
  pool_box_scores_per_image None
    match s with
    | Overlooked => compute_overlooked_box_scores dist (9 # 10) (95 # 100) labels predictions
    | Badloc => map (map Some) (compute_badloc_box_scores dist (9 # 10) (1 # 2) labels predictions)
    | Swap => map (map Some) (compute_swap_box_scores dist (9 # 10) (95 # 100) check labels predictions)
    end.
Definition subtype_score dist check labels predictions (s : subtype) (i : nat) : R :=
  (nth i (subtype_scores dist check labels predictions s) 0 + Q2R (1 # 10 ^ 100))%R.
(** the weight [d] is moved from the subtype [x] to the subtype [y] *)
Definition moved (d : Q) (x y : subtype) (w w' : agg_weights) : Prop :=
  x <> y /\ weight_of w' x == weight_of w x - d /\ weight_of w' y == weight_of w y + d /\
  forall z, z <> x -> z <> y -> weight_of w' z == weight_of w z.
