(** * Vocabulary for scoring a data set part by part (C157) *)
From Coq Require Import QArith Reals List Bool Arith.
From Verif Require Import Base ModelOutlier ModelSegmentation.
Import ListNotations.

(** two ensembles of predictions put together: each model's predictions for both parts *)
Definition both_parts {A} (pps1 pps2 : list (list A)) : list (list A) := map (fun q => fst q ++ snd q) (combine pps1 pps2).
(** the images of two stacks *)
Definition stacked {A} (a b : arr3 A) : arr3 A :=
  {| sN := sN a + sN b; sH := sH a; sW := sW a;
     at3 := fun n i j => if Nat.ltb n (sN a) then at3 a n i j else at3 b (n - sN a) i j |}.
Definition stacked_probs (p q : arr4) : arr4 :=
  {| tN := tN p + tN q; tK := tK p; tH := tH p; tW := tW p;
     at4 := fun n k i j => if Nat.ltb n (tN p) then at4 p n k i j else at4 q (n - tN p) k i j |}.
Definition same_arr {A} (a b : arr3 A) : Prop :=
  sN a = sN b /\ sH a = sH b /\ sW a = sW b /\
  forall n i j, (n < sN a)%nat -> (i < sH a)%nat -> (j < sW a)%nat -> at3 a n i j = at3 b n i j.
(** [f] consists of the points of [f1] followed by those of [f2], seen by the nearest-neighbour search *)
Definition joined {F} (B : backend F) (f1 f2 f : F) : Prop :=
  two_dim B f = true /\ (forall t, same_dim B t f1 = true -> same_dim B t f2 = true -> same_dim B t f = true) /\
  forall t n, kneighbors B t (Some f) n = kneighbors B t (Some f1) n ++ kneighbors B t (Some f2) n.
(** a call with predicted probabilities (of [K] classes) or with features, without labels *)
Definition of_probs {F} (pp : list (list Q)) (K : nat) : input F := {| in_features := None; in_pred_probs := Some (pp, K); in_labels := None |}.
Definition of_features {F} (f : F) : input F := {| in_features := Some f; in_pred_probs := None; in_labels := None |}.
(** equal numbers, or both undefined *)
Definition agree (x y : option Q) : Prop := match x, y with Some a, Some b => Qeq a b | None, None => True | _, _ => False end.
