(** * Vocabulary of the segmentation properties *)
From Coq Require Import QArith Reals List ZArith Bool Arith Sorted.
From Verif Require Import Base ModelUtil ModelCount ModelSegmentation SpecCount SpecFilter SpecBatched.
Import ListNotations.
Open Scope nat_scope.

(** the pixel exists *)
Definition in_image {A} (a : arr3 A) (n i j : nat) : Prop := n < sN a /\ i < sH a /\ j < sW a.
(** number of pixels before this one, image after image, row after row *)
Definition pixel_index (h w n i j : nat) : nat := n * (h * w) + i * w + j.
(** same shape and same entries *)
Definition same_array {A} (a b : arr3 A) : Prop :=
  sN a = sN b /\ sH a = sH b /\ sW a = sW b /\ forall n i j, in_image a n i j -> at3 a n i j = at3 b n i j.
(** all labels and all probability rows, one entry per pixel *)
Definition all_labels (labels : arr3 nat) : list nat :=
  flat_map (fun n => flat_map (fun i => map (fun j => at3 labels n i j) (seq 0 (sW labels))) (seq 0 (sH labels)))
           (seq 0 (sN labels)).
Definition all_rows (pp : arr4) : list (list Q) :=
  flat_map (fun n => flat_map (fun i => map (fun j => map (fun k => at4 pp n k i j) (seq 0 (tK pp)))
     (seq 0 (tW pp))) (seq 0 (tH pp))) (seq 0 (tN pp)).
(** the class predicted at a pixel, by its defining property *)
Definition predicted_class (pp : arr4) (n i j c : nat) : Prop :=
  c < tK pp /\ (forall k, k < tK pp -> (at4 pp n k i j <= at4 pp n c i j)%Q) /\
  (forall k, k < c -> (at4 pp n k i j < at4 pp n c i j)%Q).
(** the pixel is counted: the class [c] it is predicted as is not the given label, and the predicted probability
    reaches (up to [1e-6]) the average predicted probability of [c] among the pixels labelled [c]; for a class
    without pixels the floor [2e-6] is used *)
Definition confidently_other (labels : list nat) (rows : list (list Q)) (l : nat) (row : list Q) : Prop :=
  let c := argmax row in
  c <> l /\
  (In c labels -> exists avg, is_average (own_probs c labels rows) avg /\ (avg - (1 # 1000000) <= nth c row 0)%Q) /\
  (~ In c labels -> ((2 # 1000000) - (1 # 1000000) <= nth c row 0)%Q).
(** the pixels of a stack of images *)
Definition all_pixels (N h w : nat) : list (nat * nat * nat) :=
  flat_map (fun n => flat_map (fun i => map (fun j => (n, i, j)) (seq 0 w)) (seq 0 h)) (seq 0 N).
Definition image_pixels (h w : nat) : list (nat * nat) := flat_map (fun i => map (fun j => (i, j)) (seq 0 w)) (seq 0 h).
