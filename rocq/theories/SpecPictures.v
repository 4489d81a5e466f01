(** * Vocabulary for reordering the images and boxes of object-detection data (C145) *)
From Coq Require Import QArith List Arith Permutation.
From Verif Require Import Base ModelDetection SpecDetection.
Import ListNotations.
Open Scope Q_scope.

(** [move] keeps the overlaps and the distances of boxes *)
Definition keeps (dist : box -> box -> Q) (move : box -> box) : Prop :=
  (forall a, well_formed a -> well_formed (move a)) /\
  forall a b, iou (move a) (move b) == iou a b /\ dist (move a) (move b) == dist a b.

(** the second annotation and prediction consist of the moved boxes of the first ones, listed in any order *)
Definition same_picture (move : box -> box) (l l' : image_label) (p p' : image_pred) : Prop :=
  Permutation l' (map (fun kb => (fst kb, move (snd kb))) l) /\
  Forall2 (fun ds ds' => Permutation ds' (map (fun d => (move (fst d), snd d)) ds)) p p'.

(** a picture of width [W] mirrored left to right *)
Definition mirror (W : Q) (b : box) : box := mk_box (W - bx2 b) (by1 b) (W - bx1 b) (by2 b).

(** no two boxes predicted for one class have the same probability *)
Definition distinct_probabilities (predictions : list image_pred) : Prop :=
  forall k, ForallOrdPairs (fun d d' : box * Q => ~ snd d == snd d') (concat (map (fun p => nth k p []) predictions)).
