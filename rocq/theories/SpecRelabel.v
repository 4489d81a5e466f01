(** * Vocabulary for renaming the classes of object-detection data (C156) *)
From Coq Require Import QArith List Arith.
From Verif Require Import Base ModelDetection SpecRows.
Import ListNotations.
Open Scope Q_scope.

(** class [k] is renamed to the [k]-th entry of [names]: in the annotations ... *)
Definition renamed_boxes (names : list nat) (labels : list image_label) : list image_label :=
  map (map (fun kb => (nth (fst kb) names 0%nat, snd kb))) labels.
(** ... and in the predictions, where the array of class [k] moves to the new place *)
Definition renamed_predictions (names : list nat) (predictions predictions' : list image_pred) : Prop :=
  Forall2 (fun p p' => length p' = length p /\ forall k, (k < length p)%nat -> nth (nth k names 0%nat) p' [] = nth k p [])
    predictions predictions'.
