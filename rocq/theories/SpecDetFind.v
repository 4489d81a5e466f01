(** * Vocabulary for what the object-detection search finds *)
From Coq Require Import QArith List.
From Verif Require Import Base ModelDetection SpecDetection.
Import ListNotations.
Open Scope Q_scope.

(** the annotation of an image agrees with the predictions: every confident prediction overlaps a given box, every given
    box with a confident overlapping prediction of its class has one of overlap above 2/9, and no confident prediction of
    another class overlaps a given box by 7/9 or more *)
Definition agrees (l : image_label) (p : image_pred) : Prop :=
  (forall k d, predicted p k d -> 95 # 100 <= snd d -> exists kb, In kb l /\ overlap (snd kb) (fst d)) /\
  (forall k b, In (k, b) l ->
     (forall d, predicted p k d -> 1 # 2 < snd d -> ~ overlap b (fst d)) \/
     exists d, predicted p k d /\ 1 # 2 < snd d /\ 2 # 9 < iou b (fst d)) /\
  (forall k k' b d, In (k, b) l -> predicted p k' d -> k' <> k -> 95 # 100 < snd d -> iou b (fst d) < 7 # 9).
